(** Transition history: src/transition_tracer/transition_tracer.cpp 400-478. *)
From Coq Require Import DecimalString Decimal.
From Verif.Model Require Export Base.
Open Scope Z_scope.

(** what the evaluation reads from a CoexPhases object *)
Record hpair := { h_id : nat; h_false : Z; h_true : Z }.

Section History.
(** the double -1.0; temperatures are only compared and are [Z] as in Model/Phase.v *)
Variable minus_one : Z.
(** vec_trans_data[i].compl_temp; [None] = no value or NaN (value_or(EmptyValue), lines 425-428) *)
Variable compl : list (option Z).

(** local state of one round: tmp_compl_temp, tmp_next_phase_id, tmp_pair_id *)
Record round := { best_T : Z; best_next : Z; best_pair : nat }.

(** loop over the pairs, lines 419-454; .at() throws out_of_range *)
Fixpoint scan (cur : Z) (ps : list hpair) (r : round) : outcome round :=
  match ps with
  | [] => Ok r
  | p :: rest =>
      if h_false p =? cur then
        match nth_error compl (h_id p) with
        | None => Throw OutOfRange
        | Some None => scan cur rest r
        | Some (Some T) =>
            if (best_T r =? minus_one) || (best_T r <? T)
            then scan cur rest {| best_T := T; best_next := h_true p; best_pair := h_id p |}
            else scan cur rest r
        end
      else scan cur rest r
  end.

(** while (not final_true_phase_reached), lines 412-466; result: transition_history and
    pair_history from the current phase on *)
Fixpoint evaluate (pairs : list hpair) (fuel : nat) (cur : Z) : outcome (list Z * list nat) :=
  match fuel with
  | O => OutOfFuel
  | S f =>
      bind (scan cur pairs {| best_T := minus_one; best_next := -1; best_pair := 0 |}) (fun r =>
        if best_next r =? -1 then Ok ([cur], [])
        else bind (evaluate pairs f (best_next r)) (fun h => Ok (cur :: fst h, best_pair r :: snd h)))
  end.

(** initial false phase 0, line 404 *)
Definition transition_history (pairs : list hpair) (fuel : nat) := evaluate pairs fuel 0.
End History.

(** std::to_string of a non-negative int *)
Definition to_string (n : nat) : str := s2l (NilZero.string_of_uint (Nat.to_uint n)).

(** the output string, lines 467-478; phase ids are non-negative *)
Fixpoint render_rest (ids : list nat) (ps : list nat) : str :=
  match ids, ps with
  | i :: ids', p :: ps' => s2l "-(" ++ to_string p ++ s2l ")->" ++ to_string i ++ render_rest ids' ps'
  | _, _ => []
  end.
Definition render (ids : list nat) (ps : list nat) : str :=
  match ids with [] => [] | i :: r => to_string i ++ render_rest r ps end.
