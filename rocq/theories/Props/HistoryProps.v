(** C21: transition history. *)
From Verif.Model Require Import Base Phase History.
From Verif.Spec Require Import PhaseSpec HistorySpec.
From Verif.Proofs Require Import PhaseProofs VacuumProofs HistoryProofs.
From Verif.Props Require Import PhaseProps.
Open Scope Z_scope.

(** what the history evaluation sees of the list of coexisting pairs *)
Definition as_hpair (c : coex) : hpair :=
  {| h_id := Z.to_nat (pair_id c); h_false := pid (false_phase c); h_true := pid (true_phase c) |}.

(** the history is the chain of highest completion temperatures *)
Theorem C21_history_is_chain :
  forall minus_one compl pairs fuel hs ps,
    (forall i T, nth_error compl i = Some (Some T) -> minus_one <= T) ->
    (forall p, In p pairs -> 0 <= h_true p) ->
    transition_history minus_one compl pairs fuel = Ok (hs, ps) ->
    chain pairs compl 0 hs ps.
Proof. intros m c pairs fuel hs ps H1 H2. exact (evaluate_chain m c H1 pairs H2 fuel 0 hs ps). Qed.
Print Assumptions C21_history_is_chain.

(** it terminates for every list of pairs built from a phase list with ids 0..n-1, every
    pair having its entry in the table of completion temperatures *)
Theorem C21_terminates :
  forall minus_one compl phases,
    (forall i T, nth_error compl i = Some (Some T) -> minus_one <= T) ->
    reachable phases ->
    let pairs := setCoexPhases (assign_ids (sort_by_Thigh phases)) in
    length compl = length pairs ->
    exists fuel h, transition_history minus_one compl (map as_hpair pairs) fuel = Ok h.
Proof.
  intros m compl phases H1 HR pairs HL. destruct (coex_reachable phases HR) as (A & _ & _ & D). fold pairs in A, D.
  apply (evaluate_terminates m compl H1).
  - intros p Hp. apply in_map_iff in Hp as (c & <- & Hc). apply In_nth_error in Hc as (k & Hk). cbn [as_hpair h_id].
    rewrite (D k c Hk), Nat2Z.id, HL. apply nth_error_Some. congruence.
  - intros p Hp. apply in_map_iff in Hp as (c & <- & Hc). cbn [as_hpair h_false h_true].
    destruct (A c Hc) as (i & j & f & t & Hij & Hf & Ht & -> & -> & _ & _ & Ho & _).
    destruct (final_order phases) as (F & _). rewrite (F i f Hf) in *. lia.
Qed.
Print Assumptions C21_terminates.

(** With two phases of the same id (possible after gap patching, C17) it does not. *)
Theorem C21_terminates_refuted :
  exists minus_one compl pairs,
    (forall i T, nth_error compl i = Some (Some T) -> minus_one <= T) /\
    (forall p, In p pairs -> 0 <= h_true p /\ (h_id p < length compl)%nat) /\
    forall fuel, transition_history minus_one compl pairs fuel = OutOfFuel.
Proof.
  exists (-1), [Some 50], [{| h_id := 0; h_false := 0; h_true := 0 |}]. split; [|split].
  - intros [|[|i]] T H; cbn in H; try discriminate. injection H as <-. discriminate.
  - intros p [<-|[]]. cbn. lia.
  - intro fuel. unfold transition_history. induction fuel as [|f IH]; [reflexivity|]. cbn in *. now rewrite IH.
Qed.
Print Assumptions C21_terminates_refuted.

(** The chain need not be possible in a cooling universe: the second transition may
    complete at a higher temperature than the first one. *)
Theorem C21_cooling_refuted :
  exists compl pairs,
    transition_history (-1) compl pairs 5 = Ok ([0; 1; 2], [0%nat; 1%nat]) /\
    (forall p, In p pairs -> h_false p < h_true p) /\
    nth_error compl 0 = Some (Some 50) /\ nth_error compl 1 = Some (Some 80).
Proof.
  exists [Some 50; Some 80], [{| h_id := 0; h_false := 0; h_true := 1 |}; {| h_id := 1; h_false := 1; h_true := 2 |}].
  split; [reflexivity|]. split; [|split; reflexivity]. intros p [<-|[<-|[]]]; reflexivity.
Qed.
Print Assumptions C21_cooling_refuted.

(** different histories are printed differently *)
Theorem C21_printed_history_unambiguous :
  forall ids ps ids' ps', length ids = S (length ps) -> length ids' = S (length ps') ->
    render ids ps = render ids' ps' -> ids = ids' /\ ps = ps'.
Proof. exact render_inj. Qed.
Print Assumptions C21_printed_history_unambiguous.

(** a history is printed as phase-(pair)->phase-(pair)->phase *)
Theorem C21_printed_history_format :
  forall ids ps, length ids = S (length ps) -> printed to_string ids ps (render ids ps).
Proof. exact render_printed. Qed.
Print Assumptions C21_printed_history_format.

Example C21_nonvacuous :
  let pairs := [{| h_id := 0; h_false := 0; h_true := 1 |}; {| h_id := 1; h_false := 0; h_true := 2 |};
                {| h_id := 2; h_false := 1; h_true := 2 |}; {| h_id := 3; h_false := 2; h_true := 3 |}] in
  transition_history (-1) [Some 50; Some 80; None; Some 10] pairs 9 = Ok ([0; 2; 3], [1%nat; 3%nat]) /\
  render [0; 2; 3]%nat [1; 3]%nat = s2l "0-(1)->2-(3)->3" /\
  reachable three_phases /\ length (setCoexPhases (assign_ids (sort_by_Thigh three_phases))) = 1%nat.
Proof. split; [reflexivity|]. split; [reflexivity|]. split; [exact three_phases_reachable|reflexivity]. Qed.
