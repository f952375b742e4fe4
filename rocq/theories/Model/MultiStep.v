(** The recursive multi-step tracer: Vacuum::MultiStepPTTracer and
    Vacuum::MinimumFoundAlready, src/minimum_tracer/minimum_tracer.cpp 2423-2514 and
    2776-2798.  Temperatures are as in Model/Phase.v; all numerics are oracles that may
    answer differently at every call (the argument [k] counts the calls). *)
From Verif.Model Require Export Base Phase.
Open Scope Z_scope.

(** PhasesList[ind] = ... *)
Fixpoint update_at (i : nat) (q : phase) (l : list phase) : list phase :=
  match l, i with
  | [], _ => []
  | _ :: r, O => q :: r
  | x :: r, S i' => x :: update_at i' q r
  end.

Section MultiStep.
(** results of TrackPhase inside Phase::Get *)
Variable track : nat -> minimum -> Z -> list minimum.
(** L2NormVector(Distance) / nVEV < 1 for phase number i *)
Variable near : nat -> nat -> minimum -> bool.
(** minima tracked by the Phase constructors started at a temperature; the flag is true
    for the constructor that starts from the high-temperature VEV *)
Variable trace : nat -> bool -> Z -> list minimum.
Variable retrack : nat -> phase -> list minimum.
Variable cmp : nat -> nat -> phase -> phase -> compare_result.
(** EWSBVEV(global minimum at T_low) > 1e10 *)
Variable non_bfb : bool.
(** MinTracer->HighTemperatureVEV.size() > 0 *)
Variable ht_vev : bool.
Variable Tlow Thigh : Z.
(** one GeV *)
Variable one : Z.
(** the equally spaced temperatures T_low + (T_high - T_low) / (num_points + 1) * i *)
Variable grid : list Z.

(** MinimumFoundAlready, lines 2776-2798 (the result is only compared with -1) *)
Fixpoint found_loop (k n i : nat) (ps : list phase) (T : Z) : outcome (list phase * bool) :=
  match n with
  | O => Ok (ps, false)
  | S n' =>
      match nth_error ps i with
      | None => Ok (ps, false)
      | Some q =>
          if (T_high q <? T) || (T <? T_low q) then found_loop k n' (S i) ps T
          else bind (Get (track k) q T) (fun r =>
                 let ps' := update_at i (fst r) ps in
                 if near k i (snd r) then Ok (ps', true) else found_loop k n' (S i) ps' T)
      end
  end.
Definition MinimumFoundAlready (k : nat) (ps : list phase) (T : Z) : outcome (list phase * bool) :=
  found_loop k (length ps) 0 ps T.

(** Phase phase(...); addPhase(phase): the new phase list and phase.T_low afterwards *)
Definition trace_and_add (k : nat) (ht : bool) (T : Z) (ps : list phase) : list phase * Z :=
  let '(ps', p) := addPhase (retrack k) (cmp k) ps (make_phase (trace k ht T)) in (ps', T_low p).

(** the grid loop, lines 2441-2466 *)
Fixpoint grid_loop (k : nat) (ts : list Z) (ps : list phase) : outcome (list phase) :=
  match ts with
  | [] => Ok ps
  | T :: r =>
      bind (MinimumFoundAlready k ps T) (fun f =>
        if snd f then grid_loop (S k) r (fst f)
        else grid_loop (S k) r (fst (trace_and_add k false T (fst f))))
  end.

(** result: the phase list and whether status_vacuum was set to Failure *)
Fixpoint MultiStepPTTracer (fuel k : nat) (Temp deltaT : Z) (ps : list phase) : outcome (list phase * bool) :=
  match fuel with
  | O => OutOfFuel
  | S fu =>
      if Temp <=? Tlow then
        if non_bfb then Ok (ps, true)
        else bind (grid_loop (S k) grid (fst (trace_and_add k false Tlow ps))) (fun ps' => Ok (ps', false))
      else
        let normal ps0 :=
          bind (MinimumFoundAlready (S k) ps0 Temp) (fun f =>
            if snd f then MultiStepPTTracer fu (S (S k)) (Temp + deltaT) 0 (fst f)
            else if Thigh <? Temp then Throw InvalidArgument
            else let '(ps', T') := trace_and_add (S k) false Temp (fst f) in
                 MultiStepPTTracer fu (S (S k)) T' (- one) ps') in
        if (Temp =? Thigh) && ht_vev then
          bind (MinimumFoundAlready k ps Temp) (fun f =>
            if snd f then normal (fst f)
            else let '(ps', T') := trace_and_add k true Temp (fst f) in
                 MultiStepPTTracer fu (S k) T' (- one) ps')
        else normal ps
  end.

(** Vacuum::Vacuum calls MultiStepPTTracer(T_high), line 2289; deltaT defaults to 0
    (minimum_tracer.h) *)
Definition run_multistep (fuel : nat) : outcome (list phase * bool) := MultiStepPTTracer fuel 0 Thigh 0 [].
End MultiStep.
