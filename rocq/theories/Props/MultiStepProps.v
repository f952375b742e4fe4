(** C18: the recursive multi-step tracer. *)
From Verif.Model Require Import Base Phase MultiStep.
From Verif.Spec Require Import PhaseSpec MultiStepSpec.
From Verif.Proofs Require Import PhaseProofs MultiStepProofs.
Open Scope Z_scope.

Definition at_ (t : Z) : minimum := {| temp := t; tag := 0; edge := 0 |}.
Definition no_compare (k i : nat) (q p : phase) : compare_result :=
  {| ext_existing := []; ext_new := []; coincide := false |}.

Lemma no_compare_inside : compares_inside no_compare. Proof. intros k i q p m []. Qed.
Lemma no_track_inside : tracks_inside (fun _ _ _ => []). Proof. intros k s T m []. Qed.
Lemma no_retrack_inside : retracks_inside (fun _ _ => []). Proof. intros k p m []. Qed.

(** It does not terminate if the phase that starts at the highest temperature consists of
    a single minimum: the phase is thrown away and the same call is made again. *)
Theorem C18_terminates_refuted :
  exists track near trace retrack cmp Tlow Thigh one grid,
    0 < one /\ Tlow < Thigh /\ tracks_inside track /\ retracks_inside retrack /\ compares_inside cmp /\
    (forall k ht T m, In m (trace k ht T) -> temp m = T) /\
    forall fuel, run_multistep track near trace retrack cmp false false Tlow Thigh one grid fuel = OutOfFuel.
Proof.
  exists (fun _ _ _ => []), (fun _ _ _ => false), (fun _ _ T => [at_ T]), (fun _ _ => []), no_compare, 0, 300, 1, [].
  split; [reflexivity|]. split; [reflexivity|]. split; [exact no_track_inside|]. split; [exact no_retrack_inside|].
  split; [exact no_compare_inside|]. split; [intros k ht T m [<-|[]]; reflexivity|].
  intro fuel. apply ms_stuck; [reflexivity|eauto|reflexivity].
Qed.
Print Assumptions C18_terminates_refuted.

(** It terminates if tracking stays in the requested ranges and every traced phase
    reaches below the temperature where it was found. *)
Theorem C18_terminates_partial :
  forall track near trace retrack cmp non_bfb ht_vev Tlow Thigh one grid,
    0 < one -> tracks_inside track -> retracks_inside retrack -> compares_inside cmp ->
    (forall k ht T, Tlow < T -> T_low (make_phase (trace k ht T)) < T) ->
    exists fuel r, run_multistep track near trace retrack cmp non_bfb ht_vev Tlow Thigh one grid fuel = Ok r.
Proof. exact run_terminates. Qed.
Print Assumptions C18_terminates_partial.

(** The phases can leave a gap: a phase with two minima is discarded if no third one is
    found, but tracing continues below it. *)
Theorem C18_coverage_refuted :
  exists track near trace retrack cmp Tlow Thigh one grid fuel ps,
    0 < one /\ tracks_inside track /\ retracks_inside retrack /\ compares_inside cmp /\
    run_multistep track near trace retrack cmp false false Tlow Thigh one grid fuel = Ok (ps, false) /\
    ~ covered one Tlow Thigh ps.
Proof.
  exists (fun _ _ _ => []), (fun _ _ _ => false),
    (fun _ _ T => if T =? 100 then [at_ 100; at_ 90; at_ 80] else if T =? 80 then [at_ 80; at_ 60]
                  else [at_ T; at_ (T / 2); at_ 0]),
    (fun _ _ => []), no_compare, 0, 100, 1, [], 5%nat.
  eexists. split; [reflexivity|]. split; [exact no_track_inside|]. split; [exact no_retrack_inside|].
  split; [exact no_compare_inside|]. split; [vm_compute; reflexivity|].
  intro C. destruct (C 70) as (q & Hq & L & H); [split; discriminate|].
  destruct Hq as [<-|[<-|[]]]; [destruct L|destruct H]; reflexivity.
Qed.
Print Assumptions C18_coverage_refuted.

(** Up to the step of one GeV there is no gap if every traced phase contains the
    temperature where it was found and at least three minima. *)
Theorem C18_coverage_partial :
  forall track near trace retrack cmp non_bfb ht_vev Tlow Thigh one grid,
    0 < one -> retracks_inside retrack -> compares_inside cmp ->
    (forall k ht T, Tlow < T ->
       In T (map temp (trace k ht T)) /\ (3 <= length (mins (make_phase (trace k ht T))))%nat) ->
    forall fuel ps failed,
      run_multistep track near trace retrack cmp non_bfb ht_vev Tlow Thigh one grid fuel = Ok (ps, failed) ->
      covered one (Tlow + 1) Thigh ps.
Proof. exact run_covers. Qed.
Print Assumptions C18_coverage_partial.

(** The run is reported as failed exactly if the minimum at the lowest temperature runs away. *)
Theorem C18_failure_flag :
  forall track near trace retrack cmp non_bfb ht_vev Tlow Thigh one grid fuel ps failed,
    run_multistep track near trace retrack cmp non_bfb ht_vev Tlow Thigh one grid fuel = Ok (ps, failed) ->
    failed = non_bfb.
Proof. intros. exact (ms_flag _ _ _ _ _ _ _ _ _ _ _ _ _ _ _ _ _ H). Qed.
Print Assumptions C18_failure_flag.

(** a run with several phases in which one temperature is found again *)
Definition demo_trace (k : nat) (ht : bool) (T : Z) : list minimum :=
  [at_ T; at_ (T - 10); at_ (T - 20); at_ (T + 5)].
Example C18_nonvacuous :
  (forall k ht T, 0 < T -> In T (map temp (demo_trace k ht T)) /\
     (3 <= length (mins (make_phase (demo_trace k ht T))))%nat /\ T_low (make_phase (demo_trace k ht T)) < T) /\
  exists ps, run_multistep (fun _ _ _ => []) (fun k i m => temp m =? 60) demo_trace (fun _ _ => []) no_compare
      false false 0 100 1 [50] 20 = Ok (ps, false) /\
    map (fun p => (T_low p, T_high p)) ps = [(80, 105); (60, 85); (39, 64); (19, 44); (-1, 24); (-20, 5); (30, 55)].
Proof.
  split.
  - intros k ht T H. split; [left; reflexivity|].
    destruct (phase_history (demo_trace k ht T) []) as (_ & I & _ & [_ L] & _); [discriminate|]. cbn [AddAll fold_left app] in I, L.
    split; [|specialize (L (T - 20)); cbn in L; lia].
    change (3%nat) with (length [T; T - 10; T - 20]).
    replace (length (mins (make_phase (demo_trace k ht T)))) with (length (temps (make_phase (demo_trace k ht T)))) by apply map_length.
    apply NoDup_incl_length.
    + repeat constructor; cbn; lia.
    + intros t Ht. apply I. cbn in *. tauto.
  - eexists. split; vm_compute; reflexivity.
Qed.
