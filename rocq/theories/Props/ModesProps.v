(** C19, C92-C95: the multi-step modes 0, 1, 2 and 'auto', and the constructor of Vacuum. *)
From Coq Require Import Lia.
From Verif.Model Require Import Base Phase MultiStep Modes.
From Verif.Spec Require Import PhaseSpec MultiStepSpec ModesSpec.
From Verif.Proofs Require Import PhaseProofs VacuumProofs MultiStepProofs ModesProofs ModesRuns ModesChecks ModesTwo VacuumRun ModesFailed.
Open Scope Z_scope.

Definition mt (t : Z) : minimum := {| temp := t; tag := 0; edge := 0 |}.
Definition no_merge (k i : nat) (q p : phase) : compare_result := {| ext_existing := []; ext_new := []; coincide := false |}.
Lemma no_merge_inside : compares_inside no_merge. Proof. intros k i q p m []. Qed.
Lemma no_more_inside : retracks_inside (fun _ _ => []). Proof. intros k p m []. Qed.
Ltac three := split; [cbn; tauto|do 3 eexists; split; [left; reflexivity|]; split; [right; left; reflexivity|]; split; [right; right; left; reflexivity|]; split; reflexivity].

(** C19: the overlap test of two stored phases says whether they exist at a common temperature *)
Theorem C19_ranges_meet :
  forall p q, well_formed p -> well_formed q -> (DoPhasesOverlap p q = true <-> overlap p q).
Proof.
  intros p q A B. apply good_well_formed in A, B.
  apply phases_overlap_iff; [pose proof (VacuumProofs.good_range _ A)|pose proof (VacuumProofs.good_range _ B)]; lia.
Qed.
Print Assumptions C19_ranges_meet.

(** C92: mode 0 *)
Theorem C92_statuses :
  forall track glob retrack cmp, retracks_inside retrack -> compares_inside cmp ->
  forall Tlow Thigh low high,
    inside Tlow Thigh low -> inside Tlow Thigh high ->
    (low = [] \/ In Tlow (map temp low)) -> (high = [] \/ In Thigh (map temp high)) ->
    exists ps st, MultiStepPTMode0 track glob retrack cmp low high [] TrSuccess = Ok (ps, st) /\
      (st = TrNoMinsAtBoundaries <-> no_length low \/ no_length high) /\
      (forall a b, ~ no_length low -> ~ no_length high -> highest a low -> lowest b high ->
        (st = TrNoCoverage <-> a <= b) /\
        (b < a -> exists m1 m2, st = if glob 0%nat m1 && glob 0%nat m2 then TrSuccess else TrNoGlobMinCoverage)) /\
      (st = TrSuccess -> long_from Tlow low -> long_from Thigh high -> covered 0 Tlow Thigh ps).
Proof. intros. apply mode0_statuses; auto. Qed.
Print Assumptions C92_statuses.

Example C92_nonvacuous :
  let low := [mt 0; mt 60; mt 120] in let high := [mt 300; mt 200; mt 100] in
  inside 0 300 low /\ inside 0 300 high /\ long_from 0 low /\ long_from 300 high /\ highest 120 low /\ lowest 100 high /\
  (exists ps, MultiStepPTMode0 (fun _ _ T => [mt T]) (fun _ _ => true) (fun _ _ => []) no_merge low high [] TrSuccess = Ok (ps, TrSuccess)) /\
  (exists ps, MultiStepPTMode0 (fun _ _ T => [mt T]) (fun _ m => temp m <? 110) (fun _ _ => []) no_merge low high [] TrSuccess = Ok (ps, TrNoGlobMinCoverage)) /\
  (exists ps, MultiStepPTMode0 (fun _ _ T => [mt T]) (fun _ _ => true) (fun _ _ => []) no_merge low [mt 300; mt 200; mt 120] [] TrSuccess = Ok (ps, TrNoCoverage)).
Proof.
  cbv zeta. split; [intros m [<-|[<-|[<-|[]]]]; cbn; lia|]. split; [intros m [<-|[<-|[<-|[]]]]; cbn; lia|].
  split; [split; [cbn; tauto|]; exists 0, 60, 120; cbn; repeat split; auto|].
  split; [split; [cbn; tauto|]; exists 100, 200, 300; cbn; repeat split; auto|].
  split; [split; [cbn; tauto|]; cbn; lia|]. split; [split; [cbn; tauto|]; cbn; lia|].
  repeat split; eexists; vm_compute; reflexivity.
Qed.

(** C93: mode 1.  If every tracking gives a proper phase, then every status except 'no coverage' means that the traced
    phases cover the whole temperature range. *)
Theorem C93_coverage_partial :
  forall track glob retrack cmp, retracks_inside retrack -> compares_inside cmp ->
  forall Tlow Thigh one mid, (forall k T, long_from T (mid k T)) ->
  forall fuel low high ps st, long_from Tlow low -> long_from Thigh high ->
    MultiStepPTMode1 track glob retrack cmp Tlow Thigh one mid fuel low high [] TrSuccess = Ok (ps, st) ->
    st <> TrNoCoverage -> covered 0 Tlow Thigh ps.
Proof. intros. eapply mode1_covers; eauto. Qed.
Print Assumptions C93_coverage_partial.

(** if tracking from the highest temperature fails and the lowest temperature is zero, the run is called successful
    although only the low-temperature phase was traced *)
Theorem C93_coverage_refuted :
  exists track glob retrack cmp Tlow Thigh one mid fuel low high ps,
    retracks_inside retrack /\ compares_inside cmp /\ (forall k T, long_from T (mid k T)) /\ long_from Tlow low /\ high = [] /\
    MultiStepPTMode1 track glob retrack cmp Tlow Thigh one mid fuel low high [] TrSuccess = Ok (ps, TrSuccess) /\
    ~ covered 0 Tlow Thigh ps.
Proof.
  exists (fun _ _ _ => []), (fun _ _ => false), (fun _ _ => []), no_merge, 0, 300, 1, (fun _ T => [mt (T - 1); mt T; mt (T + 1)]), 5%nat,
    [mt 0; mt 60; mt 120], []. eexists.
  split; [exact no_more_inside|]. split; [exact no_merge_inside|].
  split; [intros k T; split; [cbn; tauto|]; exists (T - 1), T, (T + 1); cbn; repeat split; auto; lia|].
  split; [split; [cbn; tauto|]; exists 0, 60, 120; cbn; repeat split; auto|]. split; [reflexivity|].
  split; [vm_compute; reflexivity|]. intro C. destruct (C 200) as (q & [<-|[]] & R); [lia|]. cbn in R. lia.
Qed.
Print Assumptions C93_coverage_refuted.

(** what the status says about the global minimum: two confirmed minima if the outer phases meet, otherwise six minima in
    three successive checks; a missed global minimum is only reported after a negative answer *)
Theorem C93_global_minimum_partial :
  forall track glob retrack cmp, retracks_inside retrack -> compares_inside cmp ->
  forall Tlow Thigh one mid, (forall k T, long_from T (mid k T)) ->
  forall fuel low high ps st a b, long_from Tlow low -> long_from Thigh high -> highest a low -> lowest b high -> Tlow < Thigh ->
    inside Tlow Thigh low -> inside Tlow Thigh high ->
    MultiStepPTMode1 track glob retrack cmp Tlow Thigh one mid fuel low high [] TrSuccess = Ok (ps, st) ->
    (st = TrSuccess \/ st = TrNoCoverage \/ st = TrNoGlobMinCoverage) /\
    (b <= a -> exists m1 m2, st = if glob 0%nat m1 && glob 0%nat m2 then TrSuccess else TrNoGlobMinCoverage) /\
    (a < b -> st = TrSuccess -> exists k m1 m2 m3 m4 m5 m6, glob k m1 = true /\ glob k m2 = true /\ glob (S k) m3 = true /\
       glob (S k) m4 = true /\ glob (S (S k)) m5 = true /\ glob (S (S k)) m6 = true) /\
    (st = TrNoGlobMinCoverage -> exists k m, glob k m = false).
Proof. intros tr gl re cm RI CI Tlow Thigh one mid ML fuel low high ps st a b P1 P2 P3 P4 P5 P6 P7 R. exact (mode1_checks tr gl re cm RI CI Tlow Thigh one mid ML fuel low high ps st a b P1 P2 P3 P4 P5 P6 P7 R). Qed.
Print Assumptions C93_global_minimum_partial.

(** undefined behaviour: an intermediate phase found from below that lies strictly inside the one found from above *)
Theorem C93_defined_refuted :
  exists track glob retrack cmp Tlow Thigh one mid fuel low high,
    retracks_inside retrack /\ compares_inside cmp /\ long_from Tlow low /\ long_from Thigh high /\
    long_from 51 (mid 2%nat 51) /\ long_from 199 (mid 3%nat 199) /\
    MultiStepPTMode1 track glob retrack cmp Tlow Thigh one mid fuel low high [] TrSuccess = UB.
Proof.
  exists (fun _ _ T => [mt T]), (fun _ _ => true), (fun _ _ => []), no_merge, 0, 300, 1,
    (fun k _ => match k with 2%nat => [mt 40; mt 51; mt 210] | _ => [mt 39; mt 199; mt 211] end), 5%nat,
    [mt 0; mt 25; mt 50], [mt 300; mt 250; mt 200].
  split; [exact no_more_inside|]. split; [exact no_merge_inside|].
  split; [split; [cbn; tauto|]; exists 0, 25, 50; cbn; repeat split; auto|].
  split; [split; [cbn; tauto|]; exists 200, 250, 300; cbn; repeat split; auto|].
  split; [split; [cbn; tauto|]; exists 40, 51, 210; cbn; repeat split; auto|].
  split; [split; [cbn; tauto|]; exists 39, 199, 211; cbn; repeat split; auto|].
  vm_compute. reflexivity.
Qed.
Print Assumptions C93_defined_refuted.

(** the exception of the middle phases: exactly when one of the outer phases ends less than one GeV before the other
    end of the temperature range *)
Theorem C93_exception_exact :
  forall track glob retrack cmp, retracks_inside retrack -> compares_inside cmp ->
  forall Tlow Thigh one mid, (forall k T, long_from T (mid k T)) -> (forall k T, Tlow <= T <= Thigh -> inside Tlow Thigh (mid k T)) ->
  forall fuel low high a b, Tlow < Thigh -> 0 < one -> inside Tlow Thigh low -> inside Tlow Thigh high ->
    long_from Tlow low -> long_from Thigh high -> highest a low -> lowest b high -> a < b ->
    (MultiStepPTMode1 track glob retrack cmp Tlow Thigh one mid (S fuel) low high [] TrSuccess = Throw InvalidArgument <->
     Thigh < a + one \/ b - one < Tlow).
Proof. intros. eapply mode1_throws; eauto. Qed.
Print Assumptions C93_exception_exact.

(** the loop need not end: the phases found from both sides end where they were found *)
Theorem C93_terminates_refuted :
  exists track glob retrack cmp Tlow Thigh one mid low high,
    retracks_inside retrack /\ compares_inside cmp /\ long_from Tlow low /\ long_from Thigh high /\
    long_from 51 (mid 51) /\ long_from 199 (mid 199) /\
    forall fuel, MultiStepPTMode1 track glob retrack cmp Tlow Thigh one (fun _ => mid) fuel low high [] TrSuccess = OutOfFuel.
Proof.
  exists (fun _ _ T => [mt T]), (fun _ _ => true), (fun _ _ => []), no_merge, 0, 300, 1,
    (fun T => if T =? 51 then [mt 40; mt 50; mt 51] else [mt 199; mt 200; mt 211]),
    [mt 0; mt 25; mt 50], [mt 300; mt 250; mt 200].
  assert (P1 : long_from 51 [mt 40; mt 50; mt 51]) by (split; [cbn; tauto|]; exists 40, 50, 51; cbn; repeat split; auto).
  assert (P2 : long_from 199 [mt 199; mt 200; mt 211]) by (split; [cbn; tauto|]; exists 199, 200, 211; cbn; repeat split; auto).
  split; [exact no_more_inside|]. split; [exact no_merge_inside|].
  split; [split; [cbn; tauto|]; exists 0, 25, 50; cbn; repeat split; auto|].
  split; [split; [cbn; tauto|]; exists 200, 250, 300; cbn; repeat split; auto|]. split; [exact P1|]. split; [exact P2|].
  intro fuel. unfold MultiStepPTMode1.
  set (r0 := add_traced _ _ 0 _ []). vm_compute in r0. unfold r0. clear r0.
  set (r0 := add_traced _ _ 1 _ _). vm_compute in r0. unfold r0. clear r0. cbn iota.
  set (d := DoPhasesOverlap _ _). vm_compute in d. unfold d. clear d.
  change (T_low (make_phase [mt 300; mt 250; mt 200]) - 1) with 199. change (T_high (make_phase [mt 0; mt 25; mt 50]) + 1) with 51.
  apply (loop1_stuck _ _ _ _ 0 300 (fun T => if T =? 51 then [mt 40; mt 50; mt 51] else [mt 199; mt 200; mt 211]) 51 199);
    try exact no_more_inside; try exact no_merge_inside; try exact P1; try exact P2; try lia; try (cbn; lia).
  - split; [cbn; tauto|]. cbn. lia.
  - split; [cbn; tauto|]. cbn. lia.
  - intros q [<-|[<-|[]]]; apply good_well_formed; (split; [cbn; lia|]; split; [|split; split; cbn; try tauto; lia]);
      apply ss_increasing; cbn; repeat (constructor; try lia).
Qed.
Print Assumptions C93_terminates_refuted.

(** it ends if every middle phase reaches above the temperature where it was found *)
Theorem C93_terminates_partial :
  forall track glob retrack cmp, retracks_inside retrack -> compares_inside cmp ->
  forall Tlow Thigh one mid, (forall k T, long_from T (mid k T)) -> (forall k T, Tlow <= T <= Thigh -> inside Tlow Thigh (mid k T)) ->
    (forall k T, Tlow <= T < Thigh -> exists t, In t (map temp (mid k T)) /\ T < t) ->
  forall low high, Tlow < Thigh -> 0 < one -> inside Tlow Thigh low -> inside Tlow Thigh high -> long_from Tlow low -> long_from Thigh high ->
    exists fuel, MultiStepPTMode1 track glob retrack cmp Tlow Thigh one mid fuel low high [] TrSuccess <> OutOfFuel.
Proof. intros. eapply mode1_terminates; eauto. Qed.
Print Assumptions C93_terminates_partial.

(** a run with two intermediate phases, one that throws, and tracked phases as in the hypotheses *)
Definition span (k : nat) (T : Z) : list minimum := [mt (Z.max 0 (T - 60)); mt T; mt (Z.min 300 (T + 30)); mt (Z.max 0 (T - 59)); mt (Z.min 300 (T + 29))].
Example C93_nonvacuous :
  let low := [mt 0; mt 25; mt 50] in
  (forall k T, 0 <= T <= 300 -> inside 0 300 (span k T)) /\ (forall k T, 0 <= T < 300 -> exists t, In t (map temp (span k T)) /\ T < t) /\
  (forall k T, long_from T (span k T)) /\ long_from 0 low /\ highest 50 low /\
  (exists ps, MultiStepPTMode1 (fun _ _ T => [mt T]) (fun _ _ => true) (fun _ _ => []) no_merge 0 300 1 span 9 low [mt 300; mt 280; mt 260] [] TrSuccess = Ok (ps, TrSuccess) /\
     length ps = 8%nat) /\
  MultiStepPTMode1 (fun _ _ T => [mt T]) (fun _ _ => true) (fun _ _ => []) no_merge 0 300 1 span 9 low [mt 300; mt 0; mt 1] [] TrSuccess <> OutOfFuel /\
  MultiStepPTMode1 (fun _ _ T => [mt T]) (fun _ _ => true) (fun _ _ => []) no_merge 0 300 20 span 9 low [mt 300; mt 295; mt 290] [] TrSuccess <> Throw InvalidArgument /\
  MultiStepPTMode1 (fun _ _ T => [mt T]) (fun _ _ => true) (fun _ _ => []) no_merge 0 300 20 span 9 [mt 0; mt 25; mt 285] [mt 300; mt 295; mt 290] [] TrSuccess = Throw InvalidArgument.
Proof.
  cbv zeta. split; [intros k T H m Hm; cbn in Hm; destruct Hm as [<-|[<-|[<-|[<-|[<-|[]]]]]]; cbn [temp mt]; lia|].
  split; [intros k T H; exists (Z.min 300 (T + 30)); cbn; split; [tauto|lia]|].
  split.
  { intros k T. split; [cbn; tauto|]. destruct (Z_lt_ge_dec T 270); cbn [map temp mt span].
    - exists T, (Z.min 300 (T + 29)), (Z.min 300 (T + 30)). cbn. repeat split; auto 8; lia.
    - exists (Z.max 0 (T - 60)), (Z.max 0 (T - 59)), T. cbn. repeat split; auto 8; lia. }
  split; [split; [cbn; tauto|]; exists 0, 25, 50; cbn; repeat split; auto|]. split; [split; [cbn; tauto|]; cbn; lia|].
  split; [eexists; split; [vm_compute; reflexivity|reflexivity]|]. repeat split; vm_compute; congruence.
Qed.

(** C94: mode 2.  The traced phases cover the temperature range up to one GeV, and both ends of the searched range only
    ever move downwards - the lower one in the wrong direction. *)
Theorem C94_coverage_partial :
  forall retrack cmp, retracks_inside retrack -> compares_inside cmp ->
  forall Tlow Thigh one mid2, (forall k T, long_from T (t2_mins (mid2 k T))) -> (forall k T, ends_below T (mid2 k T)) ->
  forall fuel low high e1 e2 ps log, 0 <= one -> long_from Tlow low -> long_from Thigh high ->
    (exists a, In a (map temp low) /\ e1 <= a) -> (exists a, In a (map temp high) /\ a <= e2) ->
    MultiStepPTMode2 retrack cmp Tlow Thigh one mid2 fuel (low, Some e1) (high, Some e2) [] = Ok (ps, log) ->
    near_covered one Tlow Thigh ps /\
    (forall i x y, nth_error log i = Some x -> nth_error log (S i) = Some y -> fst y <= fst x /\ snd y <= snd x).
Proof. intros. eapply mode2_covers; eauto. Qed.
Print Assumptions C94_coverage_partial.

(** a phase that is the global minimum from 51 to 280 GeV is found from below, but the search is continued below 51 GeV *)
Theorem C94_closes_in_refuted :
  exists retrack cmp Tlow Thigh one mid2 fuel low high e1 e2 ps a b log,
    retracks_inside retrack /\ compares_inside cmp /\ 0 < one /\ long_from Tlow low /\ long_from Thigh high /\
    mid2 2%nat 51 = {| t2_mins := [mt 51; mt 280; mt 45]; t2_up := Some 280; t2_down := Some 45 |} /\
    MultiStepPTMode2 retrack cmp Tlow Thigh one mid2 fuel (low, Some e1) (high, Some e2) [] = Ok (ps, (51, 249) :: (a, b) :: log) /\
    a < 51.
Proof.
  exists (fun _ _ => []), no_merge, 0, 300, 1,
    (fun k T => if T =? 51 then {| t2_mins := [mt 51; mt 280; mt 45]; t2_up := Some 280; t2_down := Some 45 |}
                else {| t2_mins := [mt T; mt (T + 30); mt (Z.max 0 (T - 150))]; t2_up := Some (T + 30); t2_down := Some (Z.max 0 (T - 150)) |}), 9%nat,
    [mt 0; mt 25; mt 50], [mt 300; mt 280; mt 250], 50, 250.
  do 4 eexists. split; [exact no_more_inside|]. split; [exact no_merge_inside|]. split; [reflexivity|].
  split; [split; [cbn; tauto|]; exists 0, 25, 50; cbn; repeat split; auto|].
  split; [split; [cbn; tauto|]; exists 250, 280, 300; cbn; repeat split; auto|]. split; [reflexivity|].
  split; [vm_compute; reflexivity|]. lia.
Qed.
Print Assumptions C94_closes_in_refuted.

(** reading the unassigned end of the global minimum: whenever tracking from one of the boundaries fails at once *)
Theorem C94_defined_refuted :
  exists retrack cmp Tlow Thigh one mid2 low2 high2,
    retracks_inside retrack /\ compares_inside cmp /\ long_from Tlow (fst low2) /\ high2 = ([], None) /\
    forall fuel, MultiStepPTMode2 retrack cmp Tlow Thigh one mid2 fuel low2 high2 [] = UB.
Proof.
  exists (fun _ _ => []), no_merge, 0, 300, 1, (fun _ _ => {| t2_mins := []; t2_up := None; t2_down := None |}),
    ([mt 0; mt 25; mt 50], Some 50), ([], None).
  split; [exact no_more_inside|]. split; [exact no_merge_inside|].
  split; [split; [cbn; tauto|]; exists 0, 25, 50; cbn; repeat split; auto|]. split; [reflexivity|]. intro fuel. vm_compute. reflexivity.
Qed.
Print Assumptions C94_defined_refuted.

(** the search need not end: the phases found at both ends are not confirmed as global minimum where they were found *)
Theorem C94_terminates_refuted :
  exists retrack cmp Tlow Thigh one mid2 low high e1 e2,
    retracks_inside retrack /\ compares_inside cmp /\ 0 < one /\ long_from Tlow low /\ long_from Thigh high /\
    (forall k, ends_below 51 (mid2 k 51) /\ ends_below 199 (mid2 k 199) /\ long_from 51 (t2_mins (mid2 k 51)) /\ long_from 199 (t2_mins (mid2 k 199))) /\
    forall fuel, MultiStepPTMode2 retrack cmp Tlow Thigh one mid2 fuel (low, Some e1) (high, Some e2) [] = OutOfFuel.
Proof.
  set (t1 := {| t2_mins := [mt 51; mt 60; mt 45]; t2_up := Some 51; t2_down := Some 51 |}).
  set (t2 := {| t2_mins := [mt 199; mt 220; mt 180]; t2_up := Some 199; t2_down := Some 199 |}).
  exists (fun _ _ => []), no_merge, 0, 300, 1, (fun k T => if T =? 51 then t1 else t2),
    [mt 0; mt 25; mt 50], [mt 300; mt 250; mt 200], 50, 200.
  split; [exact no_more_inside|]. split; [exact no_merge_inside|]. split; [reflexivity|].
  split; [split; [cbn; tauto|]; exists 0, 25, 50; cbn; repeat split; auto|].
  split; [split; [cbn; tauto|]; exists 200, 250, 300; cbn; repeat split; auto|].
  split.
  { intro k. split; [exists 51; split; [reflexivity|]; split; [lia|]; exists 45; cbn; split; [tauto|lia]|].
    split; [exists 199; split; [reflexivity|]; split; [lia|]; exists 180; cbn; split; [tauto|lia]|].
    split; (split; [cbn; tauto|]); [exists 45, 51, 60|exists 180, 199, 220]; cbn; repeat split; auto. }
  intro fuel. unfold MultiStepPTMode2. cbn [fst snd].
  set (r0 := add_traced _ _ 0 _ []). vm_compute in r0. unfold r0. clear r0.
  set (r0 := add_traced _ _ 1 _ _). vm_compute in r0. unfold r0. clear r0. cbn iota.
  cbn [T_low T_high]. change (if 50 <? 50 then 50 else 50 + 1) with 51. change (if 200 <? 200 then 200 else 200 - 1) with 199.
  apply (loop2_stuck _ _ 0 300 1 51 199 t1 t2); try lia; try reflexivity.
Qed.
Print Assumptions C94_terminates_refuted.

(** it ends if the region of the global minimum always reaches below the temperature where it was found *)
Theorem C94_terminates_partial :
  forall retrack cmp Tlow Thigh one mid2, (forall k T, long_from T (t2_mins (mid2 k T))) -> (forall k T, ends_below T (mid2 k T)) ->
    (forall k T e, Tlow <= T -> t2_down (mid2 k T) = Some e -> Tlow <= e /\ (Tlow < T -> e < T)) ->
  forall low high e1 e2, 0 <= one -> Tlow <= e1 ->
    exists fuel, MultiStepPTMode2 retrack cmp Tlow Thigh one mid2 fuel (low, Some e1) (high, Some e2) [] <> OutOfFuel.
Proof. intros. eapply mode2_stops; eauto. Qed.
Print Assumptions C94_terminates_partial.

(** when nothing can be traced from the inner temperatures, every step moves both ends one GeV inwards, nothing is stored
    and the search ends *)
Theorem C94_failed_steps_partial :
  forall retrack cmp Tlow Thigh one mid2,
    (forall k T, mid2 k T = {| t2_mins := []; t2_up := None; t2_down := None |}) -> 0 < one -> Tlow + 2 * one <= Thigh ->
  forall k tl th ps, tl < th -> exists fuel r,
    mode2_loop retrack cmp Tlow Thigh one mid2 fuel k tl th ps = Ok (ps, (tl, th) :: r) /\
    forall i x y, nth_error ((tl, th) :: r) i = Some x -> nth_error r i = Some y ->
      fst y = (if fst x + one <? Thigh then fst x + one else fst x) /\ snd y = (if Tlow + one <? snd x then snd x - one else snd x).
Proof.
  intros retrack cmp Tlow Thigh one mid2 F P W k tl th ps L.
  destruct (loop2_failed retrack cmp Tlow Thigh one mid2 F P W (Z.to_nat (th - tl)) k tl th ps ltac:(lia)) as (log & E & H1 & H2).
  destruct (H1 L) as (r & ->). exists (S (Z.to_nat (th - tl))), r. split; [exact E|]. intros i x y A B. exact (H2 i x y A B).
Qed.
Print Assumptions C94_failed_steps_partial.

(** exact coverage fails: a gap of two GeV between the outer phases is not searched *)
Theorem C94_coverage_refuted :
  exists retrack cmp Tlow Thigh one mid2 fuel low high e1 e2 ps,
    retracks_inside retrack /\ compares_inside cmp /\ 0 < one /\ long_from Tlow low /\ long_from Thigh high /\
    MultiStepPTMode2 retrack cmp Tlow Thigh one mid2 fuel (low, Some e1) (high, Some e2) [] = Ok (ps, []) /\
    ~ covered 0 Tlow Thigh ps.
Proof.
  exists (fun _ _ => []), no_merge, 0, 300, 1, (fun _ _ => {| t2_mins := []; t2_up := None; t2_down := None |}), 9%nat,
    [mt 0; mt 25; mt 50], [mt 300; mt 280; mt 52], 50, 52. eexists.
  split; [exact no_more_inside|]. split; [exact no_merge_inside|]. split; [reflexivity|].
  split; [split; [cbn; tauto|]; exists 0, 25, 50; cbn; repeat split; auto|].
  split; [split; [cbn; tauto|]; exists 52, 280, 300; cbn; repeat split; auto|].
  split; [vm_compute; reflexivity|]. intro C. destruct (C 51) as (q & [<-|[<-|[]]] & R); [lia|cbn in R; lia|cbn in R; lia].
Qed.
Print Assumptions C94_coverage_refuted.

Example C94_nonvacuous :
  let mid2 := fun (k : nat) T => {| t2_mins := [mt T; mt (T + 30); mt (Z.max 0 (T - 50)); mt (T + 20)]; t2_up := Some (T + 30); t2_down := Some (Z.max 0 (T - 50)) |} in
  (forall k T, 0 <= T -> long_from T (t2_mins (mid2 k T)) /\ ends_below T (mid2 k T)) /\
  (forall k T e, 0 <= T -> t2_down (mid2 k T) = Some e -> 0 <= e /\ (0 < T -> e < T)) /\
  exists ps, MultiStepPTMode2 (fun _ _ => []) no_merge 0 300 1 mid2 9 ([mt 0; mt 25; mt 50], Some 50) ([mt 300; mt 280; mt 250], Some 260) []
    = Ok (ps, [(51, 260); (1, 210); (0, 160); (0, 110); (0, 60); (0, 10)]) /\ length ps = 14%nat.
Proof.
  cbv zeta. split.
  { intros k T H. split.
    - split; [cbn; tauto|]. exists T, (T + 20), (T + 30). cbn. repeat split; auto 8; lia.
    - exists (Z.max 0 (T - 50)). split; [reflexivity|]. split; [lia|]. exists (Z.max 0 (T - 50)). cbn. split; [tauto|lia]. }
  split; [intros k T e H E; injection E as <-; lia|]. eexists. split; vm_compute; reflexivity.
Qed.

(** C95: the whole run.  Tracing status 'success' means that the reported phases cover the temperature range without gaps,
    in every mode, provided tracking from the two ends of the range worked. *)
Theorem C95_success_covers_partial :
  forall w fuel mode only v, -1 <= mode <= 3 -> w_Tlow w < w_Thigh w -> boundaries_traced w mode -> patches_traced w ->
    Vacuum_ctor w fuel mode only = Ok v -> v_status v = TrSuccess -> covered 0 (w_Tlow w) (w_Thigh w) (v_phases v).
Proof. exact ctor_covers. Qed.
Print Assumptions C95_success_covers_partial.

Definition world1 (low high : list minimum) (verdict : minimum -> bool) (mid : nat -> Z -> list minimum) : world :=
  {| w_track := fun _ _ _ T => [mt T]; w_glob := fun _ m => verdict m; w_near := fun _ _ _ _ => false;
     w_retrack := fun _ _ _ => []; w_cmp := fun _ => no_merge; w_trace := fun _ _ T => [mt T; mt (T + 1); mt (T - 1)];
     w_low := low; w_high := high; w_mid := mid; w_low2 := (low, Some 50); w_high2 := (high, Some 250);
     w_mid2 := fun _ T => {| t2_mins := [mt T; mt (T + 30); mt (Z.max 0 (T - 200))]; t2_up := Some (T + 30); t2_down := Some (Z.max 0 (T - 200)) |};
     w_ew := []; w_saved := []; w_patch := fun _ a b => make_phase [mt a; mt ((a + b) / 2); mt b];
     w_non_bfb := false; w_ht_vev := false; w_Tlow := 0; w_Thigh := 300; w_one := 1; w_thr := 0; w_grid := [] |}.

(** it fails for the whole run when tracking from the highest temperature fails: success, one phase, nothing above 120 GeV *)
Theorem C95_success_covers_refuted :
  exists w fuel mode v, w_Tlow w < w_Thigh w /\ patches_traced w /\ 0 <= mode <= 3 /\ long_from (w_Tlow w) (w_low w) /\
    Vacuum_ctor w fuel mode false = Ok v /\ v_status v = TrSuccess /\ length (v_phases v) = 1%nat /\
    ~ touches 200 (v_phases v) /\ w_Tlow w <= 200 <= w_Thigh w.
Proof.
  exists (world1 [mt 0; mt 60; mt 120] [] (fun _ => true) span), 9%nat, 1. eexists.
  split; [reflexivity|]. split; [intros ps a b; cbn; eauto|]. split; [lia|].
  split; [split; [cbn; tauto|]; exists 0, 60, 120; cbn; repeat split; auto|]. split; [vm_compute; reflexivity|].
  split; [reflexivity|]. split; [reflexivity|]. split; [intros (q & [<-|[]] & R); cbn in R; lia|]. cbn. lia.
Qed.
Print Assumptions C95_success_covers_refuted.

(** pairs of coexisting phases: none without coexistence or when only tracing was asked for, never after a failed tracing,
    and otherwise exactly the pairs of phases that exist at a common temperature *)
Theorem C95_pairs :
  forall w fuel mode only v, patches_traced w -> Vacuum_ctor w fuel mode only = Ok v ->
    (only = true \/ v_coex v = false -> v_pairs v = []) /\
    (v_status v = TrNoMinsAtBoundaries \/ v_status v = TrFailure -> v_coex v = false) /\
    (only = false -> v_coex v = true ->
      (forall c, In c (v_pairs v) -> exists i j, (i < j)%nat /\ nth_error (v_phases v) i = Some (false_phase c) /\
         nth_error (v_phases v) j = Some (true_phase c) /\ overlap (false_phase c) (true_phase c) /\
         (forall T, c_low c <= T <= c_high c <-> T_low (false_phase c) <= T <= T_high (false_phase c) /\ T_low (true_phase c) <= T <= T_high (true_phase c))) /\
      (forall i j f t, (i < j)%nat -> nth_error (v_phases v) i = Some f -> nth_error (v_phases v) j = Some t -> overlap f t ->
         exists c, In c (v_pairs v) /\ false_phase c = f /\ true_phase c = t)).
Proof. exact ctor_pairs. Qed.
Print Assumptions C95_pairs.

(** mode 'auto' is mode 1 unless the global minimum is missed, and mode 2 clears that verdict *)
Theorem C95_auto_is_mode1 :
  forall w fuel only, (forall ps, mode1_of w fuel <> Ok (ps, TrNoGlobMinCoverage)) -> Vacuum_ctor w fuel 3 only = Vacuum_ctor w fuel 1 only.
Proof. exact ctor_auto. Qed.
Print Assumptions C95_auto_is_mode1.
Theorem C95_auto_status :
  forall w fuel only v, patches_traced w -> Vacuum_ctor w fuel 3 only = Ok v -> v_status v = TrNoGlobMinCoverage ->
    exists ps, mode1_of w fuel = Ok (ps, TrNoCoverage).
Proof. exact ctor_auto_status. Qed.
Print Assumptions C95_auto_status.

(** a mode number outside -1 to 3 is accepted, but nothing is traced *)
Theorem C95_unknown_mode :
  forall w fuel only v mode, mode < -1 \/ 3 < mode -> w_ew w = [] -> w_saved w = [] ->
    Vacuum_ctor w fuel mode only = Ok v -> v_phases v = [] /\ v_status v = TrFailure /\ v_pairs v = [].
Proof. exact ctor_unknown. Qed.
Print Assumptions C95_unknown_mode.

(** mode 0 does not patch gaps: the result does not depend on what a search inside a gap would find.  The other modes do. *)
Theorem C95_mode0_without_patching :
  forall w p fuel only, Vacuum_ctor (with_patch w p) fuel 0 only = Vacuum_ctor w fuel 0 only.
Proof. exact ctor_mode0. Qed.
Print Assumptions C95_mode0_without_patching.
Example C95_nonvacuous_patching :
  exists w p fuel v v', Vacuum_ctor w fuel 2 true = Ok v /\ Vacuum_ctor (with_patch w p) fuel 2 true = Ok v' /\ v_status v = TrSuccess /\ v_status v' = TrNoCoverage.
Proof.
  exists {| w_track := fun _ _ _ T => [mt T]; w_glob := fun _ m => true; w_near := fun _ _ _ _ => false;
     w_retrack := fun _ _ _ => []; w_cmp := fun _ => no_merge; w_trace := fun _ _ T => [mt T; mt (T + 1); mt (T - 1)];
     w_low := []; w_high := []; w_mid := fun _ _ => []; w_low2 := ([mt 0; mt 25; mt 50], Some 300); w_high2 := ([mt 300; mt 280; mt 250], Some 0);
     w_mid2 := fun _ T => {| t2_mins := []; t2_up := None; t2_down := None |};
     w_ew := []; w_saved := []; w_patch := fun _ a b => make_phase [mt a; mt ((a + b) / 2); mt b];
     w_non_bfb := false; w_ht_vev := false; w_Tlow := 0; w_Thigh := 300; w_one := 1; w_thr := 0; w_grid := [] |}.
  exists (fun _ a b => make_phase []), 9%nat. do 2 eexists. split; [vm_compute; reflexivity|]. split; [vm_compute; reflexivity|]. split; reflexivity.
Qed.

(** runs of all modes; the last one is mode 1 without and 'auto' with the additional search of mode 2 *)
Example C95_nonvacuous :
  let w := world1 [mt 0; mt 25; mt 50] [mt 300; mt 280; mt 250] (fun _ => true) span in
  let w' := world1 [mt 0; mt 25; mt 50] [mt 300; mt 280; mt 250] (fun m => temp m <? 60) span in
  boundaries_traced w 1 /\ boundaries_traced w 2 /\ boundaries_traced w 3 /\ boundaries_traced w (-1) /\ patches_traced w /\
  (exists v, Vacuum_ctor w 9 1 false = Ok v /\ v_status v = TrSuccess /\ v_coex v = true /\ length (v_pairs v) = 12%nat /\ length (v_phases v) = 8%nat) /\
  (exists v, Vacuum_ctor w' 9 1 false = Ok v /\ v_status v = TrNoGlobMinCoverage /\ v_pairs v = []) /\
  (exists v, Vacuum_ctor w' 9 3 false = Ok v /\ v_status v = TrSuccess /\ (length (v_pairs v) > 12)%nat) /\
  (exists v, Vacuum_ctor w 9 2 true = Ok v /\ v_status v = TrSuccess /\ v_coex v = true /\ v_pairs v = []).
Proof.
  cbv zeta.
  assert (Pl : long_from 0 [mt 0; mt 25; mt 50]) by (split; [cbn; tauto|]; exists 0, 25, 50; cbn; repeat split; auto).
  assert (Ph : long_from 300 [mt 300; mt 280; mt 250]) by (split; [cbn; tauto|]; exists 250, 280, 300; cbn; repeat split; auto).
  assert (Pt : forall T, long_from T [mt T; mt (T + 1); mt (T - 1)]) by (intro T; split; [cbn; tauto|]; exists (T - 1), T, (T + 1); cbn; repeat split; auto; lia).
  assert (B : forall mode, boundaries_traced (world1 [mt 0; mt 25; mt 50] [mt 300; mt 280; mt 250] (fun _ => true) span) mode).
  { intro mode. split; [intros _ k ht; split; apply Pt|]. split; [intros _; split; assumption|intros _; split; assumption]. }
  do 4 (split; [apply B|]). split; [intros ps a b; cbn; eauto|].
  split; [eexists; split; [vm_compute; reflexivity|]; vm_compute; auto|].
  split; [eexists; split; [vm_compute; reflexivity|]; vm_compute; auto|].
  split; [eexists; split; [vm_compute; reflexivity|]; split; [reflexivity|cbn; lia]|].
  eexists; split; [vm_compute; reflexivity|]; vm_compute; auto.
Qed.
