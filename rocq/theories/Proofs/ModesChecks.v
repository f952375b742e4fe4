(** C93: which checks for the global minimum stand behind the status of mode 1. *)
From Coq Require Import Lia.
From Verif.Model Require Import Base Phase MultiStep Modes.
From Verif.Spec Require Import PhaseSpec MultiStepSpec ModesSpec.
From Verif.Proofs Require Import PhaseProofs VacuumProofs MultiStepProofs ModesProofs ModesRuns.
Open Scope Z_scope.

Lemma over_good p q : good p -> good q -> DoPhasesOverlap p q = true -> overlap p q.
Proof. intros A B H. apply phases_overlap_iff in H; auto; [pose proof (VacuumProofs.good_range _ A)|pose proof (VacuumProofs.good_range _ B)]; lia. Qed.

Section Checks.
Variable track : nat -> minimum -> Z -> list minimum.
Variable glob : nat -> minimum -> bool.
Variable retrack : nat -> phase -> list minimum.
Variable cmp : nat -> nat -> phase -> phase -> compare_result.
Hypothesis RI : retracks_inside retrack.
Hypothesis CI : compares_inside cmp.
Variable Tlow Thigh one : Z.
Variable mid : nat -> Z -> list minimum.
Hypothesis ML : forall k T, long_from T (mid k T).

Definition six k := exists m1 m2 m3 m4 m5 m6, glob k m1 = true /\ glob k m2 = true /\ glob (S k) m3 = true /\ glob (S k) m4 = true /\
  glob (S (S k)) m5 = true /\ glob (S (S k)) m6 = true.

Lemma verdict k p q b : good p -> good q -> DoPhasesOverlap p q = true -> DoGlobMinOverlap (track k) (glob k) p q = Ok b ->
  exists m1 m2, b = glob k m1 && glob k m2.
Proof. intros A B O H. eapply glob_verdict; eauto using g_two, over_good. Qed.

Lemma loop1_checks : forall fuel k tl th lp hp ps ps' st, allgood ps -> good lp -> good hp ->
  mode1_loop track glob retrack cmp Tlow Thigh mid fuel k tl th lp hp ps TrSuccess = Ok (ps', st) ->
  (st = TrSuccess -> exists k', six k') /\ (st = TrNoGlobMinCoverage -> exists k' m, glob k' m = false) /\
  (st = TrSuccess \/ st = TrNoCoverage \/ st = TrNoGlobMinCoverage).
Proof.
  induction fuel as [|fuel IH]; intros k tl th lp hp ps ps' st G Gl Gh H; [discriminate|]. cbn [mode1_loop] in H.
  destruct (mid_phase Tlow Thigh mid k th) as [lm0| | |] eqn:F1; try discriminate. apply mid_phase_inv in F1. subst lm0. cbn [bind] in H.
  destruct (mid_phase Tlow Thigh mid (S k) tl) as [hm0| | |] eqn:F2; try discriminate. apply mid_phase_inv in F2. subst hm0. cbn [bind] in H.
  destruct (add_traced retrack cmp k (make_phase (mid k th)) ps) as [ps1 lm] eqn:E1.
  destruct (add_traced_spec _ _ RI CI _ _ _ _ _ G E1) as (G1 & _ & _ & _ & _ & D1 & _).
  destruct (add_traced retrack cmp (S k) (make_phase (mid (S k) tl)) ps1) as [ps2 hm] eqn:E2.
  destruct (add_traced_spec _ _ RI CI _ _ _ _ _ G1 E2) as (G2 & _ & _ & _ & _ & D2 & _).
  pose proof (mp_long _ _ (ML k th)) as N1. pose proof (mp_long _ _ (ML (S k) tl)) as N2.
  assert (Gm1 : good lm) by (apply D1; lia). assert (Gm2 : good hm) by (apply D2; lia).
  destruct (DoPhasesOverlap lp lm) eqn:O1; [|cbn [andb] in H; injection H as _ <-; intuition discriminate].
  destruct (DoPhasesOverlap hp hm) eqn:O2; [|cbn [andb] in H; injection H as _ <-; intuition discriminate]. cbn [andb] in H.
  destruct (DoPhasesOverlap lm hm) eqn:O3; [|exact (IH _ _ _ _ _ _ _ _ G2 Gm1 Gm2 H)].
  destruct (DoGlobMinOverlap (track k) (glob k) lp lm) as [g1| | |] eqn:Q1; cbn [bind] in H; try discriminate.
  destruct (verdict _ _ _ _ Gl Gm1 O1 Q1) as (m1 & m2 & V1).
  assert (F : forall j a b, glob j a && glob j b = false -> exists k' m, glob k' m = false).
  { intros j a b X. apply andb_false_iff in X as [X|X]; eauto. }
  destruct g1; cbn [bind] in H.
  2:{ injection H as _ <-. split; [discriminate|]. split; [|auto]. intros _. symmetry in V1. exact (F _ _ _ V1). }
  destruct (DoGlobMinOverlap _ _ hp hm) as [g2| | |] eqn:Q2; cbn [bind] in H; try discriminate.
  destruct (verdict _ _ _ _ Gh Gm2 O2 Q2) as (m3 & m4 & V2).
  destruct g2; cbn [bind] in H.
  2:{ injection H as _ <-. split; [discriminate|]. split; [|auto]. intros _. symmetry in V2. exact (F _ _ _ V2). }
  destruct (DoGlobMinOverlap _ _ lm hm) as [g3| | |] eqn:Q3; cbn [bind] in H; try discriminate.
  destruct (verdict _ _ _ _ Gm1 Gm2 O3 Q3) as (m5 & m6 & V3).
  destruct g3; injection H as _ <-.
  - split; [|split; [discriminate|auto]]. intros _. symmetry in V1, V2, V3. apply andb_true_iff in V1, V2, V3.
    exists k. exists m1, m2, m3, m4, m5, m6. tauto.
  - split; [discriminate|]. split; [|auto]. intros _. symmetry in V3. exact (F _ _ _ V3).
Qed.

Lemma mode1_checks fuel low high ps st a b : long_from Tlow low -> long_from Thigh high -> highest a low -> lowest b high -> Tlow < Thigh ->
  inside Tlow Thigh low -> inside Tlow Thigh high ->
  MultiStepPTMode1 track glob retrack cmp Tlow Thigh one mid fuel low high [] TrSuccess = Ok (ps, st) ->
  (st = TrSuccess \/ st = TrNoCoverage \/ st = TrNoGlobMinCoverage) /\
  (b <= a -> exists m1 m2, st = if glob 0%nat m1 && glob 0%nat m2 then TrSuccess else TrNoGlobMinCoverage) /\
  (a < b -> st = TrSuccess -> exists k, six k) /\
  (st = TrNoGlobMinCoverage -> exists k m, glob k m = false).
Proof.
  intros Pl Ph Ha Hb LT Il Ih H. unfold MultiStepPTMode1 in H.
  destruct (add_traced retrack cmp 0 (make_phase low) []) as [ps1 lp] eqn:E1.
  assert (G0 : allgood []) by (intros q []).
  destruct (add_traced_spec _ _ RI CI _ _ _ _ _ G0 E1) as (G1 & _ & A1 & B1 & _ & D1 & _).
  destruct (add_traced retrack cmp 1 (make_phase high) ps1) as [ps2 hp] eqn:E2.
  destruct (add_traced_spec _ _ RI CI _ _ _ _ _ G1 E2) as (G2 & _ & A2 & B2 & _ & D2 & _).
  assert (X1 : low <> []) by (intros ->; destruct Pl as [[] _]). assert (X2 : high <> []) by (intros ->; destruct Ph as [[] _]).
  pose proof (mp_inside _ _ _ X1 Il). pose proof (mp_inside _ _ _ X2 Ih).
  pose proof (mp_long _ _ Pl). pose proof (mp_long _ _ Ph). pose proof (mp_in _ _ (proj1 Pl)). pose proof (mp_in _ _ (proj1 Ph)).
  rewrite (mp_high _ _ Ha) in *. rewrite (mp_low _ _ Hb) in *.
  assert (Gl : good lp) by (apply D1; lia). assert (Gh : good hp) by (apply D2; lia).
  destruct (DoPhasesOverlap lp hp) eqn:O.
  - destruct (DoGlobMinOverlap _ _ lp hp) as [v| | |] eqn:Q; cbn [bind] in H; try discriminate.
    destruct (verdict _ _ _ _ Gl Gh O Q) as (m1 & m2 & V). injection H as _ <-. unfold DoPhasesOverlap in O.
    split; [destruct v; auto|]. split; [intros _; exists m1, m2; now rewrite V|]. split; [lia|].
    intro N. destruct v; [discriminate|]. symmetry in V. apply andb_false_iff in V as [V|V]; eauto.
  - destruct (loop1_checks _ _ _ _ _ _ _ _ _ G2 Gl Gh H) as (R1 & R2 & R3).
    split; [exact R3|]. split; [|auto]. intro L. unfold DoPhasesOverlap in O. lia.
Qed.
End Checks.
