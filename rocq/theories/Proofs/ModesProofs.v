(** Proofs about the multi-step modes. *)
From Coq Require Import Lia Sorted.
From Verif.Model Require Import Base Phase MultiStep Modes.
From Verif.Spec Require Import PhaseSpec MultiStepSpec ModesSpec.
From Verif.Proofs Require Import PhaseProofs VacuumProofs MultiStepProofs.
Open Scope Z_scope.

Lemma phases_overlap_iff p q : T_low p <= T_high p -> T_low q <= T_high q -> (DoPhasesOverlap p q = true <-> overlap p q).
Proof.
  intros A B. unfold DoPhasesOverlap, overlap. rewrite andb_true_iff, !Z.leb_le. split.
  - intros (C & D). exists (Z.max (T_low p) (T_low q)). lia.
  - intros (T & C & D). lia.
Qed.

Lemma AddAll_high c q ms : good q -> T_high q <= c -> (forall m, In m ms -> temp m <= c) -> T_high (AddAll q ms) <= c.
Proof.
  intros G Hq Hm. pose proof (good_AddAll q ms G) as G'. destruct (MultiStepProofs.good_range _ G') as (_ & A & _).
  apply AddAll_temps in A; [|apply G]. destruct A as [A|A].
  - apply in_map_iff in A as (m & <- & Hi). auto.
  - destruct (MultiStepProofs.good_range _ G) as (_ & _ & C). specialize (C _ A). lia.
Qed.
Lemma AddAll_same p ms : good p -> (forall m, In m ms -> T_low p <= temp m <= T_high p) ->
  T_low (AddAll p ms) = T_low p /\ T_high (AddAll p ms) = T_high p.
Proof.
  intros G H. pose proof (good_AddAll p ms G) as G'. destruct (extends_range p _ G G' (extends_AddAll p _ (g_sorted _ G))).
  assert (T_low p <= T_low (AddAll p ms)) by (apply AddAll_low; [auto|lia|intros m Hm; apply H; auto]).
  assert (T_high (AddAll p ms) <= T_high p) by (apply AddAll_high; [auto|lia|intros m Hm; apply H; auto]). lia.
Qed.

Section Add.
Variable retrack : nat -> phase -> list minimum.
Variable cmp : nat -> nat -> phase -> phase -> compare_result.
Hypothesis RI : retracks_inside retrack.
Hypothesis CI : compares_inside cmp.

Lemma compare_loop_range k ps : forall i p ps' p' b, good p -> compare_loop (cmp k) i ps p = (ps', p', b) ->
  good p' /\ T_low p' = T_low p /\ T_high p' = T_high p.
Proof.
  induction ps as [|q ps IH]; intros i p ps' p' b G H; cbn [compare_loop] in H.
  - injection H as <- <- <-. auto.
  - destruct (_ <=? _).
    + destruct (compare_loop (cmp k) (S i) ps p) as [[r p1] b1] eqn:E. injection H as <- <- <-. eapply IH; eauto.
    + set (p1 := AddAll p (ext_new (cmp k i q p))) in *. assert (G1 : good p1) by now apply good_AddAll.
      assert (E1 : T_low p1 = T_low p /\ T_high p1 = T_high p).
      { apply AddAll_same; [exact G|]. intros m Hm. specialize (CI k i q p m (in_or_app _ _ _ (or_intror Hm))). lia. }
      destruct (coincide (cmp k i q p)); [injection H as <- <- <-; auto|].
      destruct (compare_loop (cmp k) (S i) ps p1) as [[r p2] b1] eqn:E. injection H as <- <- <-.
      destruct (IH _ _ _ _ _ G1 E) as (A & B & C). split; [exact A|]. lia.
Qed.

Lemma make_good ms : (2 <= length (mins (make_phase ms)))%nat -> good (make_phase ms).
Proof.
  intro H. split; [apply make_phase_sorted|apply make_phase_ranged|exact H]. intros ->. cbn in H. lia.
Qed.

Lemma addPhase_range k ps ms ps' p' : let p := make_phase ms in addPhase (retrack k) (cmp k) ps p = (ps', p') -> (2 <= length (mins p))%nat ->
  good p' /\ T_low p' = T_low p /\ T_high p' = T_high p.
Proof.
  intros p E L. pose proof (make_good ms L) as G. fold p in G. unfold addPhase in E.
  assert (E1 : (length (mins p) <=? 1)%nat = false) by (apply Nat.leb_gt; lia). rewrite E1 in E.
  assert (Go : forall p0, good p0 -> T_low p0 = T_low p /\ T_high p0 = T_high p ->
    (let '(ps', p', merged) := compare_loop (cmp k) 0 ps p0 in
      if merged then (ps', p') else (ps' ++ [mark_edges p'], mark_edges p')) = (ps', p') ->
    good p' /\ T_low p' = T_low p /\ T_high p' = T_high p).
  { intros p0 G0 R0 H0. destruct (compare_loop (cmp k) 0 ps p0) as [[r p1] b] eqn:F.
    destruct (compare_loop_range k ps 0 p0 r p1 b G0 F) as (G1 & A & B).
    apply (f_equal snd) in H0. destruct b; cbn [snd] in H0; subst p'; [split; [exact G1|lia]|]. split; [now apply good_mark|]. cbn [T_low T_high mark_edges]. lia. }
  destruct (length (mins p) =? 2)%nat.
  - destruct (retrack k p) as [|m l] eqn:Er.
    + apply (f_equal snd) in E. cbn [snd] in E. subst p'. auto.
    + apply (Go (AddAll p (m :: l))); [now apply good_AddAll| |exact E]. apply AddAll_same; [exact G|]. intros x Hx. rewrite <- Er in Hx. now apply RI in Hx.
  - apply (Go p); auto.
Qed.

Definition allgood (ps : list phase) : Prop := forall q, In q ps -> good q.
Definition grows (ps ps' : list phase) : Prop := forall q, In q ps -> exists q', In q' ps' /\ T_low q' <= T_low q /\ T_high q <= T_high q'.
Lemma grows_refl ps : grows ps ps. Proof. intros q Hq. exists q. split; [auto|lia]. Qed.
Lemma grows_trans a b c : grows a b -> grows b c -> grows a c.
Proof. intros H1 H2 q Hq. destruct (H1 q Hq) as (q1 & I1 & R1). destruct (H2 q1 I1) as (q2 & I2 & R2). exists q2. split; [auto|lia]. Qed.

(** a stored phase covers the range of p *)
Definition stored (ps : list phase) (p : phase) : Prop := exists q, In q ps /\ T_low q <= T_low p /\ T_high p <= T_high q.
Lemma stored_grows ps ps' p : grows ps ps' -> stored ps p -> stored ps' p.
Proof. intros H (q & I & R). destruct (H q I) as (q' & I' & R'). exists q'. split; [auto|lia]. Qed.

Lemma add_traced_spec k ms ps ps' p' : allgood ps -> add_traced retrack cmp k (make_phase ms) ps = (ps', p') ->
  let p := make_phase ms in
  allgood ps' /\ grows ps ps' /\ T_low p' = T_low p /\ T_high p' = T_high p /\
  ((length (mins p) <= 1)%nat -> p' = p) /\ ((2 <= length (mins p))%nat -> good p') /\
  ((3 <= length (mins p))%nat -> stored ps' p').
Proof.
  intros G E p. unfold add_traced in E. fold p in E. destruct (1 <? length (mins p))%nat eqn:L.
  - apply Nat.ltb_lt in L. destruct (addPhase_range k ps ms ps' p' E L) as (G' & A & B). fold p in A, B.
    destruct (addPhase_step _ _ _ _ _ _ G (ex_intro _ ms eq_refl) E) as (G1 & (kept & new & -> & F & _) & C).
    split; [exact G1|]. split.
    { intros q Hq. destruct (Forall2_extends_in _ _ _ F Hq) as (q' & I & X). exists q'. assert (In q' (kept ++ new)) by (apply in_or_app; auto). split; [auto|].
      apply extends_range; auto. }
    split; [exact A|]. split; [exact B|]. split; [lia|]. split; [auto|]. intro L3. destruct (C (or_introl L3)) as (q & I & S). exists q. split; [exact I|].
    destruct (MultiStepProofs.good_range p (make_good ms L)) as (H1 & H2 & _). destruct (MultiStepProofs.good_range q (G1 q I)) as (_ & _ & H3).
    rewrite A, B. split; apply H3, S; assumption.
  - apply Nat.ltb_ge in L. injection E as <- <-. split; [exact G|]. split; [apply grows_refl|]. do 2 (split; [reflexivity|]). split; [auto|]. split; lia.
Qed.
End Add.

(** * make_phase in terms of the tracked minima *)
Lemma mp_temps ms t : In t (temps (make_phase ms)) <-> In t (map temp ms).
Proof. unfold make_phase. rewrite fix_range_temps, AddAll_temps by apply sorted_empty. cbn. tauto. Qed.
Lemma mp_range ms : ms <> [] -> lowest (T_low (make_phase ms)) ms /\ highest (T_high (make_phase ms)) ms.
Proof.
  intro H. destruct (phase_history ms [] H) as (_ & _ & _ & A & B). rewrite app_nil_r in A, B. split; assumption.
Qed.
Lemma lowest_unique a b ms : lowest a ms -> lowest b ms -> a = b.
Proof. intros (A & B) (C & D). specialize (B _ C). specialize (D _ A). lia. Qed.
Lemma highest_unique a b ms : highest a ms -> highest b ms -> a = b.
Proof. intros (A & B) (C & D). specialize (B _ C). specialize (D _ A). lia. Qed.
Lemma lowest_nonempty a ms : lowest a ms -> ms <> []. Proof. intros (H & _) ->. destruct H. Qed.
Lemma highest_nonempty a ms : highest a ms -> ms <> []. Proof. intros (H & _) ->. destruct H. Qed.
Lemma mp_low a ms : lowest a ms -> T_low (make_phase ms) = a.
Proof. intro H. eapply lowest_unique; [apply mp_range; eapply lowest_nonempty; eauto|exact H]. Qed.
Lemma mp_high a ms : highest a ms -> T_high (make_phase ms) = a.
Proof. intro H. eapply highest_unique; [apply mp_range; eapply highest_nonempty; eauto|exact H]. Qed.
Lemma mp_in T ms : In T (map temp ms) -> T_low (make_phase ms) <= T <= T_high (make_phase ms).
Proof.
  intro H. assert (N : ms <> []) by (intros ->; destruct H). destruct (mp_range ms N) as ((_ & A) & (_ & B)). split; auto.
Qed.
Lemma mp_inside a b ms : ms <> [] -> inside a b ms -> a <= T_low (make_phase ms) /\ T_high (make_phase ms) <= b.
Proof.
  intros N H. destruct (mp_range ms N) as ((A & _) & (B & _)). apply in_map_iff in A as (m & E1 & I1). apply in_map_iff in B as (m' & E2 & I2).
  specialize (H _ I1) as H1. specialize (H _ I2). lia.
Qed.
Lemma mp_long T ms : long_from T ms -> (3 <= length (mins (make_phase ms)))%nat.
Proof.
  intros (_ & a & b & c & A & B & C & L1 & L2). replace (length (mins (make_phase ms))) with (length (temps (make_phase ms))) by apply map_length.
  change 3%nat with (length [a; b; c]). apply NoDup_incl_length.
  - repeat constructor; cbn; lia.
  - intros t Ht. apply mp_temps. cbn in Ht. destruct Ht as [<-|[<-|[<-|[]]]]; assumption.
Qed.
Lemma mp_short ms : (length (mins (make_phase ms)) <= 1)%nat <-> no_length ms.
Proof.
  replace (length (mins (make_phase ms))) with (length (temps (make_phase ms))) by apply map_length. split.
  - intros L a b A B. apply mp_temps in A, B. destruct (temps (make_phase ms)) as [|x [|y l]]; cbn in *; lia.
  - intro N. destruct (temps (make_phase ms)) as [|x [|y l]] eqn:E; cbn; try lia. exfalso.
    assert (In x (map temp ms) /\ In y (map temp ms)) as (A & B) by (split; apply mp_temps; rewrite E; cbn; auto).
    specialize (N _ _ A B). subst y. destruct (phase_history ms []) as (I & _); [intros ->; destruct A|]. cbn [AddAll fold_left] in I.
    specialize (I 0%nat 1%nat x x (le_n _)). rewrite E in I. specialize (I eq_refl eq_refl). lia.
Qed.
