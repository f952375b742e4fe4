(** Proofs about the list of bounce actions. *)
From Coq Require Import QArith Qabs Qround Lqa Sorted Lia.
From Verif.Model Require Import Base BounceScan.
From Verif.Spec Require Import BounceScanSpec.
Open Scope Q_scope.

Lemma Qlt_bool_true a b : Qlt_bool a b = true <-> a < b.
Proof.
  unfold Qlt_bool. rewrite negb_true_iff. split; intro H.
  - destruct (Qlt_le_dec a b) as [|L]; [assumption|]. apply Qle_bool_iff in L. congruence.
  - destruct (Qle_bool b a) eqn:E; [|reflexivity]. apply Qle_bool_iff in E. lra.
Qed.
Lemma Qlt_bool_false a b : Qlt_bool a b = false <-> b <= a.
Proof.
  split; intro H.
  - destruct (Qlt_le_dec a b) as [L|]; [|assumption]. apply Qlt_bool_true in L. congruence.
  - destruct (Qlt_bool a b) eqn:E; [|reflexivity]. apply Qlt_bool_true in E. lra.
Qed.
Ltac qb := repeat match goal with
  | H : _ || _ = false |- _ => apply orb_false_iff in H as [? ?]
  | H : _ && _ = true |- _ => apply andb_true_iff in H as [? ?]
  | H : negb _ = false |- _ => apply negb_false_iff in H
  | H : negb _ = true |- _ => apply negb_true_iff in H
  | H : Qlt_bool _ _ = true |- _ => apply Qlt_bool_true in H
  | H : Qlt_bool _ _ = false |- _ => apply Qlt_bool_false in H
  | H : Qle_bool _ _ = true |- _ => apply Qle_bool_iff in H
  end.

Lemma floor_drop x y : 0 <= y -> y + 1 <= x -> (Z.to_nat (Qfloor y) < Z.to_nat (Qfloor x))%nat.
Proof.
  intros Hy H. assert (0 <= Qfloor y)%Z by (change 0%Z with (Qfloor 0); now apply Qfloor_resp_le).
  assert (Qfloor y + 1 <= Qfloor x)%Z; [|lia].
  pose proof (Qfloor_le y) as L. pose proof (Qlt_floor x) as U.
  assert (inject_Z (Qfloor y) < inject_Z (Qfloor x)) as I.
  { rewrite inject_Z_plus in U. change (inject_Z 1) with 1 in U. lra. }
  rewrite <- Zlt_Qlt in I. lia.
Qed.

(** ** nearest and insert *)
Lemma nearest_in T : forall l best, In (nearest T best l) (best :: l).
Proof.
  induction l as [|y l IH]; intro best; [now left|]. cbn [nearest].
  destruct (Qlt_bool _ _); [specialize (IH y)|specialize (IH best)]; cbn in *; tauto.
Qed.
Lemma nearest_min T : forall l best z, In z (best :: l) ->
  Qabs (T - sT (nearest T best l)) <= Qabs (T - sT z).
Proof.
  induction l as [|y l IH]; intros best z [->|H]; cbn [nearest].
  - lra.
  - destruct H.
  - destruct (Qlt_bool _ _) eqn:E.
    + qb. specialize (IH y y (or_introl eq_refl)). lra.
    + apply IH. now left.
  - destruct (Qlt_bool (Qabs (T - sT y)) _) eqn:E.
    + apply IH. exact H.
    + destruct H as [<-|H]; [|apply IH; now right]. qb. specialize (IH best best (or_introl eq_refl)). lra.
Qed.

Lemma insert_in x l z : In z (insert x l) <-> z = x \/ In z l.
Proof.
  induction l as [|y l IH]; cbn; [intuition congruence|]. destruct (Qlt_bool _ _); cbn; [intuition congruence|].
  rewrite IH. intuition congruence.
Qed.
Lemma insert_length x l : length (insert x l) = S (length l).
Proof. induction l as [|y l IH]; cbn; [reflexivity|]. destruct (Qlt_bool _ _); cbn; [reflexivity|now rewrite IH]. Qed.
Lemma insert_increasing x l : increasing l -> (forall y, In y l -> ~ sT y == sT x) -> increasing (insert x l).
Proof.
  unfold increasing. induction l as [|y l IH]; intros S D; cbn; [constructor; constructor|].
  apply StronglySorted_inv in S as [S F]. destruct (Qlt_bool (sT x) (sT y)) eqn:E.
  - qb. constructor; [now constructor|]. constructor; [exact E|].
    rewrite Forall_forall in *. intros z Hz. specialize (F z Hz). lra.
  - qb. assert (sT y < sT x). { specialize (D y (or_introl eq_refl)). apply Qle_lteq in E as [E|E]; [exact E|contradiction]. }
    constructor; [apply IH; auto; intros z Hz; apply D; now right|].
    rewrite Forall_forall in *. intros z Hz. apply insert_in in Hz as [->|Hz]; [assumption|now apply F].
Qed.
Lemma insert_last x l : (forall y, In y l -> sT y < sT x) -> insert x l = l ++ [x].
Proof.
  induction l as [|y l IH]; intro H; cbn; [reflexivity|].
  destruct (Qlt_bool (sT x) (sT y)) eqn:E.
  - qb. specialize (H y (or_introl eq_refl)). lra.
  - f_equal. apply IH. intros z Hz. apply H. now right.
Qed.
Lemma insert_first x l : (forall y, In y l -> sT x < sT y) -> insert x l = x :: l.
Proof.
  destruct l as [|y l]; intro H; cbn; [reflexivity|].
  destruct (Qlt_bool (sT x) (sT y)) eqn:E; [reflexivity|]. qb. specialize (H y (or_introl eq_refl)). lra.
Qed.

Section P.
Variables (Tm Tc : Q).
Hypothesis Tm_nonneg : 0 <= Tm.
Variable viable : Q -> bool.
Variable action : nat -> Q -> bool -> option Q.
Notation CAA := (CalculateActionAt Tm Tc viable action).

Definition inv (s : scan) : Prop := increasing (sols s) /\ physical Tm Tc (sols s).

Lemma good_pos T a : 0 <= T -> good T (Some a) = true -> 0 < a.
Proof.
  intros HT. unfold good. destruct (Qeq_bool T 0) eqn:E; intro H; qb; [exact H|].
  apply Qeq_bool_neq in E. assert (0 < T) by (apply Qle_lteq in HT as [|HT]; [assumption|symmetry in HT; contradiction]).
  setoid_replace a with (a / T * T) by (field; lra). rewrite <- (Qmult_0_l T). apply Qmult_lt_compat_r; assumption.
Qed.

Lemma CAA_cases s T smart :
  sols (CAA s T smart) = sols s \/
  exists a, sols (CAA s T smart) = insert {| sT := T; sS := a |} (sols s) /\
    Tm <= T <= Tc /\ 0 < a /\ (sols s <> [] -> viable T = true) /\
    (forall y, In y (sols s) -> 0.001 <= Qabs (T - sT y)).
Proof.
  unfold CalculateActionAt. destruct (Qlt_bool T Tm || Qlt_bool Tc T) eqn:R; [now left|]. qb.
  destruct (sols s) as [|y r] eqn:E.
  - unfold with_sol. destruct (action (calls s) T false) as [a|] eqn:A; [|left; exact E].
    destruct (good T (Some a)) eqn:G; [|left; exact E].
    right. exists a. split; [reflexivity|]. split; [lra|]. split; [apply (good_pos T); [lra|exact G]|]. split; [congruence|]. intros y [].
  - rewrite <- E in *. destruct (Qlt_bool _ 0.001) eqn:D; [now left|].
    destruct (viable T) eqn:Vi; [|now left]. cbn [negb].
    unfold with_sol. destruct (action (calls s) T smart) as [a|] eqn:A; [|now left].
    destruct (good T (Some a)) eqn:G; [|now left].
    right. exists a. split; [reflexivity|]. split; [lra|]. split; [apply (good_pos T); [lra|exact G]|]. split; [auto|].
    intros z Hz. qb. rewrite E in Hz. pose proof (nearest_min T r y z Hz) as M.
    rewrite Qabs_Qminus in D. lra.
Qed.

Lemma Qabs_ge_neq x y : 0.001 <= Qabs (x - y) -> ~ y == x.
Proof.
  intros H E. setoid_replace (x - y) with 0 in H by (rewrite E; ring). change (Qabs 0) with 0 in H. lra.
Qed.

Lemma CAA_inv s T smart : inv s -> inv (CAA s T smart).
Proof.
  intros (S & P). unfold inv. destruct (CAA_cases s T smart) as [E|(a & E & R & A & _ & D)]; rewrite E; [now split|].
  split.
  - apply insert_increasing; [exact S|]. intros y Hy. cbn. apply Qabs_ge_neq. now apply D.
  - unfold physical. apply Forall_forall. intros z Hz. apply insert_in in Hz as [->|Hz]; [cbn; lra|].
    unfold physical in P. rewrite Forall_forall in P. now apply P.
Qed.

Lemma CAA_close s T smart y : In y (sols s) -> Qabs (T - sT y) < 0.001 -> CAA s T smart = s.
Proof.
  intros Hy D. unfold CalculateActionAt. destruct (_ || _); [reflexivity|].
  destruct (sols s) as [|z r] eqn:E; [destruct Hy|].
  destruct (Qlt_bool _ 0.001) eqn:B; [reflexivity|]. qb. pose proof (nearest_min T r z y Hy) as M.
  rewrite Qabs_Qminus in B. lra.
Qed.

Lemma CAA_length s T smart : (length (sols s) <= length (sols (CAA s T smart)))%nat.
Proof.
  destruct (CAA_cases s T smart) as [E|(a & E & _)]; rewrite E; [lia|]. rewrite insert_length. lia.
Qed.

Lemma history h : forall s, inv s -> inv (evaluations Tm Tc viable action s h).
Proof. induction h as [|e h IH]; intros s I; [exact I|]. cbn. apply IH. now apply CAA_inv. Qed.

(** entries present stay, in the whole history *)
Lemma CAA_keeps s T smart x : In x (sols s) -> In x (sols (CAA s T smart)).
Proof.
  intro H. destruct (CAA_cases s T smart) as [E|(a & E & _)]; rewrite E; [exact H|]. apply insert_in. now right.
Qed.

(** ** the scans *)
Definition room_up (s : scan) : nat := match rev (sols s) with [] => O | b :: _ => Z.to_nat (Qfloor ((Tc - sT b) * 1000)) end.
Definition room_down (s : scan) : nat := match sols s with [] => O | a :: _ => Z.to_nat (Qfloor ((sT a - Tm) * 1000)) end.

Lemma sorted_back l b rest : increasing l -> rev l = b :: rest -> forall y, In y l -> sT y <= sT b.
Proof.
  intros S E y Hy. apply (f_equal (@rev sol)) in E. rewrite rev_involutive in E. cbn in E. subst l.
  unfold increasing in S. clear -S Hy. induction (rev rest) as [|z l IH]; cbn in *.
  - destruct Hy as [->|[]]. lra.
  - apply StronglySorted_inv in S as [S F]. destruct Hy as [->|Hy]; [|now apply IH].
    rewrite Forall_forall in F. apply Qlt_le_weak, F. apply in_or_app. right. now left.
Qed.
Lemma sorted_second l a b r : increasing l -> l = a :: b :: r -> sT a < sT b.
Proof. intros S ->. apply StronglySorted_inv in S as [_ F]. now apply Forall_cons_iff in F. Qed.
Lemma sorted_last2 l a b r : increasing l -> rev l = b :: a :: r -> sT a < sT b.
Proof.
  intros S E. apply (f_equal (@rev sol)) in E. rewrite rev_involutive in E. cbn in E. subst l.
  rewrite <- app_assoc in S. cbn in S. unfold increasing in S. induction (rev r) as [|z l IH]; cbn in *.
  - apply StronglySorted_inv in S as [_ F]. now apply Forall_cons_iff in F.
  - apply StronglySorted_inv in S as [S _]. now apply IH.
Qed.

(** an accepted evaluation at or above the last entry *)
Lemma grow_up s T smart b rest : inv s -> rev (sols s) = b :: rest -> sT b <= T ->
  length (sols s) <> length (sols (CAA s T smart)) ->
  (room_up (CAA s T smart) < room_up s)%nat.
Proof.
  intros (S & P) E HT L. destruct (CAA_cases s T smart) as [F|(a & F & R & A & _ & D)]; rewrite ?F in *; [congruence|].
  unfold room_up. rewrite F, E.
  assert (Hb : In b (sols s)) by (apply in_rev; rewrite E; now left).
  specialize (D b Hb). assert (sT b + 0.001 <= T).
  { rewrite Qabs_pos in D by lra. lra. }
  rewrite insert_last.
  2:{ intros y Hy. cbn. pose proof (sorted_back _ _ _ S E y Hy). lra. }
  rewrite rev_app_distr. cbn [rev app sT]. apply floor_drop; lra.
Qed.
Lemma grow_down s T smart b rest : inv s -> sols s = b :: rest -> T <= sT b ->
  length (sols s) <> length (sols (CAA s T smart)) ->
  (room_down (CAA s T smart) < room_down s)%nat.
Proof.
  intros (S & P) E HT L. destruct (CAA_cases s T smart) as [F|(a & F & R & A & _ & D)]; rewrite ?F in *; [congruence|].
  unfold room_down. rewrite F.
  assert (Hb : In b (sols s)) by (rewrite E; now left).
  specialize (D b Hb). assert (T + 0.001 <= sT b).
  { rewrite Qabs_neg in D by lra. lra. }
  rewrite insert_first.
  2:{ intros y Hy. cbn. rewrite E in Hy, S. apply StronglySorted_inv in S as [_ FF]. rewrite Forall_forall in FF.
      destruct Hy as [<-|Hy]; [lra|]. specialize (FF y Hy). lra. }
  rewrite E. cbn [sT]. apply floor_drop; lra.
Qed.

Lemma called_inv s : inv s -> inv (called s).
Proof. intro H. exact H. Qed.

Lemma ratio_some x : 0 < sT x -> ratio x = Some (sS x / sT x).
Proof.
  intro H. unfold ratio. destruct (Qeq_bool (sT x) 0) eqn:E; [|reflexivity]. apply Qeq_bool_iff in E. lra.
Qed.

Lemma scan_high : forall n fuel i s, inv s -> (2 <= length (sols s))%nat -> (room_up s < n)%nat -> (n <= fuel)%nat ->
  exists s', GWScanTowardsHighAction Tm Tc viable action fuel i s = Ok s' /\ inv s' /\ (2 <= length (sols s'))%nat /\
    incl (sols s) (sols s').
Proof.
  induction n as [|n IH]; intros fuel i s I L M F; [lia|]. destruct fuel as [|fuel]; [lia|].
  assert (K : exists s', Ok s = Ok s' /\ inv s' /\ (2 <= length (sols s'))%nat /\ incl (sols s) (sols s')).
  { exists s. split; [reflexivity|]. split; [exact I|]. split; [exact L|]. apply incl_refl. }
  cbn [GWScanTowardsHighAction].
  destruct (rev (sols s)) as [|b rest] eqn:E.
  { apply (f_equal (@length sol)) in E. rewrite rev_length in E. cbn in E. lia. }
  destruct (ratio b) as [s2|]; [|exact K].
  destruct (negb _); [exact K|]. destruct (Qlt_bool 200 s2); [exact K|].
  destruct rest as [|a rest].
  { apply (f_equal (@length sol)) in E. rewrite rev_length in E. cbn in E. lia. }
  destruct (ratio a) as [s1|].
  2:{ exists (called (called s)). split; [reflexivity|]. split; [exact I|]. split; [exact L|]. apply incl_refl. }
  cbn zeta. destruct (Qeq_bool s1 s2); [exact K|].
  set (T := Qred (((s1 - (s2 + 10)) * sT b - (s2 - (s2 + 10)) * sT a) / (s1 - s2))).
  destruct (Qlt_bool T (sT b)) eqn:C1; [exact K|].
  pose proof (sorted_last2 _ _ _ _ (proj1 I) E) as AB.
  assert (STEP : forall s' j, inv s' -> (2 <= length (sols s'))%nat -> incl (sols s) (sols s') -> (room_up s' < room_up s)%nat ->
    exists s'', GWScanTowardsHighAction Tm Tc viable action fuel j s' = Ok s'' /\ inv s'' /\ (2 <= length (sols s''))%nat /\ incl (sols s) (sols s'')).
  { intros s' j I' L' N' R'. destruct (IH fuel j s' I' L' ltac:(lia) ltac:(lia)) as (s'' & H1 & H2 & H3 & H4).
    exists s''. split; [exact H1|]. split; [exact H2|]. split; [exact H3|]. eapply incl_tran; eassumption. }
  destruct (Qlt_bool Tc T) eqn:C2.
  - destruct (Qlt_bool Tc (sT b + (sT b - sT a))) eqn:C3; [exact K|].
    set (U := sT b + (sT b - sT a)) in *.
    pose proof (CAA_length s U true) as LL.
    destruct (Nat.eqb_spec (length (sols s)) (length (sols (CAA s U true)))) as [EQ|NE].
    + exists (CAA s U true). split; [reflexivity|]. split; [now apply CAA_inv|]. split; [lia|]. intros x Hx. now apply CAA_keeps.
    + apply STEP; [now apply CAA_inv|lia|intros x Hx; now apply CAA_keeps|].
      apply (grow_up s U true b (a :: rest) I E); [unfold U; lra|exact NE].
  - qb. set (s' := CAA s T true).
    assert (I' : inv s') by now apply CAA_inv.
    assert (N' : incl (sols s) (sols s')) by (intros x Hx; now apply CAA_keeps).
    pose proof (CAA_length s T true : (length (sols s) <= length (sols s'))%nat) as LL.
    destruct (Nat.eqb_spec (length (sols s)) (length (sols s'))) as [EQ|NE].
    + assert (SAME : sols s' = sols s).
      { destruct (CAA_cases s T true) as [F1|(q & F1 & _)]; [exact F1|]. unfold s' in EQ. rewrite F1, insert_length in EQ. lia. }
      assert (I2 : inv (CAA s' T false)) by now apply CAA_inv.
      assert (N2 : incl (sols s) (sols (CAA s' T false))) by (intros x Hx; apply CAA_keeps; now apply N').
      pose proof (CAA_length s' T false) as LL2.
      destruct (Nat.eqb_spec (length (sols s)) (length (sols (CAA s' T false)))) as [EQ2|NE2].
      * exists (CAA s' T false). split; [reflexivity|]. split; [exact I2|]. split; [lia|exact N2].
      * apply STEP; [exact I2|lia|exact N2|].
        replace (room_up s) with (room_up s') by (unfold room_up; now rewrite SAME).
        apply (grow_up s' T false b (a :: rest) I'); [now rewrite SAME|exact C1|congruence].
    + destruct (Nat.eqb_spec (length (sols s)) (length (sols s'))) as [|_]; [contradiction|].
      apply STEP; [exact I'|lia|exact N'|]. apply (grow_up s T true b (a :: rest) I E C1 NE).
Qed.

Lemma scan_low : forall n fuel i s, inv s -> (2 <= length (sols s))%nat -> (room_down s < n)%nat -> (n <= fuel)%nat ->
  exists s', GWScanTowardsLowAction Tm Tc viable action fuel i s = Ok s' /\ inv s' /\ (2 <= length (sols s'))%nat /\
    incl (sols s) (sols s').
Proof.
  induction n as [|n IH]; intros fuel i s I L M F; [lia|]. destruct fuel as [|fuel]; [lia|].
  assert (K : exists s', Ok s = Ok s' /\ inv s' /\ (2 <= length (sols s'))%nat /\ incl (sols s) (sols s')).
  { exists s. split; [reflexivity|]. split; [exact I|]. split; [exact L|]. apply incl_refl. }
  cbn [GWScanTowardsLowAction].
  destruct (sols s) as [|a [|b rest]] eqn:E; [cbn in L; lia|cbn in L; lia|]. rewrite <- E in *.
  pose proof (sorted_second _ _ _ _ (proj1 I) E) as AB.
  destruct (ratio a) as [s1|].
  2:{ exists (called (called s)). split; [reflexivity|]. split; [exact I|]. split; [exact L|]. apply incl_refl. }
  destruct (negb _); [exact K|]. destruct (Qlt_bool s1 50); [exact K|].
  rewrite ratio_some.
  2:{ destruct I as (_ & P). unfold physical in P. rewrite E in P. apply Forall_cons_iff in P as ((P & _) & _). lra. }
  set (s2 := sS b / sT b).
  cbn zeta. destruct (Qeq_bool s1 s2); [exact K|].
  set (T := Qred (((s1 - (s1 - 10)) * sT b - (s2 - (s1 - 10)) * sT a) / (s1 - s2))).
  destruct (Qlt_bool (sT a) T) eqn:C1; [exact K|].
  assert (STEP : forall s' j, inv s' -> (2 <= length (sols s'))%nat -> incl (sols s) (sols s') -> (room_down s' < room_down s)%nat ->
    exists s'', GWScanTowardsLowAction Tm Tc viable action fuel j s' = Ok s'' /\ inv s'' /\ (2 <= length (sols s''))%nat /\ incl (sols s) (sols s'')).
  { intros s' j I' L' N' R'. destruct (IH fuel j s' I' L' ltac:(lia) ltac:(lia)) as (s'' & H1 & H2 & H3 & H4).
    exists s''. split; [exact H1|]. split; [exact H2|]. split; [exact H3|]. eapply incl_tran; eassumption. }
  destruct (Qlt_bool T Tm) eqn:C2.
  - destruct (Qlt_bool (sT a - (sT b - sT a)) Tm) eqn:C3; [exact K|].
    set (U := sT a - (sT b - sT a)) in *.
    pose proof (CAA_length s U true) as LL.
    destruct (Nat.eqb_spec (length (sols s)) (length (sols (CAA s U true)))) as [EQ|NE].
    + exists (CAA s U true). split; [reflexivity|]. split; [now apply CAA_inv|]. split; [lia|]. intros x Hx. now apply CAA_keeps.
    + apply STEP; [now apply CAA_inv|lia|intros x Hx; now apply CAA_keeps|].
      apply (grow_down s U true a (b :: rest) I E); [unfold U; lra|exact NE].
  - qb. set (s' := CAA s T true).
    assert (I' : inv s') by now apply CAA_inv.
    assert (N' : incl (sols s) (sols s')) by (intros x Hx; now apply CAA_keeps).
    pose proof (CAA_length s T true : (length (sols s) <= length (sols s'))%nat) as LL.
    destruct (Nat.eqb_spec (length (sols s)) (length (sols s'))) as [EQ|NE].
    + assert (SAME : sols s' = sols s).
      { destruct (CAA_cases s T true) as [F1|(q & F1 & _)]; [exact F1|]. unfold s' in EQ. rewrite F1, insert_length in EQ. lia. }
      assert (I2 : inv (CAA s' T false)) by now apply CAA_inv.
      assert (N2 : incl (sols s) (sols (CAA s' T false))) by (intros x Hx; apply CAA_keeps; now apply N').
      pose proof (CAA_length s' T false) as LL2.
      destruct (Nat.eqb_spec (length (sols s)) (length (sols (CAA s' T false)))) as [EQ2|NE2].
      * exists (CAA s' T false). split; [reflexivity|]. split; [exact I2|]. split; [lia|exact N2].
      * apply STEP; [exact I2|lia|exact N2|].
        replace (room_down s) with (room_down s') by (unfold room_down; now rewrite SAME).
        apply (grow_down s' T false a (b :: rest) I'); [now rewrite SAME|exact C1|congruence].
    + destruct (Nat.eqb_spec (length (sols s)) (length (sols s'))) as [|_]; [contradiction|].
      apply STEP; [exact I'|lia|exact N'|]. apply (grow_down s T true a (b :: rest) I E C1 NE).
Qed.

(** ** the whole construction *)
Definition room : nat := Z.to_nat (Qfloor ((Tc - Tm) * 1000)).
Lemma room_up_le s : inv s -> (room_up s <= room)%nat.
Proof.
  intros (_ & P). unfold room_up, room. destruct (rev (sols s)) as [|b r] eqn:E; [lia|].
  unfold physical in P. rewrite Forall_forall in P. specialize (P b ltac:(apply in_rev; rewrite E; now left)).
  apply Z2Nat.inj_le; try (change 0%Z with (Qfloor 0)); apply Qfloor_resp_le; lra.
Qed.
Lemma room_down_le s : inv s -> (room_down s <= room)%nat.
Proof.
  intros (_ & P). unfold room_down, room. destruct (sols s) as [|b r] eqn:E; [lia|].
  unfold physical in P. rewrite Forall_forall in P. specialize (P b (or_introl eq_refl)).
  apply Z2Nat.inj_le; try (change 0%Z with (Qfloor 0)); apply Qfloor_resp_le; lra.
Qed.

Lemma next_temps_ok : forall l, increasing l -> physical Tm Tc l -> exists Ts, next_temps l = Ok Ts.
Proof.
  induction l as [|a l IH]; intros S P; [now eexists|]. destruct l as [|b r]; [now eexists|].
  unfold increasing in S. apply StronglySorted_inv in S as [S F]. apply Forall_cons_iff in F as [AB _].
  unfold physical in P. apply Forall_cons_iff in P as [Pa P].
  destruct (IH S P) as (Ts & E). cbn [next_temps]. cbn [next_temps] in E. 
  assert (B : exists x, between_two a b = Ok x).
  { unfold between_two. rewrite (ratio_some b) by lra. destruct (ratio a); [|now eexists].
    destruct (Qlt_bool _ _); [now eexists|]. destruct (Qlt_bool _ _); now eexists. }
  destruct B as (x & ->). cbn [bind]. rewrite E. cbn [bind]. now eexists.
Qed.

Lemma evaluate_inv Ts : forall s, inv s -> inv (evaluate Tm Tc viable action s Ts) /\
  (length (sols s) <= length (sols (evaluate Tm Tc viable action s Ts)))%nat /\
  incl (sols s) (sols (evaluate Tm Tc viable action s Ts)).
Proof.
  induction Ts as [|T Ts IH]; intros s I; [split; [exact I|]; split; [reflexivity|apply incl_refl]|].
  change (evaluate Tm Tc viable action s (T :: Ts)) with (evaluate Tm Tc viable action (CAA s T true) Ts).
  destruct (IH (CAA s T true) (CAA_inv s T true I)) as (A & B & C). split; [exact A|].
  split; [pose proof (CAA_length s T true); lia|]. eapply incl_tran; [|exact C]. intros x Hx. now apply CAA_keeps.
Qed.

Lemma refine_ok : forall r s, inv s -> (2 <= length (sols s))%nat ->
  exists s', refine Tm Tc viable action r s = Ok s' /\ inv s' /\ (2 <= length (sols s'))%nat /\ incl (sols s) (sols s').
Proof.
  induction r as [|r IH]; intros s I L; cbn [refine].
  - exists s. split; [reflexivity|]. split; [exact I|]. split; [exact L|apply incl_refl].
  - destruct (next_temps_ok (sols s) (proj1 I) (proj2 I)) as (Ts & ->). cbn [bind].
    destruct (evaluate_inv Ts s I) as (A & B & C).
    destruct (length (sols s) =? _)%nat.
    + eexists. split; [reflexivity|]. split; [exact A|]. split; [lia|exact C].
    + destruct (IH _ A ltac:(lia)) as (s' & H1 & H2 & H3 & H4). exists s'. split; [exact H1|]. split; [exact H2|].
      split; [exact H3|]. eapply incl_tran; eassumption.
Qed.

Lemma secondary_ok fuel s : inv s -> (room < fuel)%nat ->
  exists s' b, GWSecondaryScan Tm Tc viable action fuel s = Ok (s', b) /\ inv s' /\ incl (sols s) (sols s') /\
    (b = true <-> (4 <= length (sols s'))%nat).
Proof.
  intros I F. unfold GWSecondaryScan. destruct (sols s) as [|x r] eqn:E.
  { exists s, false. split; [reflexivity|]. split; [exact I|]. rewrite E. split; [apply incl_refl|]. cbn. split; [congruence|lia]. }
  rewrite <- E.
  set (s1 := match r with [] => CAA s (sT x - (sT x - Tm) / 10) true | _ => s end).
  assert (I1 : inv s1) by (unfold s1; destruct r; [now apply CAA_inv|exact I]).
  assert (N1 : incl (sols s) (sols s1)).
  { unfold s1. destruct r; [intros z Hz; now apply CAA_keeps|apply incl_refl]. }
  assert (B : forall q, SetBounceSol q = true <-> (4 <= length (sols q))%nat).
  { intro q. unfold SetBounceSol. destruct (Nat.ltb_spec (length (sols q)) 4); cbn; split; try congruence; lia. }
  destruct (Nat.eqb_spec (length (sols s1)) 1) as [L1|L1].
  { exists s1, (SetBounceSol s1). split; [reflexivity|]. split; [exact I1|]. split; [exact N1|apply B]. }
  assert (L2 : (2 <= length (sols s1))%nat).
  { assert (length (sols s1) <> 0)%nat; [|lia]. intro Z. apply length_zero_iff_nil in Z. rewrite Z in N1. apply (N1 x). rewrite E. now left. }
  pose proof (room_down_le s1 I1).
  destruct (scan_low (S (room_down s1)) fuel 0 s1 I1 L2 ltac:(lia) ltac:(lia)) as (s2 & E2 & I2 & M2 & N2).
  rewrite E2. cbn [bind]. pose proof (room_up_le s2 I2).
  destruct (scan_high (S (room_up s2)) fuel 0 s2 I2 M2 ltac:(lia) ltac:(lia)) as (s3 & E3 & I3 & M3 & N3).
  rewrite E3. cbn [bind].
  destruct (refine_ok 2 s3 I3 M3) as (s4 & E4 & I4 & M4 & N4). rewrite E4. cbn [bind].
  pose proof (room_down_le s4 I4).
  destruct (scan_low (S (room_down s4)) fuel 0 s4 I4 M4 ltac:(lia) ltac:(lia)) as (s5 & E5 & I5 & M5 & N5).
  rewrite E5. cbn [bind]. pose proof (room_up_le s5 I5).
  destruct (scan_high (S (room_up s5)) fuel 0 s5 I5 M5 ltac:(lia) ltac:(lia)) as (s6 & E6 & I6 & M6 & N6).
  rewrite E6. cbn [bind]. exists s6, (SetBounceSol s6). split; [reflexivity|]. split; [exact I6|]. split; [|apply B].
  repeat (eapply incl_tran; [eassumption|]). apply incl_refl.
Qed.

Section Initial.
Variable dT : Q.
Hypothesis dT_pos : 0 < dT.

Lemma initial_ok : forall n fuel T s, inv s -> T <= Tc -> Forall (fun x => T < sT x) (sols s) ->
  (Z.to_nat (Qfloor ((T - Tm) / dT)) < n)%nat -> (n < fuel)%nat ->
  exists s', initial_loop Tm viable action fuel dT T s = Ok s' /\ inv s'.
Proof.
  induction n as [|n IH]; intros fuel T s I HT F M N; [lia|]. destruct fuel as [|fuel]; [lia|].
  cbn [initial_loop]. destruct (Qlt_bool T (Tm + dT)) eqn:C; [now exists s|]. qb.
  assert (STEP : forall s', inv s' -> Forall (fun x => T - dT < sT x) (sols s') ->
    exists s'', initial_loop Tm viable action fuel dT (T - dT) s' = Ok s'' /\ inv s'').
  { intros s' I' F'. apply IH; auto; try lia; [lra|].
    enough (Z.to_nat (Qfloor ((T - dT - Tm) / dT)) < Z.to_nat (Qfloor ((T - Tm) / dT)))%nat by lia.
    apply floor_drop.
    - apply Qle_shift_div_l; [exact dT_pos|]. lra.
    - setoid_replace ((T - dT - Tm) / dT + 1) with ((T - Tm) / dT) by (field; lra). lra. }
  assert (F0 : Forall (fun x => T - dT < sT x) (sols s)).
  { rewrite Forall_forall in *. intros z Hz. specialize (F z Hz). lra. }
  destruct (viable T); cbn [negb]; [|apply STEP; assumption].
  assert (W : inv (with_sol s (fun x => insert x (sols s)) T (action (calls s) T true)) /\
    Forall (fun x => T - dT < sT x) (sols (with_sol s (fun x => insert x (sols s)) T (action (calls s) T true)))).
  { unfold with_sol. destruct (action (calls s) T true) as [a|]; [|split; [exact I|exact F0]].
    destruct (good T (Some a)) eqn:G; [|split; [exact I|exact F0]]. rewrite Forall_forall in F.
    assert (IF : insert {| sT := T; sS := a |} (sols s) = {| sT := T; sS := a |} :: sols s).
    { apply insert_first. intros y Hy. cbn. now apply F. }
    split.
    - destruct I as (S & P). split; cbn [sols]; rewrite IF.
      + constructor; [exact S|]. apply Forall_forall. exact F.
      + constructor; [|exact P]. cbn. split; [lra|]. apply (good_pos T); [lra|exact G].
    - cbn [sols]. rewrite IF. constructor; [cbn; lra|exact F0]. }
  destruct W as (W1 & W2).
  destruct (action (calls s) T true) as [a|]; [|apply STEP; assumption].
  destruct (Qlt_bool 0 a && _); [|apply STEP; assumption].
  eexists. split; [reflexivity|exact W1].
Qed.
End Initial.
End P.

Lemma construction Tm Tc N viable action : 0 <= Tm -> Tm < Tc ->
  exists f0, forall fuel, (f0 <= fuel)%nat -> exists s b,
    GWInitialScan Tm Tc N viable action fuel = Ok (s, b) /\ increasing (sols s) /\ physical Tm Tc (sols s) /\
    (b = true <-> (4 <= length (sols s))%nat).
Proof.
  intros H0 H1. set (s0 := {| sols := []; calls := 0 |}).
  assert (I0 : inv Tm Tc s0) by (split; constructor).
  destruct N as [|N].
  - exists (S (room Tm Tc)). intros fuel F. destruct (secondary_ok Tm Tc H0 viable action fuel s0 I0 F) as (s & b & E & I & _ & B).
    exists s, b. split; [exact E|]. destruct I. split; [assumption|]. split; assumption.
  - set (dT := (Tc - Tm) / inject_Z (Z.of_nat (S N))).
    assert (dT_pos : 0 < dT).
    { unfold dT. apply Qlt_shift_div_l; [|lra]. change 0 with (inject_Z 0). rewrite <- Zlt_Qlt. lia. }
    exists (S (room Tm Tc) + S (S (Z.to_nat (Qfloor ((Tc - dT - Tm) / dT)))))%nat. intros fuel F.
    destruct (initial_ok Tm Tc H0 viable action dT dT_pos (S (Z.to_nat (Qfloor ((Tc - dT - Tm) / dT)))) fuel (Tc - dT) s0 I0)
      as (s1 & E1 & I1); [lra|constructor|lia|lia|].
    destruct (secondary_ok Tm Tc H0 viable action fuel s1 I1 ltac:(lia)) as (s & b & E & I & _ & B).
    exists s, b. unfold GWInitialScan. cbv zeta. fold dT s0. rewrite E1. cbn [bind]. split; [exact E|].
    destruct I. split; [assumption|]. split; assumption.
Qed.

(** without room between the two temperatures the scan hangs *)
Lemma hang Tm Tc N viable action : Tm == Tc -> (0 < N)%nat -> (forall T, T == Tc -> viable T = false) ->
  forall fuel, GWInitialScan Tm Tc N viable action fuel = OutOfFuel.
Proof.
  intros H N0 V fuel. destruct N as [|N]; [lia|]. unfold GWInitialScan. cbv zeta.
  set (dT := (Tc - Tm) / inject_Z (Z.of_nat (S N))).
  assert (D : dT == 0). { unfold dT, Qdiv. setoid_replace (Tc - Tm) with 0 by lra. ring. }
  assert (G : forall fuel T s, T == Tc -> initial_loop Tm viable action fuel dT T s = OutOfFuel).
  { clear fuel. induction fuel as [|f IH]; intros T s HT; [reflexivity|]. cbn [initial_loop].
    destruct (Qlt_bool T (Tm + dT)) eqn:C; [qb; lra|]. rewrite (V T HT). cbn [negb]. apply IH. lra. }
  rewrite G by lra. reflexivity.
Qed.
