(** Proofs about the diagram of the phases. *)
From Coq Require Import QArith Qround Qfield ZArith List Ascii Arith Lia Lqa Bool.
From Verif Require Import Model.PhaseDiagram Spec.PhaseDiagramSpec.
Import ListNotations.
Local Open Scope Z_scope.

Section Diagram.
  Variables (size : Z) (v p : range).
  Hypothesis S : 0 < size.
  Hypothesis V : (low v < high v)%Q.
  Notation pos := (inject_Z size * (low p - low v) / (high v - low v))%Q.
  Notation rest := (inject_Z size * (high v - high p) / (high v - low v))%Q.
  Lemma size_pos : (0 < inject_Z size)%Q. Proof. unfold Qlt, inject_Z. cbn. lia. Qed.
  Lemma w_pos : (0 < high v - low v)%Q. Proof. lra. Qed.
  Lemma pos_lt i : (pos < inject_Z i)%Q <-> (low p < edge size v i)%Q.
  Proof.
    unfold edge. pose proof w_pos as W. pose proof size_pos as P. split; intros H.
    - assert (inject_Z size * (low p - low v) < inject_Z i * (high v - low v))%Q by (apply (Qmult_lt_r _ _ _ W) in H; setoid_replace (pos * (high v - low v))%Q with (inject_Z size * (low p - low v))%Q in H by (field; lra); exact H).
      apply (Qmult_lt_r _ _ _ P). setoid_replace ((low v + inject_Z i * (high v - low v) / inject_Z size) * inject_Z size)%Q with (low v * inject_Z size + inject_Z i * (high v - low v))%Q by (field; lra). lra.
    - apply (Qmult_lt_r _ _ _ W). setoid_replace (pos * (high v - low v))%Q with (inject_Z size * (low p - low v))%Q by (field; lra).
      apply (Qmult_lt_r _ _ _ P) in H. setoid_replace ((low v + inject_Z i * (high v - low v) / inject_Z size) * inject_Z size)%Q with (low v * inject_Z size + inject_Z i * (high v - low v))%Q in H by (field; lra). lra.
  Qed.
  Lemma rest_lt i : (rest < inject_Z (size - i))%Q <-> (edge size v i < high p)%Q.
  Proof.
    unfold edge, Z.sub. rewrite inject_Z_plus, inject_Z_opp. pose proof w_pos as W. pose proof size_pos as P. split; intros H.
    - apply (Qmult_lt_r _ _ _ W) in H. setoid_replace (rest * (high v - low v))%Q with (inject_Z size * (high v - high p))%Q in H by (field; lra).
      apply (Qmult_lt_r _ _ _ P). setoid_replace ((low v + inject_Z i * (high v - low v) / inject_Z size) * inject_Z size)%Q with (low v * inject_Z size + inject_Z i * (high v - low v))%Q by (field; lra). lra.
    - apply (Qmult_lt_r _ _ _ W). setoid_replace (rest * (high v - low v))%Q with (inject_Z size * (high v - high p))%Q by (field; lra).
      apply (Qmult_lt_r _ _ _ P) in H. setoid_replace ((low v + inject_Z i * (high v - low v) / inject_Z size) * inject_Z size)%Q with (low v * inject_Z size + inject_Z i * (high v - low v))%Q in H by (field; lra). lra.
  Qed.
  Lemma floor_lt x i : Qfloor x < i <-> (x < inject_Z i)%Q.
  Proof.
    split; intros H.
    - eapply Qlt_le_trans; [apply Qlt_floor|]. rewrite <- Zle_Qle. lia.
    - assert (L := Qfloor_le x). assert (inject_Z (Qfloor x) < inject_Z i)%Q by (eapply Qle_lt_trans; eassumption). rewrite <- Zlt_Qlt in H0. exact H0.
  Qed.
  Lemma before_cell i : nBefore size v p <= i <-> (low p < edge size v (i + 1))%Q.
  Proof. rewrite <- pos_lt, <- floor_lt. unfold nBefore. lia. Qed.
  Lemma after_cell i : i < size - nAfter size v p <-> (edge size v i < high p)%Q.
  Proof. rewrite <- rest_lt, <- floor_lt. unfold nAfter. lia. Qed.
  Lemma edge_0 : (edge size v 0 == low v)%Q.
  Proof. unfold edge. pose proof size_pos. field. lra. Qed.
  Lemma edge_size : (edge size v size == high v)%Q.
  Proof. unfold edge. pose proof size_pos. field. lra. Qed.
  Lemma edge_mono i j : i <= j -> (edge size v i <= edge size v j)%Q.
  Proof.
    intros H. pose proof w_pos as W. pose proof size_pos as P. apply (Qmult_le_r _ _ _ P). unfold edge.
    setoid_replace ((low v + inject_Z i * (high v - low v) / inject_Z size) * inject_Z size)%Q with (low v * inject_Z size + inject_Z i * (high v - low v))%Q by (field; lra).
    setoid_replace ((low v + inject_Z j * (high v - low v) / inject_Z size) * inject_Z size)%Q with (low v * inject_Z size + inject_Z j * (high v - low v))%Q by (field; lra).
    rewrite Zle_Qle in H. apply (Qmult_le_compat_r _ _ (high v - low v)%Q) in H; lra.
  Qed.
  Lemma before_nonneg : 0 <= nBefore size v p <-> (low v <= low p)%Q.
  Proof.
    pose proof (before_cell (-1)) as H. change (-1 + 1) with 0 in H. rewrite edge_0 in H. split; intros Q.
    - apply Qnot_lt_le. intros L. apply H in L. lia.
    - destruct (Z_le_gt_dec (nBefore size v p) (-1)) as [L|L]; [|lia]. apply H in L. lra.
  Qed.
  Lemma after_nonneg : 0 <= nAfter size v p <-> (high p <= high v)%Q.
  Proof.
    pose proof (after_cell size) as H. rewrite edge_size in H. split; intros Q.
    - apply Qnot_lt_le. intros L. apply H in L. lia.
    - destruct (Z_le_gt_dec 0 (nAfter size v p)) as [L|L]; [exact L|]. assert (size < size - nAfter size v p) as L' by lia. apply H in L'. lra.
  Qed.
  Lemma phase_nonneg : (low p <= high p)%Q -> 0 <= nPhase size v p.
  Proof.
    intros Q. unfold nPhase. destruct (Z_le_gt_dec 0 (size - nBefore size v p - nAfter size v p)) as [L|L]; [exact L|].
    set (i := size - nAfter size v p) in *. assert (A : ~ (i < size - nAfter size v p)) by lia. rewrite after_cell in A. assert (B : ~ (nBefore size v p <= i)) by lia. rewrite before_cell in B.
    assert (M := edge_mono i (i + 1) ltac:(lia)). assert (edge size v i < edge size v (i + 1))%Q.
    { unfold edge. pose proof w_pos as W. pose proof size_pos as P. apply (Qmult_lt_r _ _ _ P).
      setoid_replace ((low v + inject_Z i * (high v - low v) / inject_Z size) * inject_Z size)%Q with (low v * inject_Z size + inject_Z i * (high v - low v))%Q by (field; lra).
      setoid_replace ((low v + inject_Z (i + 1) * (high v - low v) / inject_Z size) * inject_Z size)%Q with (low v * inject_Z size + inject_Z (i + 1) * (high v - low v))%Q by (field; lra).
      rewrite inject_Z_plus. change (inject_Z 1) with 1%Q. lra. }
    apply Qnot_lt_le in A. apply Qnot_lt_le in B. lra.
  Qed.
  Lemma phase_pos : (low p < high p)%Q -> 0 < nPhase size v p.
  Proof.
    intros Q. unfold nPhase. destruct (Z_lt_ge_dec 0 (size - nBefore size v p - nAfter size v p)) as [L|L]; [exact L|].
    set (i := size - nAfter size v p) in *. assert (A : ~ (i < size - nAfter size v p)) by lia. rewrite after_cell in A. assert (B : ~ (nBefore size v p <= i - 1)) by lia. rewrite before_cell in B.
    replace (i - 1 + 1) with i in B by lia. apply Qnot_lt_le in A. apply Qnot_lt_le in B. lra.
  Qed.
  Lemma samples_nonempty : 0 <= nPhase size v p -> samples size v p <> [].
  Proof.
    intros H E. apply (f_equal (@List.length _)) in E. unfold samples in E. rewrite map_length, seq_length in E. cbn in E. lia.
  Qed.
  Lemma width_false : Qeq_bool (high v - low v) 0 = false.
  Proof. destruct (Qeq_bool (high v - low v) 0) eqn:E; [|reflexivity]. apply Qeq_bool_eq in E. lra. Qed.
  Lemma fill_ok n c : 0 <= n -> fill n c = Some (repeat c (Z.to_nat n)).
  Proof. intros H. unfold fill. destruct (Z.ltb_spec n 0); [lia|reflexivity]. Qed.
  Lemma bar_ok : inside v p -> exists l, bar size v p = Drawn l /\ Z.of_nat (List.length l) = size /\
    forall i, 0 <= i < size -> (nth (Z.to_nat i) l zero = "."%char <-> reaches size v p i) /\ (nth (Z.to_nat i) l zero = " "%char <-> ~ reaches size v p i).
  Proof.
    intros [I1 [I2 I3]]. apply before_nonneg in I1. apply after_nonneg in I3. assert (I4 := phase_nonneg I2). unfold bar. rewrite width_false. destruct (samples size v p) eqn:E; [apply samples_nonempty in E; [destruct E|exact I4]|].
    rewrite !fill_ok by assumption. eexists. split; [reflexivity|]. split; [rewrite !app_length, !repeat_length; unfold nPhase in *; lia|].
    intros i I. unfold reaches. rewrite <- before_cell, <- after_cell. unfold nPhase in *.
    assert (NR : forall c n k, (n < k)%nat -> nth n (repeat c k) zero = c) by (intros c n k; revert n; induction k as [|k IH]; intros n H; [lia|]; destruct n; [reflexivity|]; cbn; apply IH; lia).
    destruct (Z_lt_ge_dec i (nBefore size v p)) as [L|L].
    - rewrite app_nth1 by (rewrite repeat_length; lia). rewrite NR by lia. split; split; intros H; try discriminate H; try reflexivity; try lia.
    - rewrite app_nth2 by (rewrite repeat_length; lia). rewrite repeat_length. destruct (Z_lt_ge_dec i (size - nAfter size v p)) as [L2|L2].
      + rewrite app_nth1 by (rewrite repeat_length; lia). rewrite NR by lia. split; split; intros H; try discriminate H; try reflexivity; try lia.
      + rewrite app_nth2 by (rewrite repeat_length; lia). rewrite repeat_length, NR by lia. split; split; intros H; try discriminate H; try reflexivity; try lia.
  Qed.
  Lemma bar_outside : (low p <= high p)%Q -> (low p < low v)%Q \/ (high v < high p)%Q -> bar size v p = LengthError.
  Proof.
    intros I2 O. assert (I4 := phase_nonneg I2). unfold bar. rewrite width_false. destruct (samples size v p) eqn:E; [apply samples_nonempty in E; [destruct E|exact I4]|].
    rewrite (fill_ok _ _ I4). destruct O as [O|O].
    - assert (nBefore size v p < 0) by (destruct (Z_lt_ge_dec (nBefore size v p) 0) as [L|L]; [exact L|]; apply Z.ge_le in L; apply before_nonneg in L; lra).
      unfold fill at 1. destruct (Z.ltb_spec (nBefore size v p) 0); [reflexivity|lia].
    - assert (nAfter size v p < 0) by (destruct (Z_lt_ge_dec (nAfter size v p) 0) as [L|L]; [exact L|]; apply Z.ge_le in L; apply after_nonneg in L; lra).
      unfold fill at 2. destruct (Z.ltb_spec (nAfter size v p) 0); [|lia]. destruct (fill (nBefore size v p) " "); reflexivity.
  Qed.
  Lemma sample_ok : (low p < high p)%Q -> exists n, (0 < n)%nat /\ List.length (samples size v p) = Datatypes.S n /\
    (exists a b, nth_error (samples size v p) 0 = Some (Some a) /\ (a == low p)%Q /\ nth_error (samples size v p) n = Some (Some b) /\ (b == high p)%Q) /\
    forall i, (i < n)%nat -> exists a b, nth_error (samples size v p) i = Some (Some a) /\ nth_error (samples size v p) (Datatypes.S i) = Some (Some b) /\
      (b - a == (high p - low p) / inject_Z (Z.of_nat n))%Q /\ (low p <= a)%Q /\ (b <= high p)%Q.
  Proof.
    intros H. assert (Q := phase_pos H). exists (Z.to_nat (nPhase size v p)). set (n := Z.to_nat (nPhase size v p)). assert (N : Z.of_nat n = nPhase size v p) by lia.
    assert (G : forall i, (i <= n)%nat -> nth_error (samples size v p) i = Some (Some (low p + inject_Z (Z.of_nat i) / inject_Z (Z.of_nat n) * (high p - low p))%Q)).
    { intros i I. unfold samples. rewrite nth_error_map. replace (Z.to_nat (nPhase size v p + 1)) with (Datatypes.S n) by lia. rewrite (nth_error_nth' _ 0%nat) by (rewrite seq_length; lia).
      rewrite seq_nth by lia. cbn [option_map Nat.add]. unfold sample. destruct (Z.eqb_spec (nPhase size v p) 0); [lia|]. rewrite N. reflexivity. }
    assert (P : (0 < inject_Z (Z.of_nat n))%Q) by (change 0%Q with (inject_Z 0); rewrite <- Zlt_Qlt; lia).
    split; [lia|]. split; [unfold samples; rewrite map_length, seq_length; lia|]. split.
    - eexists. eexists. split; [apply G; lia|]. split; [change (inject_Z (Z.of_nat 0)) with 0%Q; field; lra|]. split; [apply G; lia|]. field. lra.
    - intros i I. eexists. eexists. split; [apply G; lia|]. split; [apply G; lia|]. rewrite Nat2Z.inj_succ. unfold Z.succ. rewrite inject_Z_plus. change (inject_Z 1) with 1%Q.
      assert (Hi : (0 <= inject_Z (Z.of_nat i))%Q) by (change 0%Q with (inject_Z 0); rewrite <- Zle_Qle; lia).
      assert (Hn : (inject_Z (Z.of_nat i) + 1 <= inject_Z (Z.of_nat n))%Q) by (change 1%Q with (inject_Z 1); rewrite <- inject_Z_plus, <- Zle_Qle; lia).
      split; [field; lra|]. split.
      + assert (0 <= inject_Z (Z.of_nat i) / inject_Z (Z.of_nat n) * (high p - low p))%Q; [|lra]. apply Qmult_le_0_compat; [|lra]. apply Qle_shift_div_l; [exact P|lra].
      + assert ((inject_Z (Z.of_nat i) + 1) / inject_Z (Z.of_nat n) <= 1)%Q by (apply Qle_shift_div_r; [exact P|lra]).
        apply (Qmult_le_compat_r _ _ (high p - low p)%Q) in H0; lra.
  Qed.
End Diagram.

Lemma marker_ok : forall i j, (i < 7)%nat -> (j < 7)%nat -> visible (marker i) /\ (marker i = marker j -> i = j).
Proof.
  intros i j I J. do 7 (destruct i as [|i]; [do 7 (destruct j as [|j]; [split; [unfold visible; cbn; lia|first [reflexivity|intros E; discriminate E]]|]); lia|]). lia.
Qed.
Lemma marker_period : forall i, marker (i + 8) = marker i.
Proof. intros i. unfold marker. change (List.length markers) with 8%nat. replace (i + 8)%nat with (i + 1 * 8)%nat by lia. rewrite Nat.mod_add by lia. reflexivity. Qed.
Lemma marker_bad : forall i, ~ visible (marker (7 + 8 * i)).
Proof. intros i. unfold marker. change (List.length markers) with 8%nat. replace (7 + 8 * i)%nat with (7 + i * 8)%nat by lia. rewrite Nat.mod_add by lia. unfold visible. cbn. lia. Qed.
