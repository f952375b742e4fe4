(** Proofs about the vector and matrix helpers. *)
From Coq Require Import Reals Lra.
From Verif.Model Require Import Base Vectors.
From Verif.Spec Require Import VectorsSpec.

Section P.
Variable T : Type.
Variables (add sub mul div : T -> T -> T) (zero : T).

Lemma transform2_nth f : forall a b i x y, nth_error a i = Some x -> nth_error b i = Some y ->
  nth_error (transform2 T f a b) i = Some (f x y).
Proof.
  induction a as [|p a IH]; intros [|q b] [|i] x y Ha Hb; cbn in *; try discriminate.
  - congruence.
  - now apply IH.
Qed.
Lemma transform2_length f : forall a b, length a = length b -> length (transform2 T f a b) = length a.
Proof. induction a as [|p a IH]; intros [|q b] H; cbn in *; try discriminate; auto. Qed.

Lemma vadd_spec a b :
  (length a <> length b -> vadd T add a b = Throw RuntimeError) /\
  (length a = length b -> exists r, vadd T add a b = Ok r /\ length r = length a /\
     forall i x y, nth_error a i = Some x -> nth_error b i = Some y -> nth_error r i = Some (add x y)).
Proof.
  unfold vadd. split; intro H.
  - apply Nat.eqb_neq in H. now rewrite H.
  - pose proof H as L. apply Nat.eqb_eq in H. rewrite H. eexists. split; [reflexivity|]. split; [now apply transform2_length|].
    intros. now apply transform2_nth.
Qed.
Lemma vsub_spec a b :
  (length a <> length b -> vsub T sub a b = Throw ThrownText) /\
  (length a = length b -> exists r, vsub T sub a b = Ok r /\ length r = length a /\
     forall i x y, nth_error a i = Some x -> nth_error b i = Some y -> nth_error r i = Some (sub x y)).
Proof.
  unfold vsub. split; intro H.
  - apply Nat.eqb_neq in H. now rewrite H.
  - pose proof H as L. apply Nat.eqb_eq in H. rewrite H. eexists. split; [reflexivity|]. split; [now apply transform2_length|].
    intros. now apply transform2_nth.
Qed.
Lemma smul_spec c a : length (smul T mul c a) = length a /\
  forall i x, nth_error a i = Some x -> nth_error (smul T mul c a) i = Some (mul c x).
Proof. unfold smul. split; [apply map_length|]. intros i x H. exact (map_nth_error (fun i => mul c i) i a H). Qed.
Lemma sdiv_spec c a : length (sdiv T div a c) = length a /\
  forall i x, nth_error a i = Some x -> nth_error (sdiv T div a c) i = Some (div x c).
Proof. unfold sdiv. split; [apply map_length|]. intros i x H. exact (map_nth_error (fun i => div i c) i a H). Qed.

Lemma sum_ext f g n : (forall i, i < n -> f i = g i) -> sum add zero f n = sum add zero g n.
Proof. induction n as [|n IH]; intro H; [reflexivity|]. cbn. rewrite IH, H; auto. Qed.

Lemma fold_sum l : fold_left add l zero = sum add zero (fun i => nth i l zero) (length l).
Proof.
  induction l as [|x l IH] using rev_ind; [reflexivity|].
  rewrite fold_left_app, IH, app_length, Nat.add_1_r. cbn [fold_left sum]. f_equal.
  - apply sum_ext. intros i Hi. now rewrite app_nth1.
  - rewrite app_nth2, Nat.sub_diag by lia. reflexivity.
Qed.

Lemma nth_transform2 f a : forall b i, length a = length b -> i < length a ->
  nth i (transform2 T f a b) zero = f (nth i a zero) (nth i b zero).
Proof.
  induction a as [|p a IH]; intros [|q b] [|i] L H; cbn in *; try discriminate; try lia; [reflexivity|].
  apply IH; lia.
Qed.

Lemma dot_spec a b :
  (length a <> length b -> dot T add mul zero a b = Throw ThrownText) /\
  (length a = length b ->
   dot T add mul zero a b = Ok (sum add zero (fun i => mul (nth i a zero) (nth i b zero)) (length a))).
Proof.
  unfold dot. split; intro H.
  - apply Nat.eqb_neq in H. now rewrite H.
  - pose proof H as L. apply Nat.eqb_eq in H. rewrite H. f_equal. rewrite fold_sum, transform2_length by exact L.
    apply sum_ext. intros i Hi. now apply nth_transform2.
Qed.

Lemma rows_dot_ok b : forall A, Forall (fun r => length r = length b) A ->
  rows_dot T add mul zero A b = Ok (map (fun r => sum add zero (fun i => mul (nth i r zero) (nth i b zero)) (length b)) A).
Proof.
  induction 1 as [|r A Hr HA IH]; [reflexivity|]. cbn [rows_dot]. rewrite (proj2 (dot_spec r b) Hr). cbn [bind].
  rewrite IH. cbn [bind map]. now rewrite Hr.
Qed.

Lemma matvec_square n A b : rectangular n n A -> length b = n ->
  exists r, matvec T add mul zero A b = Ok r /\ length r = n /\
    forall i row, nth_error A i = Some row ->
      nth_error r i = Some (sum add zero (fun j => mul (nth j row zero) (nth j b zero)) n).
Proof.
  intros (L & F) Lb. unfold matvec. rewrite L, Lb, Nat.eqb_refl.
  rewrite rows_dot_ok by (rewrite Lb; exact F). eexists. split; [reflexivity|]. split; [now rewrite map_length|].
  intros i row H. rewrite <- Lb. exact (map_nth_error (fun r => sum add zero (fun i => mul (nth i r zero) (nth i b zero)) (length b)) i A H).
Qed.

Lemma matvec_nonsquare m n A b : rectangular m n A -> m <> n -> 0 < m -> matvec T add mul zero A b = Throw ThrownText.
Proof.
  intros (L & F) N P. unfold matvec. destruct (Nat.eqb_spec (length A) (length b)) as [E|]; [|reflexivity].
  destruct A as [|r A]; [cbn in L; lia|]. apply Forall_cons_iff in F as [Hr _]. cbn [rows_dot].
  rewrite (proj1 (dot_spec r b)); [reflexivity|]. lia.
Qed.

(** ** Transpose *)
Lemma column_spec j : forall A, (forall r, In r A -> j < length r) ->
  exists c, column T A j = Ok c /\ length c = length A /\ forall i, nth_error c i = entry A i j.
Proof.
  induction A as [|r A IH]; intro H.
  - exists []. split; [reflexivity|]. split; [reflexivity|]. intro i. unfold entry. now destruct i.
  - destruct (nth_error r j) as [x|] eqn:E.
    2:{ apply nth_error_None in E. specialize (H r (or_introl eq_refl)). lia. }
    destruct IH as (c & Hc & Lc & Ec); [intros; apply H; now right|].
    exists (x :: c). cbn [column]. rewrite E, Hc. cbn [bind]. split; [reflexivity|]. split; [cbn; lia|].
    intros [|i]; unfold entry; cbn; [now rewrite E|]. apply Ec.
Qed.

Lemma columns_spec A : forall js, (forall j, In j js -> forall r, In r A -> j < length r) ->
  exists cs, columns_from T A js = Ok cs /\ length cs = length js /\ Forall (fun c => length c = length A) cs /\
    forall k j, nth_error js k = Some j -> forall i, entry cs k i = entry A i j.
Proof.
  induction js as [|j js IH]; intro H.
  - exists []. split; [reflexivity|]. split; [reflexivity|]. split; [constructor|]. intros [|k] j E; discriminate.
  - destruct (column_spec j A) as (c & Hc & Lc & Ec); [apply H; now left|].
    destruct IH as (cs & Hcs & Lcs & Fcs & Ecs); [intros; eapply H; eauto; now right|].
    exists (c :: cs). cbn [columns_from]. rewrite Hc. cbn [bind]. rewrite Hcs. cbn [bind].
    split; [reflexivity|]. split; [cbn; lia|]. split; [now constructor|].
    intros [|k] j0 E i; cbn in E; unfold entry; cbn.
    + injection E as <-. apply Ec.
    + exact (Ecs k j0 E i).
Qed.

Lemma Transpose_spec m n A : rectangular m n A -> 0 < m ->
  exists B, Transpose T A = Ok B /\ rectangular n m B /\ forall i j, entry B i j = entry A j i.
Proof.
  intros (L & F) P. destruct A as [|r A]; [cbn in L; lia|]. remember (r :: A) as A0.
  assert (Hr : length r = n) by (subst A0; now apply Forall_cons_iff in F).
  assert (E : Transpose T A0 = columns_from T A0 (seq 0 n)) by (subst A0; cbn [Transpose]; now rewrite Hr).
  rewrite E. destruct (columns_spec A0 (seq 0 n)) as (B & HB & LB & FB & EB).
  { intros j Hj x Hx. apply in_seq in Hj. rewrite Forall_forall in F. rewrite (F x Hx). lia. }
  exists B. split; [exact HB|]. rewrite seq_length in LB. split; [split; [exact LB|now rewrite L in FB]|].
  intros i j. destruct (Nat.lt_ge_cases i n) as [Hi|Hi].
  - apply EB. rewrite (nth_error_nth' _ 0) by (rewrite seq_length; exact Hi). now rewrite seq_nth.
  - unfold entry at 1. replace (nth_error B i) with (@None (list T)) by (symmetry; apply nth_error_None; lia).
    unfold entry. destruct (nth_error A0 j) as [x|] eqn:Ex; [|reflexivity].
    rewrite Forall_forall in F. symmetry. apply nth_error_None. rewrite (F x); [lia|]. eapply nth_error_In; exact Ex.
Qed.

Lemma entry_ext m n A B : rectangular m n A -> rectangular m n B ->
  (forall i j, @entry T A i j = entry B i j) -> A = B.
Proof.
  intros (LA & FA) (LB & FB) E.
  assert (X : forall (a b : list T), (forall i, nth_error a i = nth_error b i) -> a = b).
  { induction a as [|x a IH]; intros [|y b] H; [reflexivity|specialize (H 0); discriminate|specialize (H 0); discriminate|].
    assert (x = y) by (specialize (H 0); cbn in H; congruence). subst y. f_equal. apply IH. intro i. exact (H (S i)). }
  revert m B LA LB FA FB E. induction A as [|a A IH]; intros m [|b B] LA LB FA FB E; cbn in *; try (subst; discriminate); [reflexivity|].
  apply Forall_cons_iff in FA as [Ha FA]. apply Forall_cons_iff in FB as [Hb FB].
  assert (a = b) by (apply X; intro i; exact (E 0 i)). subst b. f_equal.
  apply (IH (length A)); auto; [lia|]. intros i j. exact (E (S i) j).
Qed.

Lemma Transpose_involutive m n A : rectangular m n A -> 0 < m -> 0 < n ->
  exists B, Transpose T A = Ok B /\ Transpose T B = Ok A.
Proof.
  intros R M N. destruct (Transpose_spec m n A R M) as (B & HB & RB & EB).
  destruct (Transpose_spec n m B RB N) as (C & HC & RC & EC). exists B. split; [exact HB|].
  rewrite HC. f_equal. apply (entry_ext m n); auto. intros i j. rewrite EC, EB. reflexivity.
Qed.

Lemma flatten_nth : forall v i r, nth_error v i = Some r ->
  exists k, (forall j, j < length r -> nth_error (flatten T v) (k + j) = nth_error r j) /\ k = length (flatten T (firstn i v)).
Proof.
  induction v as [|a v IH]; intros [|i] r H; cbn in H; try discriminate.
  - injection H as ->. exists 0. split; [|reflexivity]. intros j Hj. cbn. now rewrite nth_error_app1.
  - destruct (IH i r H) as (k & Hk & Ek). exists (length a + k). cbn. split.
    + intros j Hj. rewrite nth_error_app2 by lia. replace (length a + k + j - length a) with (k + j) by lia. now apply Hk.
    + now rewrite app_length, <- Ek.
Qed.
End P.

Open Scope R_scope.
Lemma L2_fold v : forall r, fold_left (fun r x => r + x * x) v r = fold_left Rplus (transform2 R Rmult v v) r.
Proof. induction v as [|x v IH]; intro r; [reflexivity|]. cbn. apply IH. Qed.
Lemma L2_nonneg v : forall r, 0 <= r -> 0 <= fold_left (fun r x => r + x * x) v r.
Proof. induction v as [|x v IH]; intros r H; cbn; [exact H|]. apply IH. pose proof (Rle_0_sqr x). unfold Rsqr in *. lra. Qed.
Lemma L2_squared v : 0 <= L2NormVector v /\
  dot R Rplus Rmult 0 v v = Ok (L2NormVector v * L2NormVector v).
Proof.
  split; [apply sqrt_pos|]. unfold dot. rewrite Nat.eqb_refl. f_equal. unfold L2NormVector.
  rewrite sqrt_sqrt by (apply L2_nonneg; lra). symmetry. apply L2_fold.
Qed.
Lemma L2_zero v : L2NormVector v = 0 -> Forall (fun x => x = 0) v.
Proof.
  unfold L2NormVector. intro H. apply sqrt_eq_0 in H; [|apply L2_nonneg; lra].
  assert (M : forall v r, r <= fold_left (fun r x => r + x * x) v r).
  { induction v0 as [|x v0 IH]; intro r; cbn; [lra|]. specialize (IH (r + x * x)). pose proof (Rle_0_sqr x). unfold Rsqr in *. lra. }
  assert (G : forall v r, 0 <= r -> fold_left (fun r x => r + x * x) v r = 0 -> Forall (fun x => x = 0) v).
  { induction v0 as [|x v0 IH]; intros r Hr E; [constructor|]. cbn in E.
    pose proof (Rle_0_sqr x) as Q. unfold Rsqr in Q. constructor.
    - specialize (M v0 (r + x * x)). apply Rsqr_0_uniq. unfold Rsqr. lra.
    - apply (IH (r + x * x)); [lra|exact E]. }
  exact (G v 0 (Rle_refl 0) H).
Qed.
