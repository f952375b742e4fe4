(** Starting path. *)
From Coq Require Import Reals List Arith ZArith Bool Lra Lia FunctionalExtensionality.
From Verif Require Import Spec.StartPathSpec Model.StartPath.
Import ListNotations.
Open Scope R_scope.

Lemma optimal_first : forall G Gs T F, L2Norm (DeltaVEV T F) < 10 ^ 100 -> OptimalDiscreteSymmetry (G :: Gs) T F = G.
Proof.
  intros G Gs T F H. unfold OptimalDiscreteSymmetry. cbn [fold_left]. unfold optimal_step at 2. cbn zeta.
  change (fst (10 ^ 100, identity)) with (10 ^ 100). destruct (Rlt_dec (L2Norm (DeltaVEV T F)) (10 ^ 100)); [|contradiction].
  assert (E : forall l, fold_left (optimal_step T F) l (L2Norm (DeltaVEV T F), G) = (L2Norm (DeltaVEV T F), G)).
  { induction l as [|g l IH]; [reflexivity|]. cbn [fold_left]. unfold optimal_step at 2. cbn zeta. cbn [fst]. destruct (Rlt_dec _ _); [lra|exact IH]. }
  rewrite E. reflexivity.
Qed.
Lemma norm_length : forall v, L2Norm v = vector_length v.
Proof.
  intros v. unfold L2Norm, vector_length. f_equal. assert (E : forall l a, fold_left (fun s x => s + x * x) l a = a + fold_right (fun x s => x ^ 2 + s) 0 l).
  { induction l as [|x l IH]; intros a; cbn [fold_left fold_right]; [ring|]. rewrite IH. ring. }
  rewrite E. ring.
Qed.
Lemma optimal_in : forall Gs T F, In (OptimalDiscreteSymmetry Gs T F) (identity :: Gs).
Proof.
  intros Gs T F. unfold OptimalDiscreteSymmetry.
  assert (E : forall l s, In (snd (fold_left (optimal_step T F) l s)) (snd s :: l)).
  { induction l as [|g l IH]; intros s; [now left|]. cbn [fold_left]. destruct (IH (optimal_step T F s g)) as [H|H]; [|right; right; exact H].
    rewrite <- H. unfold optimal_step. cbn zeta. destruct (Rlt_dec _ _); cbn; auto. }
  apply (E Gs (10 ^ 100, identity)).
Qed.
Lemma identity_vec : forall v, Transform identity v = v.
Proof.
  intros v. unfold Transform, mat_vec. apply (nth_ext _ _ 0 0); [rewrite map_length, seq_length; reflexivity|].
  intros n H. rewrite map_length, seq_length in H.
  rewrite (nth_indep _ 0 ((fun i => fold_left (fun s j => s + identity i j * nth j v 0) (seq 0 (length v)) 0) 0%nat)) by (rewrite map_length, seq_length; exact H).
  rewrite (map_nth (fun i => fold_left (fun s j => s + identity i j * nth j v 0) (seq 0 (length v)) 0)). rewrite seq_nth by exact H. cbn [Nat.add].
  assert (G : forall m, fold_left (fun s j => s + identity n j * nth j v 0) (seq 0 m) 0 = if Nat.ltb n m then nth n v 0 else 0).
  { induction m as [|m IH]; [reflexivity|]. rewrite seq_S, fold_left_app, IH. cbn [fold_left Nat.add]. unfold identity.
    destruct (Nat.eqb_spec n m) as [->|N].
    - destruct (Nat.ltb_spec m m), (Nat.ltb_spec m (S m)); try lia; ring.
    - destruct (Nat.ltb_spec n m), (Nat.ltb_spec n (S m)); try lia; ring. }
  rewrite G. destruct (Nat.ltb_spec n (length v)); [reflexivity|lia].
Qed.
Definition minus1 : matrix := fun i j => - identity i j.
Lemma not_closest : exists Gs T F g, In g Gs /\ (forall v, Transform (hd identity Gs) v = v) /\
  dist2 (Transform g T) F < dist2 (Transform (OptimalDiscreteSymmetry Gs T F) T) F.
Proof.
  exists [identity; minus1], [1], [-2], minus1. split; [right; now left|]. split; [exact identity_vec|].
  rewrite optimal_first.
  - rewrite identity_vec. unfold Transform, mat_vec, minus1, identity. cbn. lra.
  - unfold DeltaVEV, L2Norm. cbn [fold_left map combine app fst snd]. apply (Rlt_le_trans _ 16).
    + replace 16 with (sqrt (16 ^ 2)) by (rewrite sqrt_pow2; lra). apply sqrt_lt_1_alt. lra.
    + apply (Rle_trans _ (10 ^ 2)); [lra|]. apply Rle_pow; [lra|lia].
Qed.

(** * WarpPath *)
Lemma warp1_between : forall s T1 F1 T2 F2, F1 <> T1 \/ F2 = T2 -> warp1 (T1 + s * (F1 - T1)) T1 F1 T2 F2 = T2 + s * (F2 - T2).
Proof.
  intros s T1 F1 T2 F2 H. unfold warp1. destruct (Req_EM_T (F1 - T1) 0) as [Z|Z].
  - destruct H as [H| ->]; [exfalso; apply H; lra|]. rewrite Z. ring.
  - field. exact Z.
Qed.
Lemma warp_between : forall T1 F1 T2 F2 s, length F1 = length T1 -> length T2 = length T1 -> length F2 = length T1 ->
  (forall d, (d < length T1)%nat -> nth d F1 0 <> nth d T1 0 \/ nth d F2 0 = nth d T2 0) ->
  warp (between s T1 F1) T1 F1 T2 F2 = between s T2 F2.
Proof.
  induction T1 as [|t1 T1 IH]; intros [|f1 F1] [|t2 T2] [|f2 F2] s A B C H; cbn in A, B, C; try discriminate; [reflexivity|].
  cbn [between warp]. rewrite warp1_between by (apply (H 0%nat); cbn; lia). f_equal. apply IH; try lia. intros d D. apply (H (S d)). cbn. lia.
Qed.
Lemma between_0 : forall a b, length b = length a -> between 0 a b = a.
Proof. induction a as [|x a IH]; intros [|y b] H; cbn in H; try discriminate; [reflexivity|]. cbn [between]. rewrite IH by lia. f_equal. ring. Qed.
Lemma between_1 : forall a b, length b = length a -> between 1 a b = b.
Proof. induction a as [|x a IH]; intros [|y b] H; cbn in H; try discriminate; [reflexivity|]. cbn [between]. rewrite IH by lia. f_equal. ring. Qed.
Lemma warp_start : forall T1 F1 T2 F2, length F1 = length T1 -> length T2 = length T1 -> length F2 = length T1 -> warp T1 T1 F1 T2 F2 = T2.
Proof.
  induction T1 as [|t1 T1 IH]; intros [|f1 F1] [|t2 T2] [|f2 F2] A B C; cbn in A, B, C; try discriminate; [reflexivity|].
  cbn [warp]. rewrite IH by lia. f_equal. unfold warp1. destruct (Req_EM_T (f1 - t1) 0); [ring|]. field. assumption.
Qed.
Lemma warp_end : forall T1 F1 T2 F2, length F1 = length T1 -> length T2 = length T1 -> length F2 = length T1 ->
  forall d, nth d (warp F1 T1 F1 T2 F2) 0 = if Req_EM_T (nth d F1 0 - nth d T1 0) 0 then nth d T2 0 else nth d F2 0.
Proof.
  induction T1 as [|t1 T1 IH]; intros [|f1 F1] [|t2 T2] [|f2 F2] A B C d; cbn in A, B, C; try discriminate.
  - cbn [warp]. destruct d; cbn; destruct (Req_EM_T (0 - 0) 0); reflexivity.
  - cbn [warp]. destruct d as [|d]; cbn [nth]; [|apply IH; lia]. unfold warp1. destruct (Req_EM_T (f1 - t1) 0) as [Z|Z]; [rewrite Z; ring|]. field. exact Z.
Qed.
Lemma warp_same : forall T F x, length F = length T -> length x = length T -> warp x T F T F = x.
Proof.
  induction T as [|t T IH]; intros [|f F] [|a x] A B; cbn in A, B; try discriminate; [reflexivity|]. cbn [warp]. rewrite IH by lia. f_equal.
  unfold warp1. destruct (Req_EM_T (f - t) 0); [ring|]. field. assumption.
Qed.
Lemma warp_back : forall T1 F1 T2 F2 x, length F1 = length T1 -> length T2 = length T1 -> length F2 = length T1 -> length x = length T1 ->
  (forall d, (d < length T1)%nat -> nth d F1 0 = nth d T1 0 <-> nth d F2 0 = nth d T2 0) ->
  warp (warp x T1 F1 T2 F2) T2 F2 T1 F1 = x.
Proof.
  induction T1 as [|t1 T1 IH]; intros [|f1 F1] [|t2 T2] [|f2 F2] [|a x] A B C D H; cbn in A, B, C, D; try discriminate; [reflexivity|].
  cbn [warp]. rewrite IH; try lia; [|intros d L; apply (H (S d)); cbn; lia]. f_equal. specialize (H 0%nat ltac:(cbn; lia)). cbn [nth] in H.
  unfold warp1. destruct (Req_EM_T (f1 - t1) 0) as [Z|Z], (Req_EM_T (f2 - t2) 0) as [W|W].
  - ring.
  - exfalso. apply W. assert (f2 = t2) by (apply H; lra). lra.
  - exfalso. apply Z. assert (f1 = t1) by (apply H; lra). lra.
  - field. split; assumption.
Qed.

(** * Grid *)
Lemma grid_length : forall a b n, length (Grid a b n) = S n.
Proof. intros a b n. unfold Grid. cbn. rewrite map_length, seq_length. reflexivity. Qed.
Lemma combine_between : forall a b s, length b = length a -> map (fun p => fst p + s * (snd p - fst p)) (combine a b) = between s a b.
Proof. induction a as [|x a IH]; intros [|y b] s H; cbn in H; try discriminate; [reflexivity|]. cbn. rewrite IH by lia. reflexivity. Qed.
Lemma grid_point : forall a b n i, length b = length a -> (0 < n)%nat -> (i <= n)%nat -> nth i (Grid a b n) [] = between (INR i / INR n) a b.
Proof.
  intros a b n i L N I. assert (NP : INR n <> 0) by (apply not_0_INR; lia). destruct i as [|i].
  - cbn [Grid nth]. unfold Rdiv. cbn [INR]. rewrite Rmult_0_l, between_0 by exact L. reflexivity.
  - cbn [Grid nth]. set (f := fun i => map _ (combine a b)).
    rewrite (nth_indep _ [] (f 0%nat)) by (rewrite map_length, seq_length; lia). rewrite map_nth, seq_nth by lia. unfold f.
    rewrite <- combine_between by exact L. apply map_ext. intros [x y]. cbn [fst snd]. cbn [Nat.add]. field. exact NP.
Qed.

Lemma set_at_same : forall k x v, (k < length v)%nat -> nth k (set_at k x v) 0 = x.
Proof. intros k x v H. unfold set_at. rewrite app_nth2; rewrite firstn_length_le by lia; [rewrite Nat.sub_diag; reflexivity|lia]. Qed.
Lemma set_at_other : forall k x v j, (k < length v)%nat -> j <> k -> nth j (set_at k x v) 0 = nth j v 0.
Proof.
  intros k x v j H N. unfold set_at. rewrite <- (firstn_skipn k v) at 3. destruct (Nat.lt_ge_cases j k).
  - rewrite !app_nth1 by (rewrite firstn_length_le; lia). reflexivity.
  - rewrite !app_nth2 by (rewrite firstn_length_le; lia). rewrite firstn_length_le by lia.
    destruct (j - k)%nat as [|m] eqn:E; [lia|]. cbn [nth]. replace (skipn (S k) v) with (tl (skipn k v)).
    + destruct (skipn k v); [destruct m; reflexivity|reflexivity].
    + clear. revert v. induction k as [|k IH]; intros [|a v]; try reflexivity. cbn [skipn]. rewrite IH. destruct v; reflexivity.
Qed.
Lemma set_at_length : forall k x v, (k < length v)%nat -> length (set_at k x v) = length v.
Proof. intros k x v H. unfold set_at. rewrite app_length, firstn_length_le by lia. cbn [length]. rewrite skipn_length. lia. Qed.
Lemma grid1_points : forall point k low high n, (0 < n)%Z -> (k < length point)%nat ->
  exists g, Grid1 point k low high n = Some g /\ Z.of_nat (length g) = (n + 1)%Z /\
    forall i, (Z.of_nat i <= n)%Z -> length (nth i g []) = length point /\
      nth k (nth i g []) 0 = low + INR i / IZR n * (high - low) /\ (forall j, j <> k -> nth j (nth i g []) 0 = nth j point 0).
Proof.
  intros point k low high n N K. unfold Grid1. destruct (Z.eqb_spec n 0); [lia|]. destruct (Z.ltb_spec n 0); [lia|]. destruct (Nat.ltb_spec k (length point)); [|lia].
  eexists. split; [reflexivity|]. split; [rewrite map_length, seq_length; lia|]. intros i I. set (f := fun i => set_at k _ point).
  rewrite (nth_indep _ [] (f 0%nat)) by (rewrite map_length, seq_length; lia). rewrite map_nth, seq_nth by lia. unfold f. cbn [Nat.add].
  assert (IZR n <> 0) by (apply not_0_IZR; lia).
  split; [apply set_at_length; lia|]. split; [rewrite set_at_same by lia; field; assumption|intros j J; apply set_at_other; [lia|exact J]].
Qed.
Lemma grid1_throws : forall point k low high n, Grid1 point k low high n = None <-> (0 < n)%Z /\ (length point <= k)%nat.
Proof.
  intros. unfold Grid1. destruct (Z.eqb_spec n 0); [split; [discriminate|lia]|]. destruct (Z.ltb_spec n 0); [split; [discriminate|lia]|].
  destruct (Nat.ltb_spec k (length point)); [split; [discriminate|lia]|]. split; [intros _; lia|reflexivity].
Qed.

(** * almost_the_same *)
Lemma almost_close : forall rel zero a b, almost rel zero a b = true <-> close rel zero a b.
Proof.
  intros rel zero a b. unfold almost, close. replace (Rabs ((a + b) / 2)) with (Rabs (a + b) / 2).
  2: { unfold Rdiv. rewrite Rabs_mult, (Rabs_right (/ 2)) by lra. reflexivity. }
  destruct (Rlt_dec (Rabs a) zero), (Rlt_dec (Rabs b) zero); cbn [andb]; try (split; [intros _; left; split; assumption|reflexivity]);
    (destruct (Rlt_dec (Rabs (a - b)) (Rabs (a + b) / 2 * rel)); split; intros H; try discriminate; try reflexivity; [right; lra|destruct H as [[? ?]|H]; [contradiction|lra]]).
Qed.
Lemma count_le : forall (f : R * R -> bool) l c, (fold_left (fun c p => ((if f p then 1 else 0) + c)%nat) l c <= length l + c)%nat.
Proof. intros f. induction l as [|p l IH]; intros c; cbn; [lia|]. eapply Nat.le_trans; [apply IH|]. destruct (f p); lia. Qed.
Lemma count_all : forall (f : R * R -> bool) l c, fold_left (fun c p => ((if f p then 1 else 0) + c)%nat) l c = (length l + c)%nat <-> forall p, In p l -> f p = true.
Proof.
  intros f. induction l as [|p l IH]; intros c; cbn [fold_left length]; [split; [intros _ q []|reflexivity]|].
  destruct (f p) eqn:E.
  - replace (S (length l) + c)%nat with (length l + (1 + c))%nat by lia. rewrite IH. split; [intros H q [<-|Q]; [exact E|apply H, Q]|intros H q Q; apply H; now right].
  - split; [|intros H; specialize (H p (or_introl eq_refl)); congruence]. intros H. exfalso. pose proof (count_le f l (0 + c)). lia.
Qed.
Lemma almost_vec_spec : forall a b flip rel zero, (almost_vec a b flip rel zero = None <-> length a <> length b) /\
  (almost_vec a b flip rel zero = Some true <-> length a = length b /\ forall i, (i < length a)%nat ->
     if flip then close rel zero (nth i a 0) (nth i b 0) else close rel zero (Rabs (nth i a 0)) (Rabs (nth i b 0))).
Proof.
  intros a b flip rel zero. unfold almost_vec. destruct (Nat.eqb_spec (length a) (length b)) as [E|E]; [|split; [tauto|split; [discriminate|intros [? _]; contradiction]]].
  split; [split; [discriminate|contradiction]|]. cbn zeta.
  set (f := fun p : R * R => if flip then almost rel zero (fst p) (snd p) else almost rel zero (Rabs (fst p)) (Rabs (snd p))).
  assert (Q : fold_left (fun c p => ((if flip then if almost rel zero (fst p) (snd p) then 1 else 0 else if almost rel zero (Rabs (fst p)) (Rabs (snd p)) then 1 else 0) + c)%nat) (combine a b) 0%nat
    = fold_left (fun c p => ((if f p then 1 else 0) + c)%nat) (combine a b) 0%nat).
  { unfold f. destruct flip; reflexivity. }
  rewrite Q. assert (LC : length (combine a b) = length a) by (rewrite combine_length; lia).
  transitivity (forall p, In p (combine a b) -> f p = true).
  - rewrite <- (count_all f (combine a b) 0). rewrite LC, Nat.add_0_r. split; [intros H; injection H as H; apply Nat.eqb_eq, H|intros H; f_equal; apply Nat.eqb_eq, H].
  - split.
    + intros H. split; [exact E|]. intros i I. specialize (H (nth i a 0, nth i b 0)).
      assert (IN : In (nth i a 0, nth i b 0) (combine a b)) by (rewrite <- combine_nth by exact E; apply nth_In; lia). specialize (H IN). unfold f in H; cbn [fst snd] in H.
      destruct flip; apply almost_close, H.
    + intros [_ H] [x y] IN. apply (In_nth _ _ (0, 0)) in IN. destruct IN as (i & I & EQ). rewrite combine_nth in EQ by exact E. injection EQ as <- <-. rewrite LC in I.
      specialize (H i I). unfold f; cbn [fst snd]. destruct flip; apply almost_close, H.
Qed.
