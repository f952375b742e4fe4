(** Proofs about the comparison of a minimum with the global one. *)
From Coq Require Import List Reals Lra Lia Arith Sorted.
From Verif Require Import Model.Base Model.Potential Model.VevDim Model.StartPath Model.GlobMin
  Spec.PotentialSpec Spec.StartPathSpec Proofs.VevProofs Proofs.VevDimProofs Proofs.StartPathProofs.
Import ListNotations.
Local Open Scope R_scope.

Lemma differences_short : forall a b, (length b < length a)%nat -> differences a b = Throw OutOfRange.
Proof.
  induction a as [|x a IH]; intros [|y b] L; cbn in *; try lia; [reflexivity|]. rewrite IH by lia. reflexivity.
Qed.
Lemma differences_ok : forall a b, length a = length b -> exists d, differences a b = Ok d /\ vector_length d = sqrt (dist2 a b).
Proof.
  unfold vector_length. induction a as [|x a IH]; intros [|y b] L; try discriminate; [exists []; split; reflexivity|].
  destruct (IH b) as [d [E D]]; [cbn in L; lia|]. exists (x - y :: d). cbn [differences]. rewrite E. split; [reflexivity|].
  assert (P : forall l, 0 <= fold_right (fun x s => x ^ 2 + s) 0 l) by (induction l as [|u l I]; cbn [fold_right]; [lra|pose proof (pow2_ge_0 u); lra]).
  assert (Q : forall u v, 0 <= dist2 u v) by (induction u as [|p u I]; intros [|q v]; cbn [dist2]; try lra; specialize (I v); pose proof (pow2_ge_0 (p - q)); lra).
  apply sqrt_inj in D; [|apply P|apply Q]. cbn [fold_right dist2]. rewrite D. reflexivity.
Qed.
Lemma verdict (red flat : list R -> list R) mini n order temp p :
  length (mini temp p) = length order -> StronglySorted lt order -> Forall (fun o => (o < n)%nat) order -> (0 < n)%nat -> In (n - 1)%nat order ->
  length (flat (red (mini temp p))) = length (flat (red p)) ->
  exists b, IsGlobMin red flat mini order n temp p = Ok b /\ (b = true <-> sqrt (dist2 (flat (red (mini temp p))) (flat (red p))) < 1).
Proof.
  intros L S F N X E. destruct (order_spec 0 n order _ L S F N) as [I _]. destruct (I X) as [w [W _]].
  unfold IsGlobMin, GetGlobalMinimum. rewrite W. cbn [bind]. rewrite (there_and_back 0 n order _ w L S F N W). cbn [bind].
  destruct (differences_ok _ _ E) as [d [D V]]. rewrite D. cbn [bind]. eexists. split; [reflexivity|]. rewrite norm_length, V.
  destruct (Rlt_dec _ 1); split; intros; [assumption|reflexivity|discriminate|contradiction].
Qed.
Lemma verdict_short (red flat : list R -> list R) mini n order temp p :
  length (mini temp p) = length order -> StronglySorted lt order -> Forall (fun o => (o < n)%nat) order -> (0 < n)%nat -> In (n - 1)%nat order ->
  (length (flat (red p)) < length (flat (red (mini temp p))))%nat -> IsGlobMin red flat mini order n temp p = Throw OutOfRange.
Proof.
  intros L S F N X E. destruct (order_spec 0 n order _ L S F N) as [I _]. destruct (I X) as [w [W _]].
  unfold IsGlobMin, GetGlobalMinimum. rewrite W. cbn [bind]. rewrite (there_and_back 0 n order _ w L S F N W). cbn [bind]. rewrite (differences_short _ _ E). reflexivity.
Qed.
Lemma dist2_self : forall a, dist2 a a = 0.
Proof. induction a as [|x a IH]; cbn [dist2]; [reflexivity|]. rewrite IH. ring. Qed.
Lemma dist2_entry : forall a b i x y, nth_error a i = Some x -> nth_error b i = Some y -> (x - y) ^ 2 <= dist2 a b.
Proof.
  assert (Q : forall u v, 0 <= dist2 u v) by (induction u as [|p u I]; intros [|q v]; cbn [dist2]; try lra; specialize (I v); pose proof (pow2_ge_0 (p - q)); lra).
  induction a as [|u a IH]; intros [|v b] i x y A B; try (destruct i; discriminate). destruct i as [|i]; cbn [nth_error dist2] in *.
  - injection A as <-. injection B as <-. pose proof (Q a b). lra.
  - pose proof (IH b i x y A B). pose proof (pow2_ge_0 (u - v)). lra.
Qed.
Lemma near : forall a b i x y, sqrt (dist2 a b) < 1 -> nth_error a i = Some x -> nth_error b i = Some y -> Rabs (x - y) < 1.
Proof.
  intros a b i x y H A B. pose proof (dist2_entry a b i x y A B) as K. assert (D : dist2 a b < 1).
  { apply sqrt_lt_0_alt. rewrite sqrt_1. exact H. }
  rewrite <- Rabs_R1. apply Rsqr_lt_abs_0. unfold Rsqr. nra.
Qed.
Lemma same_global (red flat : list R -> list R) mini n order temp p q :
  (forall x, length (red x) = length x) -> (forall x, length (flat x) = length x) -> length p = length order -> length q = length order ->
  length (mini temp p) = length order -> mini temp q = mini temp p -> StronglySorted lt order -> Forall (fun o => (o < n)%nat) order -> (0 < n)%nat -> In (n - 1)%nat order ->
  IsGlobMin red flat mini order n temp p = Ok true -> IsGlobMin red flat mini order n temp q = Ok true ->
  forall i x y, nth_error (flat (red p)) i = Some x -> nth_error (flat (red q)) i = Some y -> Rabs (x - y) < 2.
Proof.
  intros Lr Lf Lp Lq Lm M S F N X Gp Gq i x y A B.
  destruct (verdict red flat mini n order temp p) as [b [E V]]; try assumption; [rewrite !Lf, !Lr; congruence|]. rewrite Gp in E. injection E as <-.
  destruct (verdict red flat mini n order temp q) as [b [E W]]; try assumption; [congruence|rewrite !Lf, !Lr; congruence|]. rewrite Gq in E. injection E as <-.
  destruct V as [V _], W as [W _]. specialize (V eq_refl). specialize (W eq_refl). rewrite M in W.
  destruct (nth_error (flat (red (mini temp p))) i) as [g|] eqn:G.
  - pose proof (near _ _ _ _ _ V G A). pose proof (near _ _ _ _ _ W G B). replace (x - y) with ((g - y) - (g - x)) by ring.
    pose proof (Rabs_triang (g - y) (- (g - x))). rewrite Rabs_Ropp in H1. unfold Rminus at 1. lra.
  - apply nth_error_None in G. assert (nth_error (flat (red p)) i = None); [|congruence]. apply nth_error_None. rewrite Lf, Lr in *. lia.
Qed.
