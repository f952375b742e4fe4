(** Search for a stationary point. *)
From Coq Require Import Reals List Arith Lra Lia FunctionalExtensionality.
From Verif Require Import Spec.LocateSpec Model.Locate.
Open Scope R_scope.

Lemma scalar_sum : forall d a b, scalar d a b = sum_of d (fun i => a i * b i).
Proof. induction d as [|d IH]; intros a b; cbn; [reflexivity|]. rewrite IH; reflexivity. Qed.
Lemma sum_ext : forall d f g, (forall i, (i < d)%nat -> f i = g i) -> sum_of d f = sum_of d g.
Proof. induction d as [|d IH]; intros f g H; cbn; [reflexivity|]. rewrite (IH f g), (H d) by (intros; try apply H; lia). reflexivity. Qed.
Lemma sum_lin : forall d a b f g, sum_of d (fun i => a * f i + b * g i) = a * sum_of d f + b * sum_of d g.
Proof. induction d as [|d IH]; intros; cbn; [ring|]. rewrite IH; ring. Qed.
Lemma sum_nonneg : forall d f, (forall i, (i < d)%nat -> 0 <= f i) -> 0 <= sum_of d f.
Proof. induction d as [|d IH]; intros f H; cbn; [lra|]. pose proof (H d ltac:(lia)). pose proof (IH f ltac:(intros; apply H; lia)). lra. Qed.
Lemma scalar_nonneg : forall d a, 0 <= scalar d a a.
Proof. intros d a. rewrite scalar_sum. apply sum_nonneg. intros i _. pose proof (Rle_0_sqr (a i)) as H; unfold Rsqr in H; exact H. Qed.
Lemma length_nonneg : forall d a, 0 <= length2 d a.
Proof. intros; apply sqrt_pos. Qed.
Lemma length_sq : forall d a, length2 d a * length2 d a = scalar d a a.
Proof. intros; apply sqrt_sqrt, scalar_nonneg. Qed.
Lemma cauchy : forall d a b, scalar d a b <= length2 d a * length2 d b.
Proof.
  intros d a b. set (A := length2 d a). set (B := length2 d b). pose proof (length_nonneg d a) as PA; pose proof (length_nonneg d b) as PB. fold A in PA; fold B in PB.
  assert (E : 0 <= B * B * (A * A) + A * A * (B * B) - 2 * (A * B) * scalar d a b).
  { replace (B * B * (A * A) + A * A * (B * B) - 2 * (A * B) * scalar d a b) with (sum_of d (fun i => (B * a i - A * b i) * (B * a i - A * b i))).
    - apply sum_nonneg. intros i _. pose proof (Rle_0_sqr (B * a i - A * b i)) as H; unfold Rsqr in H; exact H.
    - rewrite (sum_ext d _ (fun i => B * B * (a i * a i) + 1 * ((fun i => A * A * (b i * b i) + (-2 * (A * B)) * (a i * b i)) i))) by (intros; ring).
      rewrite sum_lin, sum_lin. rewrite <- !scalar_sum. rewrite <- (length_sq d a), <- (length_sq d b). fold A B. ring. }
  destruct (Req_dec (A * B) 0) as [Z|Z].
  - rewrite Z. assert (S0 : forall x, length2 d x = 0 -> forall y, scalar d x y = 0).
    { intros x H y. assert (H2 : scalar d x x = 0) by (rewrite <- length_sq, H; ring).
      clear -H2. induction d as [|d IH]; cbn in *; [reflexivity|]. pose proof (scalar_nonneg d x). pose proof (Rle_0_sqr (x d)) as Q; unfold Rsqr in Q.
      assert (X : x d = 0) by nra. rewrite X, (IH ltac:(nra)). ring. }
    apply Rmult_integral in Z. destruct Z as [Z|Z]; [rewrite (S0 a Z); lra|].
    replace (scalar d a b) with (scalar d b a) by (rewrite !scalar_sum; apply sum_ext; intros; ring). rewrite (S0 b Z); lra.
  - assert (0 < A * B) by (pose proof (Rmult_le_pos _ _ PA PB); lra). nra.
Qed.
Lemma length_scale : forall d c a, 0 <= c -> length2 d (fun i => - c * a i) = c * length2 d a.
Proof.
  intros d c a C. unfold length2. rewrite scalar_sum. rewrite (sum_ext d _ (fun i => c * c * (a i * a i) + 0 * 0)) by (intros; ring).
  rewrite (sum_lin d (c * c) 0 (fun i => a i * a i) (fun _ => 0)). rewrite <- scalar_sum. replace (c * c * scalar d a a + 0 * _) with (c * c * scalar d a a) by ring.
  rewrite sqrt_mult; [|apply Rle_0_sqr|apply scalar_nonneg]. rewrite sqrt_square by exact C. reflexivity.
Qed.
Lemma length_ext : forall d a b, (forall i, (i < d)%nat -> a i = b i) -> length2 d a = length2 d b.
Proof. intros d a b H. unfold length2. rewrite !scalar_sum. f_equal. apply sum_ext. intros i I. rewrite (H i I). reflexivity. Qed.

Section Any.
  Variables (dim : nat) (solve : (nat -> vector) -> vector -> option vector) (df : vector -> vector) (Hessian : vector -> nat -> vector) (error c : R).
  Let loop := newton_loop dim solve df Hessian error c.
  Let step := newton_step solve df Hessian c.
  Fixpoint steps (k : nat) (x : vector) : vector := match k with O => x | S k => step (steps k x) end.
  Lemma steps_in : forall k x, steps k (step x) = step (steps k x).
  Proof using. induction k as [|k IH]; intros x; cbn [steps]; [reflexivity|]. rewrite IH; reflexivity. Qed.
  Lemma loop_result : forall n x, exists k, (k <= n)%nat /\ loop n x = steps k x /\
    (length2 dim (df (loop n x)) <= error \/ k = n) /\ forall m, (m < k)%nat -> error < length2 dim (df (steps m x)).
  Proof using.
    induction n as [|n IH]; intros x; unfold loop; cbn [newton_loop].
    - exists O. split; [lia|]. split; [reflexivity|]. split; [right; reflexivity|lia].
    - destruct (Rlt_dec error (length2 dim (df x))) as [L|L].
      + destruct (IH (step x)) as (k & K & E & F & G). exists (S k). split; [lia|]. fold step loop. cbn [steps]. rewrite <- steps_in. split; [exact E|].
        split; [destruct F as [F|F]; [left; exact F|right; lia]|]. intros [|m] M; [exact L|]. cbn [steps]. rewrite <- steps_in. apply G; lia.
      + exists O. split; [lia|]. split; [reflexivity|]. split; [left; lra|lia].
  Qed.
  (** what is returned *)
  Lemma locate_result : forall n guess, let r := LocateMinimum dim solve df Hessian error c n guess in
    exists k, (k <= n)%nat /\ r = steps k guess /\ (length2 dim (df r) <= error \/ k = n) /\ forall m, (m < k)%nat -> error < length2 dim (df (steps m guess)) \/ k = O.
  Proof using.
    intros n guess r. unfold r, LocateMinimum. destruct (Rlt_dec (length2 dim (df guess)) error) as [L|L].
    - exists O. split; [lia|]. split; [reflexivity|]. split; [left; lra|lia].
    - destruct (loop_result n guess) as (k & K & E & F & G). exists k. split; [exact K|]. split; [exact E|]. split; [exact F|]. intros m M. left. apply G, M.
  Qed.
End Any.

(** quadratic functions *)
Section Quadratic.
  Variables (dim : nat) (solve : (nat -> vector) -> vector -> option vector) (A : nat -> nat -> R) (m : vector) (lambda error c : R).
  Hypothesis S : solves dim solve.
  Hypothesis B : bounded_below dim A lambda.
  Hypothesis LP : 0 < lambda.
  Let df (x : vector) : vector := apply dim A (fun j => x j - m j).
  Let Hessian (_ : vector) : nat -> vector := A.
  Let step := newton_step solve df Hessian c.
  Let shifted := fun a b => A a b + (if Nat.eqb a b then shift else 0).
  Lemma apply_shift : forall x i, (i < dim)%nat -> apply dim shifted x i = apply dim A x i + shift * x i.
  Proof using.
    intros x i I. unfold apply, shifted.
    assert (G : forall n, sum_of n (fun j => (A i j + (if Nat.eqb i j then shift else 0)) * x j) = sum_of n (fun j => A i j * x j) + (if Nat.ltb i n then shift * x i else 0)).
    { induction n as [|n IH]; cbn [sum_of]; [cbn; ring|]. rewrite IH. destruct (Nat.eqb_spec i n) as [->|N].
      - destruct (Nat.ltb_spec n n), (Nat.ltb_spec n (Datatypes.S n)); try lia. ring.
      - destruct (Nat.ltb_spec i n), (Nat.ltb_spec i (Datatypes.S n)); try lia; ring. }
    rewrite G. destruct (Nat.ltb_spec i dim); [reflexivity|lia].
  Qed.
  Lemma apply_add : forall x y i, apply dim A (fun j => x j + y j) i = apply dim A x i + apply dim A y i.
  Proof using. intros x y i. unfold apply. rewrite (sum_ext dim _ (fun j => 1 * (A i j * x j) + 1 * (A i j * y j))) by (intros; ring). rewrite sum_lin. ring. Qed.
  Lemma form_scalar : forall x, scalar dim x (apply dim A x) = sum_of dim (fun i => x i * apply dim A x i).
  Proof using. intros x. apply scalar_sum. Qed.
  Lemma quad_step : forall x, length2 dim (df (step x)) <= shift / (lambda + shift) * length2 dim (df x).
  Proof using S B LP.
    intros x. assert (SP : 0 < shift) by (unfold shift; lra). set (g := df x).
    pose proof (S shifted (fun i => -1 * g i)) as SV.
    unfold step, newton_step. cbn zeta. fold g. change (fun m0 k : nat => Hessian x m0 k + (if Nat.eqb m0 k then shift else 0)) with shifted.
    destruct (solve shifted (fun i => -1 * g i)) as [delta|] eqn:E.
    - assert (G' : forall i, (i < dim)%nat -> df (fun j => x j + delta j) i = - shift * delta i).
      { intros i I. unfold df.
        assert (EE : apply dim A (fun j => x j + delta j - m j) i = apply dim A (fun j => (x j - m j) + delta j) i) by (unfold apply; apply sum_ext; intros; ring).
        rewrite EE, apply_add. change (apply dim A (fun j => x j - m j) i) with (g i). specialize (SV i I). rewrite apply_shift in SV by exact I. lra. }
      rewrite (length_ext dim _ (fun i => - shift * delta i) G'). rewrite length_scale by lra.
      assert (K : (lambda + shift) * (length2 dim delta * length2 dim delta) <= length2 dim delta * length2 dim g).
      { rewrite length_sq. assert (Q : sum_of dim (fun i => delta i * apply dim shifted delta i) = sum_of dim (fun i => delta i * apply dim A delta i) + shift * scalar dim delta delta).
        { rewrite scalar_sum. rewrite (sum_ext dim _ (fun i => 1 * (delta i * apply dim A delta i) + shift * (delta i * delta i))) by (intros i I; rewrite apply_shift by exact I; ring). rewrite sum_lin. ring. }
        pose proof (B delta) as BD. replace (sum_of dim (fun i => delta i ^ 2)) with (scalar dim delta delta) in BD by (rewrite scalar_sum; apply sum_ext; intros; ring).
        assert (QE : sum_of dim (fun i => delta i * apply dim shifted delta i) = scalar dim delta (fun i => - 1 * g i)).
        { rewrite scalar_sum. apply sum_ext. intros i I. rewrite SV by exact I. reflexivity. }
        pose proof (cauchy dim delta (fun i => - (1) * g i)) as CS. rewrite length_scale in CS by lra.
        replace (scalar dim delta (fun i => - (1) * g i)) with (scalar dim delta (fun i => -1 * g i)) in CS by (rewrite !scalar_sum; apply sum_ext; intros; ring). nra. }
      pose proof (length_nonneg dim delta) as PD. pose proof (length_nonneg dim g) as PG.
      assert (LD : (lambda + shift) * length2 dim delta <= length2 dim g).
      { destruct (Req_dec (length2 dim delta) 0) as [Z|Z]; [rewrite Z; lra|]. assert (0 < length2 dim delta) by lra. apply (Rmult_le_reg_l (length2 dim delta)); [assumption|]. nra. }
      unfold Rdiv. rewrite Rmult_assoc. apply Rmult_le_compat_l; [lra|]. apply (Rmult_le_reg_l (lambda + shift)); [lra|].
      rewrite <- Rmult_assoc, Rinv_r, Rmult_1_l by lra. exact LD.
    - exfalso. destruct SV as (z & (i & I & Z) & ZZ).
      pose proof (B z) as BZ.
      assert (Q : sum_of dim (fun i => z i * apply dim A z i) = - shift * sum_of dim (fun i => z i ^ 2)).
      { rewrite (sum_ext dim _ (fun i => - shift * (z i ^ 2) + 0 * 0)).
        - rewrite (sum_lin dim (- shift) 0 (fun i => z i ^ 2) (fun _ => 0)). ring.
        - intros j J. specialize (ZZ j J). rewrite apply_shift in ZZ by exact J. replace (apply dim A z j) with (- shift * z j) by lra. ring. }
      assert (P : 0 < sum_of dim (fun i => z i ^ 2)).
      { clear -I Z. induction dim as [|d IH]; [lia|]. cbn [sum_of]. assert (NN : 0 <= sum_of d (fun i => z i ^ 2)) by (apply sum_nonneg; intros; apply pow2_ge_0). pose proof (pow2_ge_0 (z d)).
        destruct (Nat.eq_dec i d) as [->|N]; [|pose proof (IH ltac:(lia)); lra]. assert (0 < z d ^ 2) by (pose proof (Rsqr_pos_lt (z d) Z) as Q; unfold Rsqr in Q; lra). lra. }
      nra.
  Qed.
  Lemma quad_steps : forall k x, length2 dim (df (steps solve df Hessian c k x)) <= (shift / (lambda + shift)) ^ k * length2 dim (df x).
  Proof using S B LP.
    intros k x. assert (SP : 0 < shift) by (unfold shift; lra).
    assert (Q0 : 0 <= shift / (lambda + shift)) by (unfold Rdiv; apply Rmult_le_pos; [lra|left; apply Rinv_0_lt_compat; lra]).
    induction k as [|k IH]; cbn [steps pow]; [lra|]. eapply Rle_trans; [apply quad_step|]. rewrite Rmult_assoc. apply Rmult_le_compat_l; [exact Q0|exact IH].
  Qed.
  Lemma quad_locate : forall n guess, (shift / (lambda + shift)) ^ n * length2 dim (df guess) <= error ->
    let r := LocateMinimum dim solve df Hessian error c n guess in
    length2 dim (df r) <= error /\ lambda * length2 dim (fun j => r j - m j) <= error.
  Proof using S B LP.
    intros n guess H r. assert (G : length2 dim (df r) <= error).
    { destruct (locate_result dim solve df Hessian error c n guess) as (k & K & E & [F|F] & _); [exact F|]. fold r in E, F |- *. rewrite E. subst k.
      eapply Rle_trans; [apply quad_steps|exact H]. }
    split; [exact G|]. set (e := fun j => r j - m j). pose proof (B e) as BE.
    replace (sum_of dim (fun i => e i ^ 2)) with (scalar dim e e) in BE by (rewrite scalar_sum; apply sum_ext; intros; ring).
    rewrite <- form_scalar in BE. pose proof (cauchy dim e (apply dim A e)) as CS. change (apply dim A e) with (df r) in *. rewrite <- length_sq in BE.
    pose proof (length_nonneg dim e) as PE. destruct (Req_dec (length2 dim e) 0) as [Z|Z].
    - rewrite Z. pose proof (length_nonneg dim (df r)). lra.
    - assert (0 < length2 dim e) by lra. apply (Rmult_le_reg_l (length2 dim e)); [assumption|].
      assert (length2 dim e * length2 dim (df r) <= length2 dim e * error) by (apply Rmult_le_compat_l; lra). lra.
  Qed.
End Quadratic.

(** * A weak maximum *)
Definition solve1 : (nat -> vector) -> vector -> option vector := fun M b => if Req_EM_T (M 0%nat 0%nat) 0 then None else Some (fun _ => b 0%nat / M 0%nat 0%nat).
Lemma solve1_ok : solves 1 solve1.
Proof.
  intros M b. unfold solve1. destruct (Req_EM_T (M 0%nat 0%nat) 0) as [Z|Z].
  - exists (fun _ => 1). split; [exists O; split; [lia|lra]|]. intros i I. replace i with O by lia. unfold apply; cbn. rewrite Z; ring.
  - intros i I. replace i with O by lia. unfold apply; cbn. field. exact Z.
Qed.
Definition hill (x : vector) : vector := fun i => - x i / 2000.
Definition hill_H (_ : vector) : nat -> vector := fun _ _ => - 1 / 2000.
Lemma length1 : forall a, length2 1 a = Rabs (a 0%nat).
Proof. intros a. unfold length2; cbn. rewrite Rplus_0_l. apply sqrt_Rsqr_abs. Qed.
Lemma hill_runs : forall n, Rabs (LocateMinimum 1 solve1 hill hill_H (1 / 10000) (1 / 100) n (fun _ => 1) 0%nat) = 2 ^ n /\
  1 / 10000 < length2 1 (hill (LocateMinimum 1 solve1 hill hill_H (1 / 10000) (1 / 100) n (fun _ => 1))).
Proof.
  assert (ST : forall x, newton_step solve1 hill hill_H (1 / 100) x 0%nat = 2 * x 0%nat).
  { intros x. unfold newton_step, solve1, hill_H. cbn [Nat.eqb]. unfold shift. destruct (Req_EM_T (-1 / 2000 + 1 / 1000) 0) as [Z|Z]; [lra|]. unfold hill. field. }
  assert (LP : forall n x, 1 <= Rabs (x 0%nat) -> let r := newton_loop 1 solve1 hill hill_H (1 / 10000) (1 / 100) n x in Rabs (r 0%nat) = 2 ^ n * Rabs (x 0%nat)).
  { induction n as [|n IH]; intros x X; cbn [newton_loop pow]; [ring|].
    destruct (Rlt_dec (1 / 10000) (length2 1 (hill x))) as [L|L].
    - cbn zeta in *. rewrite IH; rewrite ST, Rabs_mult, (Rabs_right 2) by lra; [ring|lra].
    - exfalso. apply L. rewrite length1. unfold hill. replace (- x 0%nat / 2000) with ((- / 2000) * x 0%nat) by field. rewrite Rabs_mult, (Rabs_left (- / 2000)) by lra. lra. }
  intros n. set (r := LocateMinimum 1 solve1 hill hill_H (1 / 10000) (1 / 100) n (fun _ => 1)).
  assert (E : Rabs (r 0%nat) = 2 ^ n).
  { unfold r, LocateMinimum. destruct (Rlt_dec (length2 1 (hill (fun _ => 1))) (1 / 10000)) as [L|L].
    - exfalso. rewrite length1 in L. unfold hill in L. rewrite Rabs_left in L by lra. lra.
    - rewrite LP; rewrite (Rabs_right 1) by lra; [ring|lra]. }
  split; [exact E|]. rewrite length1. unfold hill. replace (- r 0%nat / 2000) with ((- / 2000) * r 0%nat) by field. rewrite Rabs_mult, (Rabs_left (- / 2000)), E by lra.
  assert (1 <= 2 ^ n) by (apply pow_R1_Rle; lra). lra.
Qed.
Lemma locate_iter : forall dim solve df Hessian error c maxiter guess,
  let r := LocateMinimum dim solve df Hessian error c maxiter guess in
  exists k, (k <= maxiter)%nat /\ r = Nat.iter k (newton_step solve df Hessian c) guess /\ (length2 dim (df r) <= error \/ k = maxiter) /\
    forall m, (m < k)%nat -> error < length2 dim (df (Nat.iter m (newton_step solve df Hessian c) guess)).
Proof.
  intros dim solve df Hessian error c n guess r.
  assert (I : forall k x, steps solve df Hessian c k x = Nat.iter k (newton_step solve df Hessian c) x).
  { induction k as [|k IH]; intros x; [reflexivity|]. cbn [steps Nat.iter nat_rect]. rewrite IH. reflexivity. }
  destruct (locate_result dim solve df Hessian error c n guess) as (k & K & E & F & G). fold r in E, F.
  exists k. rewrite <- I. split; [exact K|]. split; [exact E|]. split; [exact F|]. intros m M. rewrite <- I. destruct (G m M); [assumption|lia].
Qed.
Lemma hill_scaled : exists solve A, solves 1 solve /\
  let df := fun x : vector => fun i : nat => A * x i in
  forall maxiter, let r := LocateMinimum 1 solve df (fun _ _ _ => A) (1 / 10000) (1 / 100) maxiter (fun _ => 1) in
  Rabs (r 0%nat) = 2 ^ maxiter /\ 1 / 10000 < length2 1 (df r).
Proof.
  exists solve1, (- 1 / 2000). split; [exact solve1_ok|]. cbn zeta. intros n.
  assert (E : (fun (x : vector) (i : nat) => -1 / 2000 * x i) = hill).
  { apply FunctionalExtensionality.functional_extensionality; intros x. apply FunctionalExtensionality.functional_extensionality; intros i. unfold hill. field. }
  rewrite E. exact (hill_runs n).
Qed.
(** each step solves the shifted system or goes against the gradient *)
Lemma step_kind : forall dim solve df Hessian c x, solves dim solve ->
  let y := newton_step solve df Hessian c x in let H m k := Hessian x m k + (if Nat.eqb m k then 1 / 1000 else 0) in
  (forall i, (i < dim)%nat -> apply dim H (fun j => y j - x j) i = - df x i) \/
  ((exists z, (exists i, (i < dim)%nat /\ z i <> 0) /\ forall i, (i < dim)%nat -> apply dim H z i = 0) /\
   forall i, (i < dim)%nat -> y i - x i = - (c * df x i)).
Proof.
  intros dim solve df Hessian c x S y H. unfold y, newton_step. cbn zeta. change (fun m k => Hessian x m k + (if Nat.eqb m k then shift else 0)) with H.
  assert (Q := S H (fun i => -1 * df x i)). destruct (solve H (fun i => -1 * df x i)) as [d|].
  - left. intros i I. transitivity (apply dim H d i); [|rewrite (Q i I); ring]. unfold apply.
    clear. induction dim as [|n IH]; cbn [sum_of]; [reflexivity|]. rewrite IH. ring.
  - right. split; [exact Q|]. intros i _. ring.
Qed.
