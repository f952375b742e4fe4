(** Proofs about the thermal functions. *)
From Coq Require Import Reals Lra Lia ZArith.
From Verif.Model Require Import Base Thermal.
From Verif.Spec Require Import ThermalSpec.
From Verif.Proofs Require Import DerivLib.
Open Scope R_scope.

(** ** C36 *)
Lemma map_at_fill {A} (calc : Z -> A) n : forall k a, (Z.of_nat a <= n < Z.of_nat a + Z.of_nat k)%Z ->
  map_at (map (fun i => (Z.of_nat i, calc (Z.of_nat i))) (seq a k)) n = Ok (calc n).
Proof.
  induction k as [|k IH]; intros a H; [lia|]. cbn [seq map map_at].
  destruct (Z.eqb_spec (Z.of_nat a) n) as [<-|N]; [reflexivity|]. apply IH. lia.
Qed.
Lemma map_at_miss {A} (calc : Z -> A) n : forall k a, (n < Z.of_nat a)%Z ->
  map_at (map (fun i => (Z.of_nat i, calc (Z.of_nat i))) (seq a k)) n = Throw OutOfRange.
Proof.
  induction k as [|k IH]; intros a H; [reflexivity|]. cbn [seq map map_at].
  destruct (Z.eqb_spec (Z.of_nat a) n) as [E|N]; [lia|]. apply IH. lia.
Qed.
Lemma cache_ok {A} (calc : Z -> A) max n : (0 <= n)%Z -> GetCoefficentAtOrder calc max n = Ok (calc n).
Proof.
  intro H. unfold GetCoefficentAtOrder. destruct (Z.leb_spec n max); [|reflexivity]. apply map_at_fill. lia.
Qed.
Lemma cache_neg {A} (calc : Z -> A) max n : (n < 0)%Z ->
  GetCoefficentAtOrder calc max n = if Z.leb n max then Throw OutOfRange else Ok (calc n).
Proof.
  intro H. unfold GetCoefficentAtOrder. destruct (Z.leb n max); [|reflexivity]. apply map_at_miss. lia.
Qed.

(** ** C35 *)
Lemma pi2_pos : 0 < 4 * PI ^ 2.
Proof. pose proof (pow_lt PI 2 PI_RGT_0). lra. Qed.
Lemma sum_from_scal c a n f : c * sum_from a n f = sum_from a n (fun l => c * f l).
Proof. unfold sum_from. induction (seq a (S n - a)) as [|l r IH]; cbn [fold_right]; [ring|]. rewrite <- IH. ring. Qed.
Lemma sum_from_ext a n f g : (forall l, (a <= l <= n)%nat -> f l = g l) -> sum_from a n f = sum_from a n g.
Proof.
  unfold sum_from. intro H.
  assert (I : forall l, In l (seq a (S n - a)) -> f l = g l) by (intros l Hl; apply in_seq in Hl; apply H; lia).
  induction (seq a (S n - a)) as [|l r IH]; cbn [fold_right]; [reflexivity|]. rewrite IH by (intros; apply I; now right).
  rewrite I by now left. reflexivity.
Qed.
Lemma sum_from_minus a n f g : sum_from a n f - sum_from a n g = sum_from a n (fun l => f l - g l).
Proof. unfold sum_from. induction (seq a (S n - a)) as [|l r IH]; cbn [fold_right]; [ring|]. rewrite <- IH. ring. Qed.
Lemma dl_sum_from a n (F : nat -> R -> R) D x : (forall l, dl (F l) x (D l)) ->
  dl (fun y => sum_from a n (fun l => F l y)) x (sum_from a n D).
Proof. intro H. unfold sum_from. apply dl_fold. intros i _. apply H. Qed.

(** the polynomial tail x * sum_l (-x/(4 pi^2))^l K_l *)
Lemma tail_deriv K n x : dl (fun y => y * sum_from 2 n (fun l => (- y / (4 * PI ^ 2)) ^ l * K l)) x
  (sum_from 2 n (fun l => (INR l + 1) * (- x / (4 * PI ^ 2)) ^ l * K l)).
Proof.
  pose proof pi2_pos as P.
  eapply dl_ext with (f := fun y => sum_from 2 n (fun l => y * ((- y / (4 * PI ^ 2)) ^ l * K l))).
  { intro y. now rewrite sum_from_scal. }
  apply (dl_sum_from 2 n (fun l y => y * ((- y / (4 * PI ^ 2)) ^ l * K l)) (fun l => (INR l + 1) * (- x / (4 * PI ^ 2)) ^ l * K l)).
  intro l. eapply dl_eq; [dlauto; lra|]. destruct l as [|l]; [cbn; field; pose proof PI_RGT_0; lra|].
  cbn [pred]. rewrite S_INR. rewrite <- !tech_pow_Rmult. field. pose proof PI_RGT_0. lra.
Qed.
Lemma tail_term K x l : PI ^ 2 * ((INR l + 1) * (- x / (4 * PI ^ 2)) ^ l * K l)
  = K l * (- x / 4) ^ l * (INR l + 1) * (PI ^ 2 / PI ^ (2 * l)).
Proof.
  replace (- x / (4 * PI ^ 2)) with ((- x / 4) * / (PI ^ 2)) by (field; pose proof PI_RGT_0; lra).
  rewrite Rpow_mult_distr. rewrite pow_inv. rewrite <- pow_mult. field.
  apply pow_nonzero. pose proof PI_RGT_0. lra.
Qed.
Lemma fermion_low_deriv K n x : 0 < x -> dl (fermion_low0 K n) x (fermion_low1 K n x).
Proof.
  intro P. unfold fermion_low0.
  eapply dl_ext with (f := fun y => (-7 * PI ^ 4 / 360 + PI ^ 2 / 24 * y + 1 / 32 * y ^ 2 * (ln y - cf))
    + - PI ^ 2 * (y * sum_from 2 n (fun l => (- y / (4 * PI ^ 2)) ^ l * K l))).
  { intro y. ring. }
  eapply dl_eq.
  - apply dl_plus; [|apply dl_mult; [apply dl_const|apply tail_deriv]]. dlauto. exact P.
  - unfold fermion_low1.
    replace (sum_from 2 n (fun l => - K l * (- x / 4) ^ l * (INR l + 1) * (PI ^ 2 / PI ^ (2 * l))))
      with (- (PI ^ 2) * sum_from 2 n (fun l => (INR l + 1) * (- x / (4 * PI ^ 2)) ^ l * K l)).
    + cbn [INR pred pow]. field. lra.
    + rewrite sum_from_scal. apply sum_from_ext. intros l _. pose proof (tail_term K x l). lra.
Qed.
Lemma Rpower_half x : 0 < x -> Rpower x (3 / 2 - 1) = sqrt x.
Proof. intro P. replace (3 / 2 - 1) with (/ 2) by lra. now apply Rpower_sqrt. Qed.
Lemma boson_low_deriv K n x : 0 < x -> dl (boson_low0 K n) x (boson_low1 K n x).
Proof.
  intro P. unfold boson_low0.
  eapply dl_ext with (f := fun y => (- PI ^ 4 / 45 + PI ^ 2 * y / 12 + - PI * Rpower y (3 / 2) / 6 + - y ^ 2 * (ln y - cb) / 32)
    + PI ^ 2 * (y * sum_from 2 n (fun l => (- y / (4 * PI ^ 2)) ^ l * K l))).
  { intro y. ring. }
  eapply dl_eq.
  - apply dl_plus; [|apply dl_mult; [apply dl_const|apply tail_deriv]]. dlauto; lra.
  - unfold boson_low1.
    replace (sum_from 2 n (fun l => K l * (- x / 4) ^ l * (INR l + 1) * (PI ^ 2 / PI ^ (2 * l))))
      with (PI ^ 2 * sum_from 2 n (fun l => (INR l + 1) * (- x / (4 * PI ^ 2)) ^ l * K l)).
    + rewrite Rpower_half by exact P. cbn [INR pred pow]. field. lra.
    + rewrite sum_from_scal. apply sum_from_ext. intros l _. apply tail_term.
Qed.

Lemma near_pos x y : 0 < x -> Rabs (y - x) < x -> 0 < y.
Proof. intros P H. apply Rabs_def2 in H. lra. Qed.
Lemma fermion_low_derivative K n x : 0 < x ->
  derivative_at (fun y => JfermionInterpolatedLow K y n 0) (fun y => JfermionInterpolatedLow K y n 1) x.
Proof.
  intro P. exists (fermion_low0 K n), (fermion_low1 K n x). split; [|split].
  - exists x. split; [exact P|]. intros y H. apply near_pos in H; [|exact P]. unfold JfermionInterpolatedLow.
    destruct (Req_EM_T y 0); [lra|]. cbn [Z.eqb Pos.eqb]. destruct (Rlt_dec y 0); [lra|reflexivity].
  - unfold JfermionInterpolatedLow. destruct (Req_EM_T x 0); [lra|]. cbn [Z.eqb Pos.eqb]. destruct (Rlt_dec x 0); [lra|reflexivity].
  - now apply fermion_low_deriv.
Qed.
Lemma boson_low_derivative K n x : 0 < x ->
  derivative_at (fun y => JbosonInterpolatedLow K y n 0) (fun y => JbosonInterpolatedLow K y n 1) x.
Proof.
  intro P. exists (boson_low0 K n), (boson_low1 K n x). split; [|split].
  - exists x. split; [exact P|]. intros y H. apply near_pos in H; [|exact P]. unfold JbosonInterpolatedLow.
    destruct (Req_EM_T y 0); [lra|]. cbn [Z.eqb Pos.eqb]. destruct (Rlt_dec y 0); [lra|reflexivity].
  - unfold JbosonInterpolatedLow. destruct (Req_EM_T x 0); [lra|]. cbn [Z.eqb Pos.eqb]. destruct (Rlt_dec x 0); [lra|reflexivity].
  - now apply boson_low_deriv.
Qed.

(** *** right derivative at the origin *)
Lemma h_ln_bound h : 0 < h -> h < 1 -> Rabs (h * ln h) <= 2 * sqrt h.
Proof.
  intros P Q. assert (S : 0 < sqrt h) by now apply sqrt_lt_R0.
  assert (L : ln h < 0) by (rewrite <- ln_1; now apply ln_increasing).
  assert (E : ln h = 2 * ln (sqrt h)).
  { rewrite <- (sqrt_sqrt h) at 1 by lra. rewrite ln_mult by exact S. ring. }
  assert (B : - ln (sqrt h) <= / sqrt h - 1).
  { rewrite <- ln_Rinv by exact S. pose proof (exp_ineq1_le (ln (/ sqrt h))) as X.
    rewrite exp_ln in X by now apply Rinv_0_lt_compat. lra. }
  rewrite Rabs_mult, (Rabs_pos_eq h) by lra. rewrite Rabs_left by exact L. rewrite E.
  apply Rle_trans with (h * (2 * (/ sqrt h - 1))).
  - apply Rmult_le_compat_l; lra.
  - replace (h * (2 * (/ sqrt h - 1))) with (2 * (h / sqrt h) - 2 * h) by (field; lra).
    replace (h / sqrt h) with (sqrt h); [lra|]. rewrite <- (sqrt_sqrt h) at 2 by lra. field. lra.
Qed.
Lemma sum_from_bound n K x : 0 < x -> x < 1 ->
  Rabs (sum_from 2 n (fun l => (- x / (4 * PI ^ 2)) ^ l * K l)) <= x * sum_from 2 n (fun l => Rabs (K l)).
Proof.
  intros P Q. rewrite sum_from_scal. unfold sum_from.
  assert (I : forall l, In l (seq 2 (S n - 2)) -> (2 <= l)%nat) by (intros l Hl; apply in_seq in Hl; lia).
  assert (B : Rabs (- x / (4 * PI ^ 2)) <= x).
  { unfold Rdiv. rewrite Rabs_mult, Rabs_Ropp, (Rabs_pos_eq x) by lra.
    rewrite Rabs_pos_eq by (apply Rlt_le, Rinv_0_lt_compat, pi2_pos).
    rewrite <- (Rmult_1_r x) at 2. apply Rmult_le_compat_l; [lra|].
    rewrite <- Rinv_1. apply Rinv_le_contravar; [lra|]. pose proof PI2_3_2 as H3. cbn [pow]. assert (H4 : 1 < PI) by lra. nra. }
  induction (seq 2 (S n - 2)) as [|l r IH]; cbn [fold_right]; [rewrite Rabs_R0; lra|].
  eapply Rle_trans; [apply Rabs_triang|]. apply Rplus_le_compat; [|apply IH; intros; apply I; now right].
  rewrite Rabs_mult. apply Rmult_le_compat_r; [apply Rabs_pos|].
  assert (L : (2 <= l)%nat) by (apply I; now left). destruct l as [|l]; [lia|]. rewrite <- tech_pow_Rmult, Rabs_mult.
  apply Rle_trans with (x * 1); [|lra]. apply Rmult_le_compat; try apply Rabs_pos; [exact B|].
  rewrite <- RPow_abs. rewrite <- (pow1 l). apply pow_incr. split; [apply Rabs_pos|lra].
Qed.
Lemma sqrt_small C eps : 0 <= C -> 0 < eps -> exists delta, 0 < delta <= 1 /\ forall h, 0 < h < delta -> C * sqrt h < eps.
Proof.
  intros HC E. set (q := eps / (C + 1)). assert (Q : 0 < q) by (apply Rdiv_lt_0_compat; lra).
  exists (Rmin 1 (q * q)). split.
  - split; [apply Rmin_pos; [lra|nra]|apply Rmin_l].
  - intros h (H1 & H2). assert (S : sqrt h < q).
    { rewrite <- (sqrt_square q) by lra. apply sqrt_lt_1; try nra. eapply Rlt_le_trans; [exact H2|apply Rmin_r]. }
    apply Rle_lt_trans with (C * q); [apply Rmult_le_compat_l; lra|].
    assert (X : q * (C + 1) = eps) by (unfold q; field; lra). nra.
Qed.
Lemma sqrt_ge h : 0 < h -> h < 1 -> h <= sqrt h.
Proof.
  intros P Q. rewrite <- (sqrt_sqrt h) at 1 by lra. pose proof (sqrt_lt_R0 h P).
  assert (sqrt h < 1) by (rewrite <- sqrt_1; apply sqrt_lt_1; lra). nra.
Qed.
Lemma Rpower_32 h : 0 < h -> Rpower h (3 / 2) = h * sqrt h.
Proof.
  intro P. replace (3 / 2) with (1 + / 2) by lra. rewrite Rpower_plus, Rpower_1, Rpower_sqrt by exact P. reflexivity.
Qed.
Lemma Rabs_le_sum2 a b A B : Rabs a <= A -> Rabs b <= B -> Rabs (a + b) <= A + B.
Proof. intros. eapply Rle_trans; [apply Rabs_triang|lra]. Qed.

Lemma boson_low_right_derivative K n :
  right_derivative_at (fun y => JbosonInterpolatedLow K y n 0) (fun y => JbosonInterpolatedLow K y n 1) 0.
Proof.
  exists (fun y => if Req_EM_T y 0 then - PI ^ 4 / 45 else boson_low0 K n y), (PI ^ 2 / 12). split; [|split].
  - exists 1. split; [lra|]. intros y H. unfold JbosonInterpolatedLow. cbn [Z.eqb Pos.eqb].
    destruct (Req_EM_T y 0); [reflexivity|]. destruct (Rlt_dec y 0); [lra|reflexivity].
  - unfold JbosonInterpolatedLow. cbn [Z.eqb Pos.eqb]. destruct (Req_EM_T 0 0); [reflexivity|congruence].
  - intros eps He. set (M := sum_from 2 n (fun l => Rabs (K l))).
    assert (HM : 0 <= M).
    { unfold M, sum_from. induction (seq 2 (S n - 2)); cbn [fold_right]; [lra|]. pose proof (Rabs_pos (K a)). lra. }
    pose proof (Rabs_pos cb) as Hcb. pose proof PI_RGT_0 as HP.
    set (C := PI / 6 + (2 + Rabs cb) / 32 + PI ^ 2 * M).
    assert (HC : 0 <= C) by (unfold C; assert (0 <= PI ^ 2 * M) by (apply Rmult_le_pos; [nra|exact HM]); lra).
    destruct (sqrt_small C eps HC He) as (delta & D & S). exists delta. split; [lra|]. intros h (H1 & H2).
    destruct (Req_EM_T (0 + h) 0); [lra|]. destruct (Req_EM_T 0 0); [|congruence].
    replace (0 + h) with h by ring. unfold boson_low0. rewrite Rpower_32 by exact H1.
    set (s := sum_from 2 n (fun l => (- h / (4 * PI ^ 2)) ^ l * K l)).
    replace ((- PI ^ 4 / 45 + PI ^ 2 * h / 12 + - PI * (h * sqrt h) / 6 + - h ^ 2 * (ln h - cb) / 32 + PI ^ 2 * h * s - - PI ^ 4 / 45) / h - PI ^ 2 / 12)
      with ((- PI / 6 * sqrt h + (- (h * ln h) / 32 + cb / 32 * h)) + PI ^ 2 * s) by (field; lra).
    eapply Rle_lt_trans; [|apply (S h); lra]. unfold C.
    replace ((PI / 6 + (2 + Rabs cb) / 32 + PI ^ 2 * M) * sqrt h) with
      ((PI / 6 * sqrt h + (2 * sqrt h / 32 + Rabs cb / 32 * sqrt h)) + PI ^ 2 * (sqrt h * M)) by field.
    pose proof (sqrt_ge h H1 ltac:(lra)) as HS. pose proof (sqrt_lt_R0 h H1) as HS0.
    apply Rabs_le_sum2; [apply Rabs_le_sum2; [|apply Rabs_le_sum2]|].
    + rewrite Rabs_mult, (Rabs_pos_eq (sqrt h)) by lra. apply Rmult_le_compat_r; [lra|].
      unfold Rdiv. rewrite Rabs_mult, Rabs_Ropp, !Rabs_pos_eq by lra. lra.
    + unfold Rdiv. rewrite Rabs_mult, Rabs_Ropp, (Rabs_pos_eq (/ 32)) by lra. apply Rmult_le_compat_r; [lra|].
      apply h_ln_bound; lra.
    + rewrite Rabs_mult, (Rabs_pos_eq h) by lra. unfold Rdiv. rewrite Rabs_mult, (Rabs_pos_eq (/ 32)) by lra.
      apply Rmult_le_compat_l; [|exact HS]. lra.
    + rewrite Rabs_mult, (Rabs_pos_eq (PI ^ 2)) by nra. apply Rmult_le_compat_l; [nra|].
      eapply Rle_trans; [apply sum_from_bound; lra|]. fold M. apply Rmult_le_compat_r; [exact HM|exact HS].
Qed.
Lemma fermion_low_right_derivative K n :
  right_derivative_at (fun y => JfermionInterpolatedLow K y n 0) (fun y => JfermionInterpolatedLow K y n 1) 0.
Proof.
  exists (fun y => if Req_EM_T y 0 then -7 * PI ^ 4 / 360 else fermion_low0 K n y), (PI ^ 2 / 24). split; [|split].
  - exists 1. split; [lra|]. intros y H. unfold JfermionInterpolatedLow. cbn [Z.eqb Pos.eqb].
    destruct (Req_EM_T y 0); [reflexivity|]. destruct (Rlt_dec y 0); [lra|reflexivity].
  - unfold JfermionInterpolatedLow. cbn [Z.eqb Pos.eqb]. destruct (Req_EM_T 0 0); [reflexivity|congruence].
  - intros eps He. set (M := sum_from 2 n (fun l => Rabs (K l))).
    assert (HM : 0 <= M).
    { unfold M, sum_from. induction (seq 2 (S n - 2)); cbn [fold_right]; [lra|]. pose proof (Rabs_pos (K a)). lra. }
    pose proof (Rabs_pos cf) as Hcb. pose proof PI_RGT_0 as HP.
    set (C := (2 + Rabs cf) / 32 + PI ^ 2 * M).
    assert (HC : 0 <= C) by (unfold C; assert (0 <= PI ^ 2 * M) by (apply Rmult_le_pos; [nra|exact HM]); lra).
    destruct (sqrt_small C eps HC He) as (delta & D & S). exists delta. split; [lra|]. intros h (H1 & H2).
    destruct (Req_EM_T (0 + h) 0); [lra|]. destruct (Req_EM_T 0 0); [|congruence].
    replace (0 + h) with h by ring. unfold fermion_low0.
    set (s := sum_from 2 n (fun l => (- h / (4 * PI ^ 2)) ^ l * K l)).
    replace ((-7 * PI ^ 4 / 360 + PI ^ 2 / 24 * h + 1 / 32 * h ^ 2 * (ln h - cf) + - PI ^ 2 * h * s - -7 * PI ^ 4 / 360) / h - PI ^ 2 / 24)
      with (((h * ln h) / 32 + - cf / 32 * h) + PI ^ 2 * - s) by (field; lra).
    eapply Rle_lt_trans; [|apply (S h); lra]. unfold C.
    replace (((2 + Rabs cf) / 32 + PI ^ 2 * M) * sqrt h) with
      ((2 * sqrt h / 32 + Rabs cf / 32 * sqrt h) + PI ^ 2 * (sqrt h * M)) by field.
    pose proof (sqrt_ge h H1 ltac:(lra)) as HS. pose proof (sqrt_lt_R0 h H1) as HS0.
    apply Rabs_le_sum2; [apply Rabs_le_sum2|].
    + unfold Rdiv. rewrite Rabs_mult, (Rabs_pos_eq (/ 32)) by lra. apply Rmult_le_compat_r; [lra|].
      apply h_ln_bound; lra.
    + rewrite Rabs_mult, (Rabs_pos_eq h) by lra. unfold Rdiv. rewrite Rabs_mult, Rabs_Ropp, (Rabs_pos_eq (/ 32)) by lra.
      apply Rmult_le_compat_l; [|exact HS]. lra.
    + rewrite Rabs_mult, (Rabs_pos_eq (PI ^ 2)) by nra. apply Rmult_le_compat_l; [nra|]. rewrite Rabs_Ropp.
      eapply Rle_trans; [apply sum_from_bound; lra|]. fold M. apply Rmult_le_compat_r; [exact HM|exact HS].
Qed.

(** *** large arguments *)
Definition high_exact (K : nat -> R) (n : nat) (x : R) : R :=
  exp (- sqrt x) * sqrt (2 * PI) / (8 * Rpower x (3 / 4))
  * sum_from 0 n (fun l => K l * Rpower x ((1 - INR l) / 2) * (2 * INR l + 2 * sqrt x - 3)).
Lemma sqrt_34 x : 0 < x -> sqrt (PI / 2 * Rpower x (3 / 2)) = sqrt (PI / 2) * Rpower x (3 / 4).
Proof.
  intro P. pose proof PI_RGT_0. rewrite sqrt_mult_alt by lra. f_equal.
  rewrite <- Rpower_sqrt by apply exp_pos. rewrite Rpower_mult. f_equal. lra.
Qed.
Lemma sqrt_2pi : sqrt (2 * PI) = 2 * sqrt (PI / 2).
Proof.
  pose proof PI_RGT_0. replace (2 * PI) with ((2 * 2) * (PI / 2)) by field. rewrite sqrt_mult_alt by lra.
  rewrite sqrt_square by lra. reflexivity.
Qed.
Lemma high_deriv K n x : 0 < x -> dl (high0 K n) x (high_exact K n x).
Proof.
  intro P. pose proof PI_RGT_0.
  apply dl_ext_loc with (f := fun y => sum_from 0 n (fun l => - sqrt (PI / 2) * K l * (exp (- sqrt y) * Rpower y (3 / 4 - INR l / 2)))) (eps0 := x);
    [exact P| |].
  { intros y Hy. apply near_pos in Hy; [|exact P]. unfold high0. rewrite sqrt_34 by exact Hy. rewrite sum_from_scal.
    apply sum_from_ext. intros l _. replace (3 / 4 - INR l / 2) with (3 / 4 + - INR l / 2) by lra. rewrite Rpower_plus. ring. }
  eapply dl_eq.
  - apply (dl_sum_from 0 n (fun l y => - sqrt (PI / 2) * K l * (exp (- sqrt y) * Rpower y (3 / 4 - INR l / 2)))
      (fun l => exp (- sqrt x) * sqrt (2 * PI) / (8 * Rpower x (3 / 4)) * (K l * Rpower x ((1 - INR l) / 2) * (2 * INR l + 2 * sqrt x - 3)))).
    intro l. eapply dl_eq; [dlauto; exact P|].
    assert (E1 : Rpower x (3 / 4 - INR l / 2 - 1) = Rpower x ((1 - INR l) / 2) / Rpower x (3 / 4)).
    { transitivity (Rpower x ((1 - INR l) / 2) * Rpower x (Ropp (3 / 4))).
      - rewrite <- Rpower_plus. f_equal. lra.
      - rewrite Rpower_Ropp. reflexivity. }
    assert (E2 : Rpower x (3 / 4 - INR l / 2) = Rpower x ((1 - INR l) / 2) / Rpower x (3 / 4) * (sqrt x * sqrt x)).
    { rewrite <- E1. rewrite sqrt_sqrt by lra. transitivity (Rpower x (3 / 4 - INR l / 2 - 1) * Rpower x 1); [rewrite <- Rpower_plus; f_equal; lra|].
      now rewrite (Rpower_1 x P). }
    rewrite E1, E2, sqrt_2pi. pose proof (sqrt_lt_R0 x P). pose proof (exp_pos (3 / 4 * ln x)). change (exp (3 / 4 * ln x)) with (Rpower x (3 / 4)) in *.
    field. lra.
  - unfold high_exact. now rewrite sum_from_scal.
Qed.
Definition high_error (K : nat -> R) (n : nat) (x : R) : R :=
  exp (- sqrt x) * sqrt (2 * PI) / (8 * Rpower x (3 / 4))
  * sum_from 0 n (fun l => K l * (Rpower x ((1 - INR l) / 2) - powerRZ x (Z.quot (1 - Z.of_nat l) 2)) * (2 * INR l + 2 * sqrt x - 3)).
Lemma high_error_ok K n x : high_exact K n x = high1 K n x + high_error K n x.
Proof.
  unfold high_exact, high1, high_error. rewrite <- Rmult_plus_distr_l. f_equal.
  assert (E : forall a b c, a - b = c -> a = b + c) by (intros; lra). apply E. rewrite sum_from_minus.
  apply sum_from_ext. intros l _. ring.
Qed.
Lemma derivative_unique F G f x d eps : derivative_at F G x -> 0 < eps -> (forall y, Rabs (y - x) < eps -> F y = Some (f y)) ->
  dl f x d -> G x = Some d.
Proof.
  intros (f1 & d1 & (e1 & P1 & L1) & G1 & D1) P L D. rewrite G1. f_equal.
  apply (uniqueness_limite f x); [|exact D].
  apply dl_ext_loc with (f := f1) (eps0 := Rmin e1 eps); [now apply Rmin_pos| |exact D1].
  intros y Hy. assert (E : Some (f1 y) = Some (f y)); [|congruence].
  rewrite <- L1 by (eapply Rlt_le_trans; [exact Hy|apply Rmin_l]).
  apply L. eapply Rlt_le_trans; [exact Hy|apply Rmin_r].
Qed.
Lemma JHigh_pos K n y d : 0 < y -> JInterpolatedHigh K y n d = if Z.eqb d 0 then Some (high0 K n y) else if Z.eqb d 1 then Some (high1 K n y) else Some 0.
Proof. intro P. unfold JInterpolatedHigh. destruct (Rle_dec y 0); [lra|reflexivity]. Qed.
Lemma prefactor_pos x : 0 < x -> 0 < exp (- sqrt x) * sqrt (2 * PI) / (8 * Rpower x (3 / 4)).
Proof.
  intro P. pose proof PI_RGT_0. apply Rdiv_lt_0_compat.
  - apply Rmult_lt_0_compat; [apply exp_pos|apply sqrt_lt_R0; lra].
  - pose proof (exp_pos (3 / 4 * ln x)). unfold Rpower. lra.
Qed.
Lemma high_derivative_iff K n x : 0 < x ->
  (derivative_at (fun y => JInterpolatedHigh K y n 0) (fun y => JInterpolatedHigh K y n 1) x <-> high_error K n x = 0).
Proof.
  intro P. split.
  - intro D. apply (derivative_unique _ _ (high0 K n) x (high_exact K n x) x) in D.
    + cbv beta in D. rewrite JHigh_pos in D by exact P. cbn [Z.eqb Pos.eqb] in D. pose proof (high_error_ok K n x). injection D as D; lra.
    + exact P.
    + intros y Hy. apply near_pos in Hy; [|exact P]. now rewrite JHigh_pos by exact Hy.
    + now apply high_deriv.
  - intro E. exists (high0 K n), (high1 K n x). split; [|split].
    + exists x. split; [exact P|]. intros y Hy. apply near_pos in Hy; [|exact P]. now rewrite JHigh_pos by exact Hy.
    + now rewrite JHigh_pos by exact P.
    + pose proof (high_error_ok K n x). replace (high1 K n x) with (high_exact K n x) by lra. now apply high_deriv.
Qed.
Lemma high_derivative_one K n :
  derivative_at (fun y => JInterpolatedHigh K y n 0) (fun y => JInterpolatedHigh K y n 1) 1.
Proof.
  apply high_derivative_iff; [lra|]. unfold high_error. replace (sum_from _ _ _) with 0; [ring|].
  unfold sum_from. induction (seq 0 (S n - 0)) as [|l r IH]; cbn [fold_right]; [reflexivity|]. rewrite <- IH.
  unfold Rpower. rewrite ln_1, Rmult_0_r, exp_0, powerRZ_R1. ring.
Qed.
(** odd orders are unaffected: (1 - l)/2 is an integer *)
Lemma odd_exponent x l : 0 < x -> Nat.odd l = true -> Rpower x ((1 - INR l) / 2) = powerRZ x (Z.quot (1 - Z.of_nat l) 2).
Proof.
  intros P O. apply Nat.odd_spec in O as (m & ->). rewrite powerRZ_Rpower by exact P. f_equal.
  replace (1 - Z.of_nat (2 * m + 1))%Z with ((- Z.of_nat m) * 2)%Z by lia. rewrite Z.quot_mul by lia.
  rewrite opp_IZR, <- INR_IZR_INZ. rewrite plus_INR, mult_INR. cbn [INR]. lra.
Qed.
Lemma K_high_values : K_high 0 = 1 /\ K_high 2 = 105 / 128.
Proof. unfold K_high. cbn [gamma_ratio Nat.mul Nat.add fact INR pow]. split; [lra|]. cbn. lra. Qed.
Lemma high_error_16 : 0 < high_error K_high 3 16.
Proof.
  unfold high_error. assert (P : 0 < 16) by lra. apply Rmult_lt_0_compat; [now apply prefactor_pos|].
  assert (S4 : sqrt 16 = 4) by (replace 16 with (4 * 4) by lra; apply sqrt_square; lra).
  rewrite S4. unfold sum_from. change (seq 0 (4 - 0)) with [0; 1; 2; 3]%nat. cbn [fold_right].
  rewrite (odd_exponent 16 1), (odd_exponent 16 3) by (try reflexivity; exact P).
  destruct K_high_values as (-> & ->).
  replace ((1 - INR 0) / 2) with (/ 2) by (cbn; lra). rewrite Rpower_sqrt, S4 by exact P.
  replace ((1 - INR 2) / 2) with (Ropp (/ 2)) by (cbn; lra). rewrite Rpower_Ropp, Rpower_sqrt, S4 by exact P.
  change (Z.quot (1 - Z.of_nat 0) 2) with 0%Z. change (Z.quot (1 - Z.of_nat 2) 2) with 0%Z. cbn [powerRZ INR]. lra.
Qed.
Lemma interp_fermion_derivative Kf x : 0 < x < C_FermionTheta ->
  derivative_at (fun y => JfermionInterpolated Kf y 0) (fun y => JfermionInterpolated Kf y 1) x.
Proof.
  intros (P & Q). exists (fun y => - fermion_low0 Kf 4 y + - C_FermionShift), (- fermion_low1 Kf 4 x + 0). split; [|split].
  - exists (Rmin x (C_FermionTheta - x)). split; [apply Rmin_pos; lra|]. intros y Hy.
    assert (H1 : Rabs (y - x) < x) by (eapply Rlt_le_trans; [exact Hy|apply Rmin_l]).
    assert (H2 : Rabs (y - x) < C_FermionTheta - x) by (eapply Rlt_le_trans; [exact Hy|apply Rmin_r]).
    apply near_pos in H1; [|exact P]. apply Rabs_def2 in H2. unfold JfermionInterpolated. destruct (Rle_dec C_FermionTheta y); [lra|].
    unfold JfermionInterpolatedLow. destruct (Req_EM_T y 0); [lra|]. cbn [Z.eqb Pos.eqb]. destruct (Rlt_dec y 0); [lra|]. reflexivity.
  - unfold JfermionInterpolated. destruct (Rle_dec C_FermionTheta x); [lra|].
    unfold JfermionInterpolatedLow. destruct (Req_EM_T x 0); [lra|]. cbn [Z.eqb Pos.eqb]. destruct (Rlt_dec x 0); [lra|]. reflexivity.
  - apply dl_plus; [|apply dl_const]. apply dl_opp. now apply fermion_low_deriv.
Qed.
Lemma interp_boson_derivative Kb neg x : 0 < x < C_BosonTheta ->
  derivative_at (fun y => JbosonInterpolated Kb neg y 0) (fun y => JbosonInterpolated Kb neg y 1) x.
Proof.
  intros (P & Q). exists (boson_low0 Kb 3), (boson_low1 Kb 3 x). split; [|split].
  - exists (Rmin x (C_BosonTheta - x)). split; [apply Rmin_pos; lra|]. intros y Hy.
    assert (H1 : Rabs (y - x) < x) by (eapply Rlt_le_trans; [exact Hy|apply Rmin_l]).
    assert (H2 : Rabs (y - x) < C_BosonTheta - x) by (eapply Rlt_le_trans; [exact Hy|apply Rmin_r]).
    apply near_pos in H1; [|exact P]. apply Rabs_def2 in H2. unfold JbosonInterpolated. destruct (Rle_dec C_BosonTheta y); [lra|].
    destruct (Rle_dec 0 y); [|lra].
    unfold JbosonInterpolatedLow. destruct (Req_EM_T y 0); [lra|]. cbn [Z.eqb Pos.eqb]. destruct (Rlt_dec y 0); [lra|]. reflexivity.
  - unfold JbosonInterpolated. destruct (Rle_dec C_BosonTheta x); [lra|]. destruct (Rle_dec 0 x); [|lra].
    unfold JbosonInterpolatedLow. destruct (Req_EM_T x 0); [lra|]. cbn [Z.eqb Pos.eqb]. destruct (Rlt_dec x 0); [lra|]. reflexivity.
  - now apply boson_low_deriv.
Qed.
Lemma interp_boson_wrong Kb neg :
  ~ derivative_at (fun y => JbosonInterpolated Kb neg y 0) (fun y => JbosonInterpolated Kb neg y 1) 16.
Proof.
  intro D. pose proof high_error_16 as E. pose proof (high_error_ok K_high 3 16) as EE.
  assert (T : C_BosonTheta < 15) by (unfold C_BosonTheta; lra).
  apply (derivative_unique _ _ (fun y => high0 K_high 3 y - C_BosonShift) 16 (high_exact K_high 3 16 - 0) 1) in D.
  - cbv beta in D. unfold JbosonInterpolated in D. destruct (Rle_dec C_BosonTheta 16); [|lra].
    rewrite JHigh_pos in D by lra. cbn [Z.eqb option_map] in D. injection D as D; lra.
  - lra.
  - intros y Hy. apply Rabs_def2 in Hy. unfold JbosonInterpolated. destruct (Rle_dec C_BosonTheta y); [|lra].
    rewrite JHigh_pos by lra. reflexivity.
  - apply dl_minus; [apply high_deriv; lra|apply dl_const].
Qed.
Lemma interp_fermion_wrong Kf :
  ~ derivative_at (fun y => JfermionInterpolated Kf y 0) (fun y => JfermionInterpolated Kf y 1) 16.
Proof.
  intro D. pose proof high_error_16 as E. pose proof (high_error_ok K_high 3 16) as EE.
  assert (T : C_FermionTheta < 15) by (unfold C_FermionTheta; lra).
  apply (derivative_unique _ _ (fun y => - high0 K_high 3 y) 16 (- high_exact K_high 3 16) 1) in D.
  - cbv beta in D. unfold JfermionInterpolated in D. destruct (Rle_dec C_FermionTheta 16); [|lra].
    rewrite JHigh_pos in D by lra. cbn [Z.eqb option_map] in D. injection D as D; lra.
  - lra.
  - intros y Hy. apply Rabs_def2 in Hy. unfold JfermionInterpolated. destruct (Rle_dec C_FermionTheta y); [|lra].
    rewrite JHigh_pos by lra. reflexivity.
  - apply dl_opp, high_deriv. lra.
Qed.

(** ** integrands *)
Lemma csqrt_pos x : 0 <= x -> csqrt_real x = (sqrt x, 0).
Proof. intro H. unfold csqrt_real. destruct (Rle_dec 0 x); [reflexivity|lra]. Qed.
Lemma csqrt_neg x : x < 0 -> csqrt_real x = (0, sqrt (- x)).
Proof. intro H. unfold csqrt_real. destruct (Rle_dec 0 x); [lra|reflexivity]. Qed.
Lemma ln_sqrt_half z : 0 < z -> ln (sqrt z) = / 2 * ln z.
Proof. intro P. rewrite <- Rpower_sqrt by exact P. unfold Rpower. apply ln_exp. Qed.

Lemma norm_complement t sg : sg * sg = 1 ->
  (- (2 * t * (sg * sin t))) * (- (2 * t * (sg * sin t))) + (2 * t * (1 - sg * cos t)) * (2 * t * (1 - sg * cos t))
  = 4 * (t * t) * (2 - 2 * (sg * cos t)).
Proof.
  intro H. pose proof (sin2_cos2 t) as S. unfold Rsqr in S.
  transitivity (4 * (t * t) * (sg * sg * (sin t * sin t + cos t * cos t) + 1 - 2 * (sg * cos t))); [ring|]. rewrite H, S. ring.
Qed.
Lemma neg_root_near k x y : k * k + x < 0 -> Rabs (y - x) < - (k * k + x) -> k * k + y < 0.
Proof. intros H Hy. apply Rabs_def2 in Hy. lra. Qed.

Lemma boson_integrand_derivative k x : k * k + x <> 0 ->
  (0 < k * k + x \/ cos (sqrt (- (k * k + x))) <> 1) ->
  dl (fun y => JbosonIntegrand y k 0) x (JbosonIntegrand x k 1).
Proof.
  intros NZ H. destruct (Rlt_or_le 0 (k * k + x)) as [P|N].
  - apply dl_ext_loc with (f := fun y => k * k * ln (1 - exp (- sqrt (k * k + y)))) (eps0 := k * k + x); [exact P| |].
    { intros y Hy. apply Rabs_def2 in Hy. unfold JbosonIntegrand. cbn [Z.eqb Pos.eqb]. rewrite csqrt_pos by lra.
      unfold clog_re, cadd, creal, cneg, cexp, norm2. cbn [fst snd]. rewrite Ropp_0, cos_0, sin_0. f_equal. f_equal.
      assert (S : 0 < sqrt (k * k + y)) by (apply sqrt_lt_R0; lra).
      assert (exp (- sqrt (k * k + y)) < 1) by (rewrite <- exp_0; apply exp_increasing; lra).
      rewrite <- (sqrt_square (1 - exp (- sqrt (k * k + y)))) at 1 by lra. f_equal. ring. }
    assert (S : 0 < sqrt (k * k + x)) by (apply sqrt_lt_R0; lra).
    assert (EX : exp (- sqrt (k * k + x)) < 1) by (rewrite <- exp_0; apply exp_increasing; lra).
    eapply dl_eq; [dlauto; lra|].
    unfold JbosonIntegrand. cbn [Z.eqb Pos.eqb]. rewrite csqrt_pos by lra.
    unfold cmul, cinv, cadd, creal, cneg, cexp, norm2. cbn [fst snd]. rewrite Ropp_0, cos_0, sin_0.
    set (s := sqrt (k * k + x)) in *. set (e := exp (- s)) in *. clearbody s e.
    field. split; lra.
  - assert (N' : k * k + x < 0) by lra. clear N NZ. destruct H as [H|H]; [lra|].
    set (t := sqrt (- (k * k + x))) in *. assert (T : 0 < t) by (apply sqrt_lt_R0; lra).
    assert (C : cos t < 1) by (destruct (COS_bound t) as [_ [C|C]]; [exact C|contradiction]).
    assert (D : dl (fun y => k * k * (/ 2 * ln (2 - 2 * cos (sqrt (- (k * k + y)))))) x
      (- (k * k) * sin t / (2 * t * (2 - 2 * cos t)))).
    { eapply dl_eq; [dlauto; cbv beta; try fold t; lra|]. fold t. field. lra. }
    replace (JbosonIntegrand x k 1) with (- (k * k) * sin t / (2 * t * (2 - 2 * cos t))).
    + assert (CT : continuity_pt (fun y => cos (sqrt (- (k * k + y)))) x).
      { apply derivable_continuous_pt. eexists. unfold derivable_pt_abs. dlauto. cbv beta. lra. }
      destruct (CT (1 - cos t)) as (al & A1 & A2); [lra|].
      apply dl_ext_loc with (eps0 := Rmin al (- (k * k + x))) (3 := D); [apply Rmin_pos; lra|].
      intros y Hy. assert (H1 : k * k + y < 0) by (apply (neg_root_near k x); [exact N'|eapply Rlt_le_trans; [exact Hy|apply Rmin_r]]).
      unfold JbosonIntegrand. cbn [Z.eqb Pos.eqb]. rewrite csqrt_neg by exact H1.
      unfold clog_re, cadd, creal, cneg, cexp, norm2. cbn [fst snd]. rewrite Ropp_0, exp_0, cos_neg, sin_neg.
      assert (CY : cos (sqrt (- (k * k + y))) < 1).
      { destruct (Req_dec y x) as [->|NE]; [exact C|].
        assert (B : R_dist (cos (sqrt (- (k * k + y)))) (cos (sqrt (- (k * k + x)))) < 1 - cos t).
        { apply A2. split; [split; [exact I|congruence]|]. eapply Rlt_le_trans; [exact Hy|apply Rmin_l]. }
        fold t in B. unfold R_dist in B. apply Rabs_def2 in B. lra. }
      set (u := sqrt (- (k * k + y))) in *. f_equal.
      replace ((1 + - (1 * cos u)) * (1 + - (1 * cos u)) + (0 + - (1 * - sin u)) * (0 + - (1 * - sin u))) with (2 - 2 * cos u).
      * symmetry. apply ln_sqrt_half. lra.
      * pose proof (sin2_cos2 u) as S. unfold Rsqr in S. nra.
    + unfold JbosonIntegrand. cbn [Z.eqb Pos.eqb]. rewrite csqrt_neg by exact N'. fold t.
      unfold cmul, cinv, cadd, creal, cneg, cexp, norm2. cbn [fst snd]. rewrite Ropp_0, exp_0, cos_neg, sin_neg.
      pose proof (norm_complement t 1 ltac:(lra)) as NC.
      match goal with |- _ = ?rhs => match rhs with context [?a / ?b] => replace b with (4 * (t * t) * (2 - 2 * (1 * cos t))) by (rewrite <- NC; ring) end end.
      field. split; lra.
Qed.
Lemma fermion_integrand_derivative k x : k * k + x <> 0 ->
  (0 < k * k + x \/ cos (sqrt (- (k * k + x))) <> -1) ->
  dl (fun y => JfermionIntegrand y k 0) x (JfermionIntegrand x k 1).
Proof.
  intros NZ H. destruct (Rlt_or_le 0 (k * k + x)) as [P|N].
  - apply dl_ext_loc with (f := fun y => k * k * ln (1 + exp (- sqrt (k * k + y)))) (eps0 := k * k + x); [exact P| |].
    { intros y Hy. apply Rabs_def2 in Hy. unfold JfermionIntegrand. cbn [Z.eqb Pos.eqb]. rewrite csqrt_pos by lra.
      unfold clog_re, cadd, creal, cneg, cexp, norm2. cbn [fst snd]. rewrite Ropp_0, cos_0, sin_0. f_equal. f_equal.
      assert (S : 0 < sqrt (k * k + y)) by (apply sqrt_lt_R0; lra).
      pose proof (exp_pos (- sqrt (k * k + y))).
      rewrite <- (sqrt_square (1 + exp (- sqrt (k * k + y)))) at 1 by lra. f_equal. ring. }
    assert (S : 0 < sqrt (k * k + x)) by (apply sqrt_lt_R0; lra).
    pose proof (exp_pos (- sqrt (k * k + x))) as EX.
    eapply dl_eq; [dlauto; lra|].
    unfold JfermionIntegrand. cbn [Z.eqb Pos.eqb]. rewrite csqrt_pos by lra.
    unfold cmul, cinv, cadd, creal, cneg, cexp, norm2. cbn [fst snd]. rewrite Ropp_0, cos_0, sin_0.
    set (s := sqrt (k * k + x)) in *. set (e := exp (- s)) in *. clearbody s e.
    field. split; lra.
  - assert (N' : k * k + x < 0) by lra. clear N NZ. destruct H as [H|H]; [lra|].
    set (t := sqrt (- (k * k + x))) in *. assert (T : 0 < t) by (apply sqrt_lt_R0; lra).
    assert (C : -1 < cos t) by (destruct (COS_bound t) as [[C|C] _]; [exact C|congruence]).
    assert (D : dl (fun y => k * k * (/ 2 * ln (2 + 2 * cos (sqrt (- (k * k + y)))))) x
      ((k * k) * sin t / (2 * t * (2 + 2 * cos t)))).
    { eapply dl_eq; [dlauto; cbv beta; try fold t; lra|]. fold t. field. lra. }
    replace (JfermionIntegrand x k 1) with ((k * k) * sin t / (2 * t * (2 + 2 * cos t))).
    + assert (CT : continuity_pt (fun y => cos (sqrt (- (k * k + y)))) x).
      { apply derivable_continuous_pt. eexists. unfold derivable_pt_abs. dlauto. cbv beta. lra. }
      destruct (CT (1 + cos t)) as (al & A1 & A2); [lra|].
      apply dl_ext_loc with (eps0 := Rmin al (- (k * k + x))) (3 := D); [apply Rmin_pos; lra|].
      intros y Hy. assert (H1 : k * k + y < 0) by (apply (neg_root_near k x); [exact N'|eapply Rlt_le_trans; [exact Hy|apply Rmin_r]]).
      unfold JfermionIntegrand. cbn [Z.eqb Pos.eqb]. rewrite csqrt_neg by exact H1.
      unfold clog_re, cadd, creal, cneg, cexp, norm2. cbn [fst snd]. rewrite Ropp_0, exp_0, cos_neg, sin_neg.
      assert (CY : -1 < cos (sqrt (- (k * k + y)))).
      { destruct (Req_dec y x) as [->|NE]; [exact C|].
        assert (B : R_dist (cos (sqrt (- (k * k + y)))) (cos (sqrt (- (k * k + x)))) < 1 + cos t).
        { apply A2. split; [split; [exact I|congruence]|]. eapply Rlt_le_trans; [exact Hy|apply Rmin_l]. }
        fold t in B. unfold R_dist in B. apply Rabs_def2 in B. lra. }
      set (u := sqrt (- (k * k + y))) in *. f_equal.
      replace ((1 + 1 * cos u) * (1 + 1 * cos u) + (0 + 1 * - sin u) * (0 + 1 * - sin u)) with (2 + 2 * cos u).
      * symmetry. apply ln_sqrt_half. lra.
      * pose proof (sin2_cos2 u) as S. unfold Rsqr in S. nra.
    + unfold JfermionIntegrand. cbn [Z.eqb Pos.eqb]. rewrite csqrt_neg by exact N'. fold t.
      unfold cmul, cinv, cadd, creal, cneg, cexp, norm2. cbn [fst snd]. rewrite Ropp_0, exp_0, cos_neg, sin_neg.
      pose proof (norm_complement t (-1) ltac:(lra)) as NC.
      match goal with |- _ = ?rhs => match rhs with context [?a / ?b] => replace b with (4 * (t * t) * (2 - 2 * (-1 * cos t))) by (rewrite <- NC; ring) end end.
      field. split; lra.
Qed.
