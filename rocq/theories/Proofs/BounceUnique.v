(** The start of the motion determines it; consequences for the first step. *)
From Coq Require Import Reals Lra Lia.
From Coquelicot Require Import Coquelicot.
From Verif Require Import Model.BounceStart Spec.BounceStartSpec Proofs.BesselSeries Proofs.BounceRolls Proofs.BounceStartProofs.
Open Scope R_scope.

Lemma falling : forall (E E' : R -> R), near_zero E 0 -> (forall r, 0 < r -> derivable_pt_lim E r (E' r)) -> (forall r, 0 < r -> E' r <= 0) ->
  forall r, 0 < r -> E r <= 0.
Proof.
  intros E E' N D S r R. apply Rnot_lt_le; intros P.
  destruct (N (E r) P) as [d [Dp W]].
  set (a := Rmin (r / 2) (d / 2)).
  assert (A : 0 < a) by (apply Rmin_pos; lra).
  assert (Ar : a <= r / 2) by apply Rmin_l. assert (Ad : a <= d / 2) by apply Rmin_r.
  pose proof (W a ltac:(lra)) as H. rewrite Rminus_0_r in H. apply Rabs_def2 in H.
  destruct (MVT_gen E a r E') as [x [X Q]].
  - intros x X; rewrite Rmin_left, Rmax_right in X by lra; apply is_derive_Reals, D; lra.
  - intros x X; rewrite Rmin_left, Rmax_right in X by lra; apply derivable_continuous_pt; exists (E' x); apply D; lra.
  - rewrite Rmin_left, Rmax_right in X by lra. pose proof (S x ltac:(lra)). nra.
Qed.
Lemma nz_minus : forall f g a b, near_zero f a -> near_zero g b -> near_zero (fun r => f r - g r) (a - b).
Proof.
  intros f g a b F G eps He; destruct (F (eps / 2) ltac:(lra)) as [d1 [D1 W1]]; destruct (G (eps / 2) ltac:(lra)) as [d2 [D2 W2]].
  exists (Rmin d1 d2); split; [apply Rmin_pos; assumption|]; intros r Hr.
  pose proof (Rmin_l d1 d2); pose proof (Rmin_r d1 d2).
  pose proof (W1 r ltac:(lra)) as X; pose proof (W2 r ltac:(lra)) as Y. apply Rabs_def2 in X, Y. apply Rabs_def1; lra.
Qed.
(** f^2 + k g^2 and f^2 with bounded weight *)
Lemma nz_small : forall f g k w, near_zero f 0 -> near_zero g 0 -> (forall r, 0 < r -> 0 <= w r <= 1) ->
  near_zero (fun r => f r * f r * w r + k * (g r * g r)) 0.
Proof.
  intros f g k w F G Wt eps He.
  set (e := Rmin 1 (eps / (2 * (1 + Rabs k)))).
  pose proof (Rabs_pos k) as Kp.
  assert (E1 : 0 < eps / (2 * (1 + Rabs k))) by (apply Rdiv_lt_0_compat; lra).
  assert (Ep : 0 < e) by (apply Rmin_pos; lra).
  assert (El : e <= 1) by apply Rmin_l. assert (Er : e <= eps / (2 * (1 + Rabs k))) by apply Rmin_r.
  assert (Em : e * (1 + Rabs k) <= eps / 2).
  { apply Rle_trans with (eps / (2 * (1 + Rabs k)) * (1 + Rabs k)); [apply Rmult_le_compat_r; lra|right; field; lra]. }
  destruct (F e Ep) as [d1 [D1 W1]]; destruct (G e Ep) as [d2 [D2 W2]].
  exists (Rmin d1 d2); split; [apply Rmin_pos; assumption|]; intros r Hr.
  pose proof (Rmin_l d1 d2); pose proof (Rmin_r d1 d2).
  pose proof (W1 r ltac:(lra)) as X; pose proof (W2 r ltac:(lra)) as Y. rewrite Rminus_0_r in *.
  pose proof (Wt r (proj1 Hr)) as [w0 w1].
  apply Rle_lt_trans with (Rabs (f r) * Rabs (f r) * 1 + Rabs k * (Rabs (g r) * Rabs (g r))).
  - eapply Rle_trans; [apply Rabs_triang|]. rewrite !Rabs_mult, (Rabs_pos_eq (w r)) by lra.
    apply Rplus_le_compat_r, Rmult_le_compat_l; [apply Rmult_le_pos; apply Rabs_pos|lra].
  - pose proof (Rabs_pos (f r)); pose proof (Rabs_pos (g r)).
    assert (Rabs (f r) * Rabs (f r) <= e * 1) by (apply Rmult_le_compat; lra).
    assert (Rabs (g r) * Rabs (g r) <= e * 1) by (apply Rmult_le_compat; lra).
    assert (Rabs k * (Rabs (g r) * Rabs (g r)) <= Rabs k * (e * 1)) by (apply Rmult_le_compat_l; assumption).
    lra.
Qed.
Lemma nz_ext : forall f g c, near_zero f c -> (forall r, f r = g r) -> near_zero g c.
Proof. intros f g c F E eps He; destruct (F eps He) as [d [D W]]; exists d; split; [exact D|]; intros r R; rewrite <- E; apply W, R. Qed.

Lemma rest_stays : forall alpha d (u u' u'' : R -> R),
  (forall r, 0 < r -> derivable_pt_lim u r (u' r) /\ derivable_pt_lim u' r (u'' r) /\ u'' r + INR alpha / r * u' r = d * u r) ->
  near_zero u 0 -> near_zero u' 0 -> forall r, 0 < r -> u r = 0 /\ u' r = 0.
Proof.
  intros alpha d u u' u'' H N N'.
  assert (En : forall r, 0 < r -> u' r * u' r - d * (u r * u r) <= 0).
  { apply (falling _ (fun r => 2 * u' r * u'' r - 2 * d * (u r * u' r))).
    - apply (nz_ext (fun r => u' r * u' r * 1 + (- d) * (u r * u r))); [|intros; ring].
      apply (nz_small u' u (- d) (fun _ => 1)); [exact N'|exact N|intros; lra].
    - intros r R; destruct (H r R) as (A & D & _).
      pose proof (derivable_pt_lim_mult u' u' r _ _ D D) as X1.
      pose proof (derivable_pt_lim_mult u u r _ _ A A) as X2.
      pose proof (derivable_pt_lim_minus _ _ r _ _ X1 (derivable_pt_lim_scal _ d r _ X2)) as X3.
      match type of X3 with derivable_pt_lim _ _ ?v => replace (2 * u' r * u'' r - 2 * d * (u r * u' r)) with v by ring end.
      exact X3.
    - intros r R; destruct (H r R) as (_ & _ & Q).
      assert (E : u'' r = d * u r - INR alpha / r * u' r) by lra. rewrite E.
      replace (2 * u' r * (d * u r - INR alpha / r * u' r) - 2 * d * (u r * u' r)) with (- (2 * (INR alpha / r) * (u' r * u' r))) by ring.
      assert (0 <= INR alpha / r) by (apply Rmult_le_pos; [apply pos_INR|apply Rlt_le, Rinv_0_lt_compat, R]).
      assert (0 <= u' r * u' r) by apply Rle_0_sqr. nra. }
  set (k := 1 + Rabs d).
  assert (Kd : 1 <= k /\ d <= k * k).
  { unfold k; pose proof (Rabs_pos d); pose proof (Rle_abs d); split; [lra|nra]. }
  assert (U : forall r, 0 < r -> u r * u r * exp (- (2 * k * r)) <= 0).
  { apply (falling _ (fun r => (2 * u r * u' r - 2 * k * (u r * u r)) * exp (- (2 * k * r)))).
    - apply (nz_ext (fun r => u r * u r * exp (- (2 * k * r)) + 0 * (u r * u r))); [|intros; ring].
      apply (nz_small u u 0); [exact N|exact N|]. intros r R; split; [apply Rlt_le, exp_pos|].
      rewrite <- exp_0; left; apply exp_increasing; nra.
    - intros r R; destruct (H r R) as (A & _ & _).
      pose proof (derivable_pt_lim_mult u u r _ _ A A) as X2.
      assert (X1 : derivable_pt_lim (fun r => exp (- (2 * k * r))) r (- (2 * k) * exp (- (2 * k * r)))).
      { apply is_derive_Reals; auto_derive; [exact I|ring]. }
      pose proof (derivable_pt_lim_mult _ _ r _ _ X2 X1) as X3.
      match type of X3 with derivable_pt_lim _ _ ?v => replace ((2 * u r * u' r - 2 * k * (u r * u r)) * exp (- (2 * k * r))) with v by (unfold mult_fct; ring) end.
      exact X3.
    - intros r R; pose proof (En r R) as Er; pose proof (exp_pos (- (2 * k * r))).
      enough (u r * u' r <= k * (u r * u r)) by nra.
      assert (S : u' r * u' r <= k * k * (u r * u r)).
      { apply Rle_trans with (d * (u r * u r)); [lra|]. apply Rmult_le_compat_r; [apply Rle_0_sqr|lra]. }
      assert (T : Rabs (u' r) <= k * Rabs (u r)).
      { apply Rsqr_incr_0_var; [|apply Rmult_le_pos; [lra|apply Rabs_pos]]. unfold Rsqr.
        rewrite <- Rabs_mult, (Rabs_pos_eq (u' r * u' r)) by apply Rle_0_sqr.
        replace (k * Rabs (u r) * (k * Rabs (u r))) with (k * k * (Rabs (u r) * Rabs (u r))) by ring.
        rewrite <- Rabs_mult, (Rabs_pos_eq (u r * u r)) by apply Rle_0_sqr. exact S. }
      apply Rle_trans with (Rabs (u r * u' r)); [apply Rle_abs|]. rewrite Rabs_mult.
      rewrite <- (Rabs_pos_eq (u r * u r)) by apply Rle_0_sqr. rewrite Rabs_mult. pose proof (Rabs_pos (u r)). nra. }
  intros r R; pose proof (U r R) as Ur; pose proof (exp_pos (- (2 * k * r))) as Ep.
  assert (Z : u r = 0).
  { apply Rsqr_0_uniq. unfold Rsqr. pose proof (Rle_0_sqr (u r)) as S; unfold Rsqr in S. nra. }
  split; [exact Z|]. apply Rsqr_0_uniq. pose proof (En r R) as Er. rewrite Z in Er.
  pose proof (Rle_0_sqr (u' r)); unfold Rsqr in *; lra.
Qed.
Lemma rolls_unique : forall alpha c d l0 p p' q q',
  rolls alpha (fun l => c + (l - l0) * d) l0 p p' -> rolls alpha (fun l => c + (l - l0) * d) l0 q q' ->
  forall r, 0 < r -> p r = q r /\ p' r = q' r.
Proof.
  intros alpha c d l0 p p' q q' [[p'' P] [PN PN']] [[q'' Q] [QN QN']] r R.
  destruct (rest_stays alpha d (fun r => p r - q r) (fun r => p' r - q' r) (fun r => p'' r - q'' r)) with (r := r) as [A D].
  - intros x X; destruct (P x X) as (P1 & P2 & P3); destruct (Q x X) as (Q1 & Q2 & Q3); split; [|split].
    + apply (derivable_pt_lim_minus p q); assumption.
    + apply (derivable_pt_lim_minus p' q'); assumption.
    + transitivity ((p'' x + INR alpha / x * p' x) - (q'' x + INR alpha / x * q' x)); [ring|rewrite P3, Q3; ring].
  - rewrite <- (Rminus_eq_0 l0); apply nz_minus; assumption.
  - rewrite <- (Rminus_eq_0 0); apply nz_minus; assumption.
  - exact R.
  - split; lra.
Qed.

(** ** the constant force *)
Lemma free_fall : forall alpha c l0, rolls alpha (fun l => c + (l - l0) * 0) l0 (fun r => l0 + c * r ^ 2 / (2 * (INR alpha + 1))) (fun r => c * r / (INR alpha + 1)).
Proof.
  intros alpha c l0; pose proof (pos_INR alpha) as A.
  split; [exists (fun _ => c / (INR alpha + 1)); intros r R; split; [|split]|split].
  - apply is_derive_Reals; auto_derive; [lra|field; lra].
  - apply is_derive_Reals; auto_derive; [lra|field; lra].
  - field; lra.
  - apply (near_zero_lin _ _ (Rabs c) 1); [lra|apply Rabs_pos|]; intros r R.
    replace (l0 + c * r ^ 2 / (2 * (INR alpha + 1)) - l0) with (c * (r ^ 2 / (2 * (INR alpha + 1)))) by (field; lra).
    rewrite Rabs_mult; apply Rmult_le_compat_l; [apply Rabs_pos|].
    rewrite Rabs_pos_eq by (apply Rmult_le_pos; [apply pow2_ge_0|apply Rlt_le, Rinv_0_lt_compat; lra]).
    apply Rle_trans with (r ^ 2 * 1); [apply Rmult_le_compat_l; [apply pow2_ge_0|]|nra].
    rewrite <- Rinv_1; apply Rinv_le_contravar; lra.
  - apply (near_zero_lin _ _ (Rabs c) 1); [lra|apply Rabs_pos|]; intros r R.
    replace (c * r / (INR alpha + 1) - 0) with (c * (r * / (INR alpha + 1))) by (field; lra).
    rewrite Rabs_mult; apply Rmult_le_compat_l; [apply Rabs_pos|].
    rewrite Rabs_pos_eq by (apply Rmult_le_pos; [lra|apply Rlt_le, Rinv_0_lt_compat; lra]).
    apply Rle_trans with (r * 1); [apply Rmult_le_compat_l; [lra|]|nra].
    rewrite <- Rinv_1; apply Rinv_le_contravar; lra.
Qed.

(** ** The theorems *)
Lemma solution_exists : forall alpha c d l0, exists phi phi', (alpha = 2%nat \/ alpha = 3%nat -> rolls alpha (fun l => c + (l - l0) * d) l0 phi phi').
Proof.
  intros alpha c d l0.
  destruct (Req_dec d 0) as [->|D]; [do 2 eexists; intros _; apply free_fall|].
  destruct (Nat.eq_dec alpha 2) as [E|E]; [|destruct (Nat.eq_dec alpha 3) as [E'|E']].
  - destruct (shape_fits alpha d D (or_introl E)) as (s & _ & F); do 2 eexists; intros _; apply (sol_rolls s alpha), F.
  - destruct (shape_fits alpha d D (or_intror E')) as (s & _ & F); do 2 eexists; intros _; apply (sol_rolls s alpha), F.
  - exists (fun _ => 0), (fun _ => 0); tauto.
Qed.

Lemma lin_start : forall fuel alpha L l0 l dVdl d2 phi phi' rho lr v,
  (alpha = 2%nat \/ alpha = 3%nat) -> 0 < L -> 0 < dVdl <= 10 ^ 150 * L -> / 10 ^ 60 <= Rabs d2 <= 10 ^ 18 ->
  L / 10 ^ 11 <= l - l0 -> (0 < d2 -> l - l0 <= dVdl * 101 ^ 2 / 8) ->
  rolls alpha (fun x => dVdl + (x - l0) * d2) l0 phi phi' ->
  ExactSolutionLin fuel alpha L l0 l dVdl d2 = Start rho lr v ->
  exists n rs, lr = l0 + (l - l0) / 10 ^ n /\ (0 < d2 \/ l - l0 <= dVdl / Rabs d2 -> n = 0%nat) /\
    0 < rs /\ phi rs = lr /\ Rabs (rho - rs) <= / 10 ^ 10 /\
    0 < rho /\ (alpha = 2%nat \/ 0 < d2 -> v = phi' rho) /\
    (1 / 1000 < rho -> exists r, Rabs (r - rho) <= 1 / 1000 /\ v = phi' r).
Proof.
  intros fuel alpha L l0 l c d phi phi' rho lr v A Lp Cp Dd Hl Hf RO E.
  pose proof (lin_ok alpha L l0 c d A Lp Cp Dd fuel l Hl Hf) as H; rewrite E in H; cbn [outcome_ok] in H.
  destruct H as (s & n & rs & F & El & Hn & Rp & Es & Hr & Rh & [G1 G2]).
  pose proof (rolls_unique alpha c d l0 _ _ _ _ RO (sol_rolls s alpha l0 c d F)) as U.
  exists n, rs; repeat split; try assumption.
  - rewrite (proj1 (U rs Rp)); exact Es.
  - intros K. rewrite (proj2 (U rho Rh)); apply G1. intros ->; destruct F as [-> F]; destruct K as [K|K]; [discriminate|lra].
  - intros K; destruct (G2 K) as [r [R1 R2]]; exists r; split; [exact R1|].
    assert (0 < r) by (apply Rabs_le_between in R1 || (unfold Rabs in R1; destruct (Rcase_abs (r - rho))); lra).
    rewrite (proj2 (U r H)); exact R2.
Qed.

Lemma lin_ends : forall fuel alpha L l0 l dVdl d2,
  (alpha = 2%nat \/ alpha = 3%nat) -> 0 < L -> 0 < dVdl <= 10 ^ 150 * L -> / 10 ^ 60 <= Rabs d2 <= 10 ^ 18 ->
  L / 10 ^ 11 <= l - l0 <= L -> (0 < d2 -> l - l0 <= dVdl * 101 ^ 2 / 8) -> (12 <= fuel)%nat ->
  (exists rho lr v, ExactSolutionLin fuel alpha L l0 l dVdl d2 = Start rho lr v) \/
  (ExactSolutionLin fuel alpha L l0 l dVdl d2 = IntegrationFailed /\ d2 < 0 /\ dVdl / Rabs d2 < L / 10 ^ 10).
Proof.
  intros fuel alpha L l0 l c d A Lp Cp Dd [Hl Hu] Hf Fu.
  pose proof (lin_ok alpha L l0 c d A Lp Cp Dd fuel l Hl Hf) as H.
  destruct (ExactSolutionLin fuel alpha L l0 l c d) as [rho lr v| | | |] eqn:E; cbn [outcome_ok] in H; try contradiction.
  - left; eauto.
  - right; split; [reflexivity|exact H].
  - exfalso; destruct H as [[_ H]|H]; [|lia].
    assert (X : (l - l0) / L <= 1).
    { apply (Rmult_le_reg_r L); [exact Lp|]. unfold Rdiv; rewrite Rmult_assoc, Rinv_l by lra; lra. }
    assert (Y : 10 ^ 11 <= 10 ^ pred fuel) by (apply Rle_pow; [lra|lia]).
    assert (Z : / 10 ^ 10 * 10 ^ 11 <= / 10 ^ 10 * 10 ^ pred fuel) by (apply Rmult_le_compat_l; [apply Rlt_le, Rinv_0_lt_compat, pow_lt; lra|exact Y]).
    change (10 ^ 11) with (10 * 10 ^ 10) in Z.
    replace (/ 10 ^ 10 * (10 * 10 ^ 10)) with (10 * (10 ^ 10 * / 10 ^ 10)) in Z by ring. rewrite pin in Z. lra.
Qed.

Lemma min_sol : forall alpha hess lmin delta r, (alpha = 2%nat \/ alpha = 3%nat) -> 0 < hess -> 0 < r ->
  let s := if Nat.eqb alpha 2 then Sinh else BesI in
  fits s alpha hess /\ min_value alpha hess lmin delta r = sol s (lmin + delta) (hess * delta) hess r /\
  min_slope alpha hess delta r = spd s (hess * delta) hess r.
Proof.
  intros alpha h lmin delta r A H R s; destruct (sqrt_facts h ltac:(lra)) as [K KK]; rewrite (Rabs_pos_eq h) in K, KK by lra.
  destruct A as [->| ->]; unfold s, min_value, min_slope; cbn [Nat.eqb sol spd]; (split; [split; [reflexivity|exact H]|split]).
  - rewrite (Rabs_pos_eq h) by lra. unfold Ph; rewrite KK. field; lra.
  - rewrite (Rabs_pos_eq h) by lra. unfold Qh; rewrite KK, (Rmult_comm r). field; lra.
  - unfold P3; rewrite I1. replace ((sqrt h * r / 2) ^ 2) with (h * r ^ 2 / 4) by (rewrite <- KK at 1; field). field; lra.
  - unfold Q3; rewrite I2. replace ((r * sqrt h / 2) ^ 2) with (h * r ^ 2 / 4) by (rewrite <- KK at 1; field). field; lra.
Qed.
Lemma from_minimum : forall alpha hess lmin delta l phi phi',
  (alpha = 2%nat \/ alpha = 3%nat) -> 0 < hess <= 10 ^ 18 -> 0 < delta ->
  delta / 10 ^ 150 <= l - (lmin + delta) <= hess * delta * 100 ^ 2 / 8 ->
  rolls alpha (fun x => hess * (x - lmin)) (lmin + delta) phi phi' ->
  exists rho v rs, ExactSolutionFromMinimum alpha hess lmin delta l = Start rho l v /\
    0 < rs /\ phi rs = l /\ Rabs (rho - rs) <= / 10 ^ 10 /\ 0 < rho /\ v = phi' rho.
Proof.
  intros alpha h lmin delta l phi phi' A [Hp Hu] Dp [Ll Lu] RO.
  unfold ExactSolutionFromMinimum.
  assert (Ab : (Nat.eqb alpha 2 || Nat.eqb alpha 3)%bool = true) by (destruct A as [->| ->]; reflexivity). rewrite Ab.
  destruct (Rle_dec h 0) as [C|_]; [lra|].
  set (s := if Nat.eqb alpha 2 then Sinh else BesI).
  assert (F : fits s alpha h) by (apply (min_sol alpha h lmin delta 1 A Hp ltac:(lra))).
  assert (MV : forall r, 0 < r -> min_value alpha h lmin delta r = sol s (lmin + delta) (h * delta) h r) by (intros r R; apply (min_sol alpha h lmin delta r A Hp R)).
  assert (MS : forall r, 0 < r -> min_slope alpha h delta r = spd s (h * delta) h r) by (intros r R; apply (min_sol alpha h lmin delta r A Hp R)).
  assert (Cp : 0 < h * delta) by (apply Rmult_lt_0_compat; assumption).
  set (f := fun rho => l - min_value alpha h lmin delta rho).
  assert (Fc : forall x, 0 < x -> continuity_pt f x).
  { intros x X; unfold f; apply continuity_pt_minus; [apply continuity_pt_const; intros ? ?; reflexivity|].
    assert (Cs : continuity_pt (sol s (lmin + delta) (h * delta) h) x).
    { apply derivable_continuous_pt; exists (spd s (h * delta) h x); apply (sol_dl s alpha); assumption. }
    intros eps He; destruct (Cs eps He) as [al [Hal W]]. exists (Rmin al (x / 2)); split; [apply Rmin_pos; lra|].
    intros y [Y1 Y2]; pose proof (Rmin_l al (x / 2)); pose proof (Rmin_r al (x / 2)).
    cbn in Y2; unfold R_dist in Y2. assert (Q : Rabs (y - x) < x / 2) by lra. apply Rabs_def2 in Q.
    rewrite !MV by lra. apply W; split; [exact Y1|cbn; unfold R_dist; lra]. }
  assert (Rd : 0 <= f rho_down).
  { unfold f; rewrite MV by apply rd_pos.
    pose proof (near_origin s alpha (lmin + delta) (h * delta) h rho_down F Cp rd_pos) as NO.
    rewrite rd_sq, (Rabs_pos_eq h) in NO by lra.
    assert (Hh : h * / 10 ^ 200 <= / 10 ^ 182).
    { apply Rle_trans with (10 ^ 18 * / 10 ^ 200); [apply Rmult_le_compat_r; [apply Rlt_le, Rinv_0_lt_compat, pow_lt|]; lra|].
      change 200%nat with (18 + 182)%nat; rewrite pow_split, <- Rmult_assoc, pin; lra. }
    assert (H1 : / 10 ^ 182 <= / 10 ^ 150 * / 10).
    { replace (/ 10 ^ 150 * / 10) with (/ 10 ^ 151) by (change 151%nat with (150 + 1)%nat; rewrite pow_split, pow_1; reflexivity).
      apply Rinv_le_contravar; [apply pow_lt; lra|apply Rle_pow; [lra|lia]]. }
    assert (H2 : / 10 ^ 150 <= 1) by (rewrite <- Rinv_1; apply Rinv_le_contravar; [lra|apply pow_R1_Rle; lra]).
    pose proof (NO ltac:(lra)) as X.
    assert (Y : delta * (h * / 10 ^ 200) <= delta * (/ 10 ^ 150 * / 10)) by (apply Rmult_le_compat_l; lra).
    assert (0 < delta * / 10 ^ 150) by (apply Rmult_lt_0_compat; [lra|apply Rinv_0_lt_compat, pow_lt; lra]).
    unfold Rdiv in Ll. nra. }
  destruct (widen_spec f 99 1) as [W1 W2]; set (up := widen 99 f 1) in *.
  assert (I99 : INR 99 = 99) by (rewrite INR_IZR_INZ; reflexivity). rewrite I99 in *.
  assert (Fu : f up <= 0).
  { destruct W2 as [W2|W2]; [exact W2|]. rewrite W2; unfold f; rewrite MV by lra.
    pose proof (reaches_far s alpha (lmin + delta) (h * delta) h (1 + 99) F Hp Cp ltac:(lra)). replace (1 + 99) with 100 in * by lra. lra. }
  assert (T0 : 0 < / 10 ^ 10) by (apply Rinv_0_lt_compat, pow_lt; lra).
  assert (T1 : / 10 ^ 10 <= / 10 ^ 1) by (apply Rinv_le_contravar; [apply pow_lt; lra|apply Rle_pow; [lra|lia]]). rewrite pow_1 in T1.
  pose proof rd_pos as P; pose proof (rd_small 10 ltac:(lia)) as Q.
  destruct (bisect_root f 150 rho_down up 0) as (x & X & E & Y & Z); try assumption; try lra.
  set (rho := bisect 150 f rho_down up 0) in *.
  assert (RO2 : rolls alpha (fun x => h * delta + (x - (lmin + delta)) * h) (lmin + delta) phi phi').
  { destruct RO as [[q Hq] N]; split; [|exact N]. exists q; intros r R; destruct (Hq r R) as (Q1 & Q2 & Q3'); split; [exact Q1|split; [exact Q2|]].
    rewrite Q3'; ring. }
  pose proof (rolls_unique alpha (h * delta) h (lmin + delta) _ _ _ _ RO2 (sol_rolls s alpha (lmin + delta) (h * delta) h F)) as U.
  exists rho, (min_slope alpha h delta rho), x; split; [reflexivity|].
  repeat split; try lra.
  - rewrite (proj1 (U x ltac:(lra))), <- MV by lra. unfold f in E; lra.
  - rewrite MS, (proj2 (U rho ltac:(lra))) by lra; reflexivity.
Qed.

(** ** Where the first step is wrong *)
Lemma flat_wrong : forall alpha fuel L l0 l dVdl phi phi', (alpha = 2%nat \/ alpha = 3%nat) -> dVdl <> 0 ->
  rolls alpha (fun x => dVdl + (x - l0) * 0) l0 phi phi' ->
  exists rho lr v, ExactSolutionLin (S fuel) alpha L l0 l dVdl 0 = Start rho lr v /\ 0 < rho /\
    v = (INR alpha + 1) * phi' rho /\ lr - l0 = (INR alpha + 1) * (phi rho - l0) /\ v <> phi' rho /\ lr <> phi rho.
Proof.
  intros alpha fuel L l0 l c phi phi' A C RO.
  cbn [ExactSolutionLin]; unfold shape_of. destruct (Rlt_dec 0 0) as [K|_]; [lra|].
  unfold small_step; set (t := / 10 ^ 5). assert (T : 0 < t) by (apply Rinv_0_lt_compat, pow_lt; lra).
  destruct (rolls_unique alpha c 0 l0 _ _ _ _ RO (free_fall alpha c l0) t T) as [U1 U2]; cbn beta in U1, U2.
  pose proof (pos_INR alpha) as P. assert (P2 : 2 <= INR alpha) by (destruct A as [->| ->]; cbn; lra).
  do 3 eexists; split; [reflexivity|]; split; [exact T|]; rewrite U1, U2.
  assert (c * t <> 0) by (apply Rmult_integral_contrapositive_currified; lra).
  repeat split.
  - field; lra.
  - field; lra.
  - intros E. apply H. apply (Rmult_eq_compat_r (INR alpha + 1)) in E. unfold Rdiv in E; rewrite (Rmult_assoc (c * t)), Rinv_l, Rmult_1_r in E by lra.
    assert (Z : (c * t) * INR alpha = 0) by lra. apply Rmult_integral in Z; destruct Z; lra.
  - intros E. apply H. assert (E2 : t * t * c / 2 = c * t ^ 2 / (2 * (INR alpha + 1))) by lra.
    apply (Rmult_eq_compat_r (2 * (INR alpha + 1) / t)) in E2. replace (t * t * c / 2 * (2 * (INR alpha + 1) / t)) with (c * t * (INR alpha + 1)) in E2 by (field; lra).
    replace (c * t ^ 2 / (2 * (INR alpha + 1)) * (2 * (INR alpha + 1) / t)) with (c * t) in E2 by (field; lra).
    assert (Z : (c * t) * INR alpha = 0) by lra. apply Rmult_integral in Z; destruct Z; lra.
Qed.

Lemma bisect_moves : forall f n a b m, a < b -> / 10 ^ 10 < b - a -> a <= bisect (S n) f a b m <= b.
Proof.
  intros f n a b m L W; cbn [bisect]; destruct (Rlt_dec (/ 10 ^ 10) (b - a)) as [_|K]; [|lra].
  destruct (Rlt_dec 0 (f ((b + a) / 2))).
  - pose proof (bisect_range f n ((b + a) / 2) b ((b + a) / 2) ltac:(lra) ltac:(lra)); lra.
  - pose proof (bisect_range f n a ((b + a) / 2) ((b + a) / 2) ltac:(lra) ltac:(lra)); lra.
Qed.
Lemma too_far : forall phi phi', rolls 2 (fun x => 1 + (x - 0) * / 10 ^ 6) 0 phi phi' ->
  exists rho v, ExactSolutionLin 1 2 (10 ^ 6) 0 (10 ^ 5) 1 (/ 10 ^ 6) = Start rho (10 ^ 5) v /\ 0 < rho /\ phi rho < 10 ^ 5 / 2.
Proof.
  intros phi phi' RO.
  assert (D : 0 < / 10 ^ 6) by (apply Rinv_0_lt_compat, pow_lt; lra).
  assert (F : fits Sinh 2 (/ 10 ^ 6)) by (split; [reflexivity|exact D]).
  pose proof (rolls_unique 2 1 (/ 10 ^ 6) 0 _ _ _ _ RO (sol_rolls Sinh 2 0 1 (/ 10 ^ 6) F)) as U.
  assert (V : forall r, 0 < r <= 101 -> sol Sinh 0 1 (/ 10 ^ 6) r <= 2 * 1 * r ^ 2).
  { intros r R. rewrite <- (Rplus_0_l (2 * 1 * r ^ 2)). apply (near_origin Sinh 2); [exact F|lra|lra|].
    rewrite Rabs_pos_eq by lra. assert (r ^ 2 <= 101 ^ 2) by (apply pow_incr; lra).
    apply Rle_trans with (/ 10 ^ 6 * 101 ^ 2); [apply Rmult_le_compat_l; lra|lra]. }
  pose proof rd_pos as P; pose proof (rd_small 1 ltac:(lia)) as Q; rewrite pow_1 in Q.
  cbn [ExactSolutionLin]; unfold shape_of. destruct (Rlt_dec 0 (/ 10 ^ 6)) as [_|K]; [|lra].
  assert (SB : value Sinh 0 1 (/ 10 ^ 6) rho_down <= 1).
  { rewrite (value_sol Sinh 2) by assumption. eapply Rle_trans; [apply V; lra|]. nra. }
  destruct (Rlt_dec (10 ^ 5 - value Sinh 0 1 (/ 10 ^ 6) rho_down) 0) as [K|_]; [lra|].
  destruct (Rlt_dec (/ 10 ^ 6) 0) as [K|_]; [lra|].
  set (f := fun rho => 10 ^ 5 - value Sinh 0 1 (/ 10 ^ 6) rho).
  destruct (widen_spec f 100 1) as [W _]; set (up := widen 100 f 1) in *.
  assert (I100 : INR 100 = 100) by (rewrite INR_IZR_INZ; reflexivity). rewrite I100 in W.
  assert (Br : rho_down <= bisect 150 f rho_down up 0 <= up) by (apply bisect_moves; lra).
  set (rho := bisect 150 f rho_down up 0) in *.
  exists rho, (slope Sinh 0 (10 ^ 5) 1 (/ 10 ^ 6) rho); split; [reflexivity|]; split; [lra|].
  rewrite (proj1 (U rho ltac:(lra))). eapply Rle_lt_trans; [apply V; lra|].
  assert (rho ^ 2 <= 101 ^ 2) by (apply pow_incr; lra). lra.
Qed.
