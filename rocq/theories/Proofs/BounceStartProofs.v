(** The first step of the bounce. *)
From Coq Require Import Reals Lra Lia Ranalysis5.
From Coquelicot Require Import Coquelicot.
From Verif Require Import Model.BounceStart Spec.BounceStartSpec Proofs.BesselSeries Proofs.BounceRolls.
Open Scope R_scope.

(** ** The closed forms *)
Definition sol (s : shape) (l0 c d : R) : R -> R :=
  match s with Sinh => Ph l0 c (sqrt (Rabs d)) | Sin => Ps l0 c (sqrt (Rabs d)) | _ => P3 l0 c d end.
Definition spd (s : shape) (c d : R) : R -> R :=
  match s with Sinh => Qh c (sqrt (Rabs d)) | Sin => Qs c (sqrt (Rabs d)) | _ => Q3 c d end.
Definition fits (s : shape) (alpha : nat) (d : R) : Prop :=
  match s with
  | Sinh => alpha = 2%nat /\ 0 < d | Sin => alpha = 2%nat /\ d < 0
  | BesI => alpha = 3%nat /\ 0 < d | BesJ => alpha = 3%nat /\ d < 0
  end.
Lemma shape_fits : forall alpha d, d <> 0 -> (alpha = 2%nat \/ alpha = 3%nat) -> exists s, shape_of alpha d = Some s /\ fits s alpha d.
Proof.
  intros alpha d D A; unfold shape_of; destruct (Rlt_dec 0 d) as [P|P].
  - destruct A as [->| ->]; eexists; split; try reflexivity; split; auto.
  - destruct (Rlt_dec d 0) as [N|N]; [|lra]. destruct A as [->| ->]; eexists; split; try reflexivity; split; auto.
Qed.
Lemma fits_nz : forall s alpha d, fits s alpha d -> d <> 0.
Proof. intros [] alpha d [_ H]; lra. Qed.
Lemma sqrt_facts : forall d, d <> 0 -> 0 < sqrt (Rabs d) /\ sqrt (Rabs d) * sqrt (Rabs d) = Rabs d.
Proof.
  intros d D; pose proof (Rabs_pos_lt d D); split; [apply sqrt_lt_R0; assumption|apply sqrt_sqrt; lra].
Qed.
Lemma I1 : forall x, BesselI 1 x = x / 2 * B 1 ((x / 2) ^ 2).
Proof. intros; unfold BesselI, B, bc; rewrite pow_1; reflexivity. Qed.
Lemma I0 : forall x, BesselI 0 x = B 0 ((x / 2) ^ 2).
Proof. intros; unfold BesselI, B, bc; rewrite pow_O, Rmult_1_l; reflexivity. Qed.
Lemma I2 : forall x, BesselI 2 x = (x / 2) ^ 2 * B 2 ((x / 2) ^ 2).
Proof. reflexivity. Qed.
Lemma J1 : forall x, BesselJ x = x / 2 * B 1 (- (x / 2) ^ 2).
Proof.
  intros; unfold BesselJ, B, PSeries; f_equal; apply Series_ext; intros m; unfold bc.
  rewrite Rmult_assoc; f_equal. replace (- (x / 2) ^ 2) with ((-1) * (x / 2) ^ 2) by ring.
  rewrite (Rpow_mult_distr (-1)); reflexivity.
Qed.
Lemma value_sol : forall s alpha l0 c d r, fits s alpha d -> 0 < r -> value s l0 c d r = sol s l0 c d r.
Proof.
  intros s alpha l0 c d r F R; pose proof (fits_nz s alpha d F) as D; destruct (sqrt_facts d D) as [K KK].
  destruct s; cbn [value sol] in *; unfold pow15; destruct F as [_ F].
  - unfold Ph; rewrite KK, (Rabs_pos_eq d) by lra.
    rewrite (Rabs_pos_eq d) in K by lra; field; lra.
  - unfold Ps; rewrite KK, (Rabs_left d) by lra.
    rewrite (Rabs_left d) in K by lra; field; lra.
  - unfold P3; rewrite I1. rewrite (Rabs_pos_eq d) in K, KK by lra.
    replace ((sqrt d * r / 2) ^ 2) with (d * r ^ 2 / 4) by (rewrite <- KK at 1; field).
    field; lra.
  - unfold P3; rewrite J1, (Rabs_left d) in * by lra.
    replace (- (sqrt (- d) * r / 2) ^ 2) with (d * r ^ 2 / 4) by (replace d with (- (sqrt (- d) * sqrt (- d))) at 1 by lra; field).
    field; lra.
Qed.
Lemma slope_spd : forall s alpha l0 l c d r, fits s alpha d -> s <> BesJ -> 0 < r -> slope s l0 l c d r = spd s c d r.
Proof.
  intros s alpha l0 l c d r F S R; pose proof (fits_nz s alpha d F) as D; destruct (sqrt_facts d D) as [K KK].
  destruct s; cbn [slope spd] in *; unfold pow15; destruct F as [_ F]; [| | |congruence].
  - rewrite (Rabs_pos_eq d) in * by lra. unfold Qh; rewrite KK; reflexivity.
  - unfold Qs; rewrite KK; reflexivity.
  - unfold Q3; rewrite I1, I0, I2; rewrite (Rabs_pos_eq d) in K, KK by lra.
    pose proof (B_equation 0 ((sqrt d * r / 2) ^ 2)) as E; cbn [INR] in E. rewrite <- E.
    replace ((sqrt d * r / 2) ^ 2) with (d * r ^ 2 / 4) by (rewrite <- KK at 1; field).
    field; lra.
Qed.
Lemma sol_rolls : forall s alpha l0 c d, fits s alpha d -> rolls alpha (fun l => c + (l - l0) * d) l0 (sol s l0 c d) (spd s c d).
Proof.
  intros s alpha l0 c d F; pose proof (fits_nz s alpha d F) as D; destruct (sqrt_facts d D) as [K KK].
  destruct s; cbn [sol spd]; destruct F as [-> F].
  - rewrite (Rabs_pos_eq d) in * by lra; pose proof (rolls_h l0 c (sqrt d) K) as H; rewrite KK in H; exact H.
  - rewrite (Rabs_left d) in * by lra; pose proof (rolls_s l0 c (sqrt (- d)) K) as H; rewrite KK, Ropp_involutive in H; exact H.
  - apply rolls3, D.
  - apply rolls3, D.
Qed.
Lemma sol_dl : forall s alpha l0 c d r, fits s alpha d -> 0 < r -> derivable_pt_lim (sol s l0 c d) r (spd s c d r).
Proof. intros s alpha l0 c d r F R; destruct (sol_rolls s alpha l0 c d F) as [[q H] _]; apply H, R. Qed.
Lemma value_dl : forall s alpha l0 c d r, fits s alpha d -> 0 < r -> derivable_pt_lim (value s l0 c d) r (spd s c d r).
Proof.
  intros s alpha l0 c d r F R eps He; destruct (sol_dl s alpha l0 c d r F R eps He) as [de W].
  assert (P : 0 < Rmin de (r / 2)) by (apply Rmin_pos; [apply cond_pos|lra]).
  exists (mkposreal _ P); intros h Hh Hl; cbn in Hl.
  pose proof (Rmin_l de (r / 2)); pose proof (Rmin_r de (r / 2)).
  assert (Q : Rabs h < r / 2) by lra; apply Rabs_def2 in Q.
  rewrite !(value_sol s alpha) by (assumption || lra); apply W; [exact Hh|lra].
Qed.

(** ** Bisection *)
Lemma root_between : forall (f : R -> R) a b, a < b -> (forall x, a <= x <= b -> continuity_pt f x) -> 0 <= f a -> f b <= 0 ->
  exists x, a <= x <= b /\ f x = 0.
Proof.
  intros f a b L C A Bb.
  destruct A as [A|A]; [|exists a; split; [lra|auto]].
  destruct Bb as [Bb|Bb]; [|exists b; split; [lra|auto]].
  destruct (IVT_interv (fun x => - f x) a b) as [z [Z E]]; try lra.
  - intros x X; apply continuity_pt_opp, C, X.
  - exists z; split; [exact Z|lra].
Qed.
Lemma bisect_root : forall f n a b m, 0 < a < b -> (forall x, 0 < x -> continuity_pt f x) -> 0 <= f a -> f b <= 0 ->
  b - a <= 2 ^ n * / 10 ^ 10 -> (/ 10 ^ 10 < b - a \/ m = a \/ m = b) ->
  exists x, a <= x <= b /\ f x = 0 /\ Rabs (bisect n f a b m - x) <= / 10 ^ 10 /\ a <= bisect n f a b m <= b.
Proof.
  assert (Last : forall f a b m, 0 < a < b -> (forall x, 0 < x -> continuity_pt f x) -> 0 <= f a -> f b <= 0 ->
    b - a <= / 10 ^ 10 -> m = a \/ m = b -> exists x, a <= x <= b /\ f x = 0 /\ Rabs (m - x) <= / 10 ^ 10 /\ a <= m <= b).
  { intros f a b m L C A Bb W M.
    destruct (root_between f a b) as [x [X E]]; try lra; [intros x X; apply C; lra|].
    exists x; split; [exact X|split; [exact E|]]; split; [|destruct M; lra].
    unfold Rabs; destruct (Rcase_abs (m - x)); destruct M; lra. }
  induction n as [|n IH]; intros a b m L C A Bb W M.
  - rewrite pow_O in W; cbn [bisect]; apply Last; try assumption; [lra|]. destruct M as [M|M]; [lra|exact M].
  - cbn [bisect]; destruct (Rlt_dec (/ 10 ^ 10) (b - a)) as [G|G].
    + assert (W' : b - a <= 2 * (2 ^ n * / 10 ^ 10)) by (rewrite <- Rmult_assoc; exact W).
      destruct (Rlt_dec 0 (f ((b + a) / 2))) as [P|P].
      * destruct (IH ((b + a) / 2) b ((b + a) / 2)) as (x & X & E & Y & Z); try assumption; try lra; try (right; left; reflexivity).
        exists x; repeat split; try assumption; lra.
      * destruct (IH a ((b + a) / 2) ((b + a) / 2)) as (x & X & E & Y & Z); try assumption; try lra; try (right; right; reflexivity).
        exists x; repeat split; try assumption; lra.
    + apply Last; try assumption; [lra|]. destruct M as [M|M]; [lra|exact M].
Qed.
Lemma bisect_range : forall f n a b m, a < b -> a <= m <= b -> a <= bisect n f a b m <= b.
Proof.
  induction n as [|n IH]; intros a b m L M; cbn [bisect]; [exact M|].
  destruct (Rlt_dec (/ 10 ^ 10) (b - a)); [|exact M].
  destruct (Rlt_dec 0 (f ((b + a) / 2))).
  - pose proof (IH ((b + a) / 2) b ((b + a) / 2) ltac:(lra) ltac:(lra)); lra.
  - pose proof (IH a ((b + a) / 2) ((b + a) / 2) ltac:(lra) ltac:(lra)); lra.
Qed.
Lemma widen_spec : forall f n up, up <= widen n f up <= up + INR n /\ (f (widen n f up) <= 0 \/ widen n f up = up + INR n).
Proof.
  induction n as [|n IH]; intros up; cbn [widen].
  - split; [cbn; lra|right; cbn; lra].
  - destruct (Rlt_dec 0 (f up)) as [P|P].
    + destruct (IH (up + 1)) as [X Y]; rewrite S_INR; split; [lra|]. destruct Y as [Y|Y]; [left; exact Y|right; lra].
    + split; [rewrite S_INR; pose proof (pos_INR n); lra|left; lra].
Qed.

(** ** Bounds of the solutions *)
Lemma near_origin : forall s alpha l0 c d r, fits s alpha d -> 0 < c -> 0 < r -> Rabs d * r ^ 2 <= 1 / 4 -> sol s l0 c d r <= l0 + 2 * c * r ^ 2.
Proof.
  intros s alpha l0 c d r F Cp R W; pose proof (fits_nz s alpha d F) as D; destruct (sqrt_facts d D) as [K KK].
  assert (Two : s = Sinh \/ s = Sin -> 0 < r < / sqrt (Rabs d)).
  { intros _; split; [exact R|]. rewrite <- KK in W. apply (Rmult_lt_reg_l (sqrt (Rabs d))); [exact K|].
    rewrite Rinv_r by lra. set (k := sqrt (Rabs d)) in *.
    assert ((k * r) * (k * r) <= 1 / 4) by (replace (k * r * (k * r)) with (k * k * r ^ 2) by ring; exact W).
    destruct (Rlt_dec (k * r) 1) as [G|G]; [exact G|nra]. }
  assert (Three : P3 l0 c d r <= l0 + 2 * c * r ^ 2).
  { unfold P3; set (z := d * r ^ 2 / 4).
    assert (Az : Rabs z = Rabs d * r ^ 2 / 4).
    { unfold z, Rdiv; rewrite !Rabs_mult, (Rabs_pos_eq (/ 4)) by lra; rewrite (Rabs_pos_eq (r ^ 2)) by apply pow2_ge_0; reflexivity. }
    assert (Nz : Rabs z <= 1) by lra.
    pose proof (B1_near z Nz) as X.
    enough (c / d * (B 1 z - 1) <= 2 * c * r ^ 2) by lra.
    apply Rle_trans with (Rabs (c / d * (B 1 z - 1))); [apply Rle_abs|].
    rewrite Rabs_mult; unfold Rdiv; rewrite Rabs_mult, Rabs_inv, (Rabs_pos_eq c) by lra.
    pose proof (Rabs_pos_lt d D) as A.
    apply Rle_trans with (c * / Rabs d * (3 * Rabs z)).
    - apply Rmult_le_compat_l; [|exact X]. apply Rmult_le_pos; [lra|]. apply Rlt_le, Rinv_0_lt_compat, A.
    - rewrite Az. replace (c * / Rabs d * (3 * (Rabs d * r ^ 2 / 4))) with (3 / 4 * (c * r ^ 2)) by (field; lra).
      assert (0 <= c * r ^ 2) by (apply Rmult_le_pos; [lra|apply pow2_ge_0]). lra. }
  assert (0 <= c * r ^ 2) by (apply Rmult_le_pos; [lra|apply pow2_ge_0]).
  destruct s; cbn [sol]; try exact Three.
  - destruct (Ph_near l0 c _ K r (Two (or_introl eq_refl))) as [X _].
    rewrite (Rabs_pos_eq c) in X by lra. pose proof (Rle_abs (Ph l0 c (sqrt (Rabs d)) r - l0)). lra.
  - destruct (Ps_near l0 c _ K r (Two (or_intror eq_refl))) as [X _].
    rewrite (Rabs_pos_eq c) in X by lra. pose proof (Rle_abs (Ps l0 c (sqrt (Rabs d)) r - l0)). lra.
Qed.
Lemma reaches_far : forall s alpha l0 c d r, fits s alpha d -> 0 < d -> 0 < c -> 0 < r -> l0 + c * r ^ 2 / 8 <= sol s l0 c d r.
Proof.
  intros s alpha l0 c d r F Dp Cp R; pose proof (fits_nz s alpha d F) as D; destruct (sqrt_facts d D) as [K KK].
  assert (0 <= c * r ^ 2) by (apply Rmult_le_pos; [lra|apply pow2_ge_0]).
  assert (Three : l0 + c * r ^ 2 / 8 <= P3 l0 c d r).
  { unfold P3. assert (Z : 0 <= d * r ^ 2 / 4) by (pose proof (pow2_ge_0 r); nra).
    pose proof (B1_lower _ Z) as X.
    assert (Y : c / d * (d * r ^ 2 / 4 / 2) <= c / d * (B 1 (d * r ^ 2 / 4) - 1)).
    { apply Rmult_le_compat_l; [apply Rlt_le, Rdiv_lt_0_compat; assumption|lra]. }
    replace (c / d * (d * r ^ 2 / 4 / 2)) with (c * r ^ 2 / 8) in Y by (field; exact D). lra. }
  destruct s; cbn [sol]; try exact Three.
  - pose proof (Ph_lower l0 c _ K r R ltac:(lra)); lra.
  - destruct F; lra.
Qed.

(** the solution for d < 0 passes l0 + c / |d| before the end of the search *)
Definition last_rho (alpha : nat) (d : R) : R := (if Nat.eqb alpha 2 then 4.493409457909 else 5.13562230184068) / sqrt (Rabs d).
Definition tt (y : R) (k : nat) : R := bc 1 (k + 2) * y ^ k.
Lemma tt_step : forall y k, tt y (S k) = tt y k * (y / ((INR k + 4) * (INR k + 3))).
Proof.
  intros y k; unfold tt, bc.
  replace (S k + 2 + 1)%nat with (S (S (S (S k)))) by lia; replace (S k + 2)%nat with (S (S (S k))) by lia.
  replace (k + 2 + 1)%nat with (S (S (S k))) by lia; replace (k + 2)%nat with (S (S k)) by lia.
  rewrite !fS, !S_INR; cbn [pow].
  pose proof (fpos k); pose proof (pos_INR k); field; repeat split; lra.
Qed.
Lemma tt_pos : forall y k, 0 <= y -> 0 <= tt y k.
Proof. intros y k Y; unfold tt; apply Rmult_le_pos; [apply Rlt_le, bc_pos|apply pow_le, Y]. Qed.
Lemma B1_alternating : forall y, 0 <= y <= 12 -> B 1 (- y) <= 1 - y / 2 + y ^ 2 * (tt y 0 - tt y 1 + tt y 2 - tt y 3 + tt y 4).
Proof.
  intros y Y; unfold B.
  rewrite (PSeries_decr_n (bc 1) 1) by apply bc_ex.
  replace (sum_f_R0 (fun k => bc 1 k * (- y) ^ k) 1) with (1 - y / 2) by (cbn; unfold bc; cbn; field).
  replace ((- y) ^ 2) with (y ^ 2) by ring.
  apply Rplus_le_compat_l, Rmult_le_compat_l; [apply pow2_ge_0|].
  destruct (Req_dec y 0) as [->|N].
  { rewrite Ropp_0, PSeries_0; unfold PS_decr_n, tt; cbn [Nat.add]; rewrite ?pow_O; cbn [pow]; lra. }
  assert (E : ex_pseries (PS_decr_n (bc 1) 2) (- y)).
  { apply ex_pseries_decr_n; [|apply bc_ex]. right; exists (/ (- y)); unfold mult, one; cbn; field; exact N. }
  apply PSeries_correct, is_pseries_R in E.
  set (S := PSeries (PS_decr_n (bc 1) 2) (- y)) in *.
  assert (Cv : Un_cv (fun N => sum_f_R0 (tg_alt (tt y)) N) S).
  { apply is_lim_seq_Reals; unfold is_series in E.
    apply (is_lim_seq_ext (sum_n (fun n => PS_decr_n (bc 1) 2 n * (- y) ^ n))); [|exact E].
    intros n; rewrite sum_n_Reals; apply sum_eq; intros i _; unfold tg_alt, tt, PS_decr_n.
    replace (- y) with ((-1) * y) by ring; rewrite Rpow_mult_distr, (Nat.add_comm i 2); ring. }
  assert (Z : Un_cv (tt y) 0).
  { apply is_lim_seq_Reals. 
    assert (L : is_lim_seq (fun n => PS_decr_n (bc 1) 2 n * (- y) ^ n) 0) by (apply ex_series_lim_0; exists S; exact E).
    apply is_lim_seq_abs_0 in L || apply (is_lim_seq_abs_0 (fun n => PS_decr_n (bc 1) 2 n * (- y) ^ n)) in L.
    apply (is_lim_seq_ext (fun n => Rabs (PS_decr_n (bc 1) 2 n * (- y) ^ n))); [|exact L].
    intros n; unfold PS_decr_n, tt; rewrite Rabs_mult, <- RPow_abs, Rabs_Ropp, (Rabs_pos_eq y), (Rabs_pos_eq (bc _ _)) by (try apply Rlt_le, bc_pos; lra).
    rewrite (Nat.add_comm n 2); reflexivity. }
  assert (De : Un_decreasing (tt y)).
  { intros k; rewrite tt_step; rewrite <- (Rmult_1_r (tt y k)) at 2; apply Rmult_le_compat_l; [apply tt_pos; lra|].
    pose proof (pos_INR k). apply (Rmult_le_reg_r ((INR k + 4) * (INR k + 3))); [nra|].
    unfold Rdiv; rewrite Rmult_assoc, Rinv_l by nra; nra. }
  pose proof (alternated_series_ineq (tt y) S 2 De Z Cv) as [_ U].
  eapply Rle_trans; [exact U|]. right; cbn [Nat.mul Nat.add sum_f_R0]; unfold tg_alt; cbn [pow]; ring.
Qed.
Lemma B1_far : B 1 (- (5.13562230184068 / 2) ^ 2) <= 0.
Proof.
  eapply Rle_trans; [apply B1_alternating; lra|].
  unfold tt, bc; cbn; lra.
Qed.
Lemma far_negative : forall s alpha l0 c d, fits s alpha d -> d < 0 -> 0 < c -> l0 + c / Rabs d <= sol s l0 c d (last_rho alpha d).
Proof.
  intros s alpha l0 c d F Dn Cp; pose proof (fits_nz s alpha d F) as D; destruct (sqrt_facts d D) as [K KK].
  destruct s; destruct F as [-> F]; try lra; cbn [sol]; unfold last_rho; cbn [Nat.eqb]; set (k := sqrt (Rabs d)) in *.
  - unfold Ps; replace (k * (4.493409457909 / k)) with 4.493409457909 by (field; lra).
    assert (Sn : sin 4.493409457909 <= 0) by (pose proof PI_4; pose proof PI2_3_2; apply sin_le_0; lra).
    rewrite <- KK. replace (k * k * k * (4.493409457909 / k)) with (k * k * 4.493409457909) by (field; lra).
    assert (0 < k * k) by nra.
    assert (0 <= c * - sin 4.493409457909 / (k * k * 4.493409457909)).
    { apply Rmult_le_pos; [nra|]. apply Rlt_le, Rinv_0_lt_compat; lra. }
    replace (c * sin 4.493409457909 / (k * k * 4.493409457909)) with (- (c * - sin 4.493409457909 / (k * k * 4.493409457909))) by (field; lra).
    lra.
  - unfold P3. replace (d * (5.13562230184068 / k) ^ 2 / 4) with (- (5.13562230184068 / 2) ^ 2).
    2:{ replace d with (- (k * k)) at 1 by (rewrite KK, Rabs_left; lra). field; lra. }
    pose proof B1_far as X; set (b := B 1 (- (5.13562230184068 / 2) ^ 2)) in *.
    rewrite (Rabs_left d) by lra.
    replace (c / d * (b - 1)) with (c / - d + c / - d * - b) by (field; lra).
    assert (0 < c / - d) by (apply Rdiv_lt_0_compat; lra). nra.
Qed.

Lemma rd_pos : 0 < rho_down.
Proof. apply Rinv_0_lt_compat, pow_lt; lra. Qed.
Lemma rd_small : forall n, (n <= 100)%nat -> rho_down <= / 10 ^ n.
Proof. intros n N; apply Rinv_le_contravar; [apply pow_lt; lra|apply Rle_pow; [lra|exact N]]. Qed.
Lemma rd_sq : rho_down ^ 2 = / 10 ^ 200.
Proof. unfold rho_down; rewrite pow_inv, <- pow_mult; reflexivity. Qed.

(** the speed that comes with the position *)
Definition good_speed (s : shape) (phi' : R -> R) (rho v : R) : Prop :=
  (s <> BesJ -> v = phi' rho) /\ (1 / 1000 < rho -> exists r, Rabs (r - rho) <= 1 / 1000 /\ v = phi' r).
Lemma slope_good : forall s alpha l0 l c d rho, fits s alpha d -> 0 < rho -> good_speed s (spd s c d) rho (slope s l0 l c d rho).
Proof.
  intros s alpha l0 l c d rho F R; split; [intros S; apply (slope_spd s alpha); assumption|]; intros G.
  destruct s.
  1, 2, 3: exists rho; split; [rewrite Rminus_eq_0, Rabs_R0; lra|eapply slope_spd; [exact F|discriminate|exact R]].
  cbn [slope].
  destruct (MVT_gen (value BesJ l0 c d) (rho - 1 / 1000) (rho + 1 / 1000) (spd BesJ c d)) as [x [X E]].
  - intros x X; rewrite Rmin_left, Rmax_right in X by lra; apply is_derive_Reals, (value_dl BesJ alpha); [exact F|lra].
  - intros x X; rewrite Rmin_left, Rmax_right in X by lra; apply derivable_continuous_pt.
    exists (spd BesJ c d x); apply (value_dl BesJ alpha); [exact F|lra].
  - rewrite Rmin_left, Rmax_right in X by lra; exists x; split; [apply Rabs_le; lra|].
    set (u := value BesJ l0 c d (rho + 1 / 1000)) in *; set (w := value BesJ l0 c d (rho - 1 / 1000)) in *.
    replace (- (l - u - (l - w)) / (2 / 1000)) with ((u - w) / (2 / 1000)) by field. rewrite E; field.
Qed.

Lemma finish_ok : forall s alpha l0 l c d up, fits s alpha d ->
  let f := fun rho => l - value s l0 c d rho in
  0 <= f rho_down -> f up <= 0 -> / 10 ^ 9 <= up <= 2 ^ 150 * / 10 ^ 10 ->
  let rho := bisect 150 f rho_down up 0 in
  exists rs, 0 < rs /\ sol s l0 c d rs = l /\ Rabs (rho - rs) <= / 10 ^ 10 /\ 0 < rho.
Proof.
  intros s alpha l0 l c d up F f A U W rho.
  pose proof rd_pos as P; pose proof (rd_small 10 ltac:(lia)) as Q.
  assert (T : / 10 ^ 9 = 10 * / 10 ^ 10) by (replace (10 ^ 10) with (10 * 10 ^ 9) by reflexivity; rewrite Rinv_mult; field; apply pow_nonzero; lra).
  assert (T0 : 0 < / 10 ^ 10) by (apply Rinv_0_lt_compat, pow_lt; lra).
  destruct (bisect_root f 150 rho_down up 0) as (x & X & E & Y & Z).
  - lra.
  - intros x X; unfold f; apply continuity_pt_minus; [apply continuity_pt_const; intros ? ?; reflexivity|].
    apply derivable_continuous_pt; exists (spd s c d x); apply (value_dl s alpha); assumption.
  - exact A.
  - exact U.
  - lra.
  - left; lra.
  - exists x; split; [lra|split; [|split; [exact Y|unfold rho; lra]]].
    rewrite <- (value_sol s alpha) by (assumption || lra). unfold f in E; lra.
Qed.

(** ** ExactSolutionLin *)
Section Lin.
  Variables (alpha : nat) (L l0 c d : R).
  Hypothesis AL : alpha = 2%nat \/ alpha = 3%nat.
  Hypothesis LP : 0 < L.
  Hypothesis CP : 0 < c <= 10 ^ 150 * L.
  Hypothesis DD : / 10 ^ 60 <= Rabs d <= 10 ^ 18.
  Lemma d_nz : d <> 0.
  Proof using DD.
    intros E; rewrite E, Rabs_R0 in DD. assert (0 < / 10 ^ 60) by (apply Rinv_0_lt_compat, pow_lt; lra). lra.
  Qed.
  Lemma pow_split : forall a b, / 10 ^ (a + b) = / 10 ^ a * / 10 ^ b.
  Proof. intros; rewrite pow_add, Rinv_mult; reflexivity. Qed.
  Lemma pin : forall n, 10 ^ n * / 10 ^ n = 1.
  Proof. intros; apply Rinv_r, pow_nonzero; lra. Qed.
  Lemma start_below : forall s l, fits s alpha d -> L / 10 ^ 11 <= l - l0 -> value s l0 c d rho_down <= l.
  Proof using AL CP DD LP.
    intros s l F H; rewrite (value_sol s alpha) by (exact F || apply rd_pos).
    eapply Rle_trans; [apply (near_origin s alpha); [exact F|lra|apply rd_pos|]|].
    - rewrite rd_sq. apply Rle_trans with (10 ^ 18 * / 10 ^ 200).
      + apply Rmult_le_compat_r; [apply Rlt_le, Rinv_0_lt_compat, pow_lt; lra|lra].
      + change 200%nat with (18 + 182)%nat; rewrite pow_split, <- Rmult_assoc, pin, Rmult_1_l.
        apply Rle_trans with (/ 10 ^ 1); [apply Rinv_le_contravar; [apply pow_lt; lra|apply Rle_pow; [lra|lia]]|rewrite pow_1; lra].
    - rewrite rd_sq.
      assert (X : c * / 10 ^ 200 <= L * / 10 ^ 50).
      { apply Rle_trans with (10 ^ 150 * L * / 10 ^ 200).
        - apply Rmult_le_compat_r; [apply Rlt_le, Rinv_0_lt_compat, pow_lt; lra|lra].
        - change 200%nat with (150 + 50)%nat; rewrite pow_split.
          replace (10 ^ 150 * L * (/ 10 ^ 150 * / 10 ^ 50)) with ((10 ^ 150 * / 10 ^ 150) * (L * / 10 ^ 50)) by ring. rewrite pin; lra. }
      assert (Y : L * / 10 ^ 50 <= L / 10 ^ 11 * / 10).
      { unfold Rdiv; rewrite Rmult_assoc; apply Rmult_le_compat_l; [lra|].
        replace (/ 10 ^ 11 * / 10) with (/ 10 ^ 12) by (change 12%nat with (11 + 1)%nat; rewrite pow_split, pow_1; reflexivity).
        apply Rinv_le_contravar; [apply pow_lt; lra|apply Rle_pow; [lra|lia]]. }
      assert (0 < L / 10 ^ 11) by (apply Rdiv_lt_0_compat; [exact LP|apply pow_lt; lra]).
      lra.
  Qed.
  Lemma last_range : / 10 ^ 9 <= last_rho alpha d <= 2 ^ 150 * / 10 ^ 10.
  Proof using AL DD.
    pose proof d_nz as D; destruct (sqrt_facts d D) as [K KK]; unfold last_rho; set (k := sqrt (Rabs d)) in *.
    assert (N : 4 <= (if Nat.eqb alpha 2 then 4.493409457909 else 5.13562230184068) <= 6) by (destruct AL as [->| ->]; cbn [Nat.eqb]; lra).
    set (q := if Nat.eqb alpha 2 then 4.493409457909 else 5.13562230184068) in *.
    assert (Ku : k <= 10 ^ 9).
    { assert (H : k * k <= 10 ^ 9 * 10 ^ 9) by (rewrite KK, <- pow_add; exact (proj2 DD)).
      pose proof (pow_lt 10 9 ltac:(lra)). nra. }
    assert (Kl : / 10 ^ 30 <= k).
    { assert (H : / 10 ^ 30 * / 10 ^ 30 <= k * k) by (rewrite KK, <- pow_split; exact (proj1 DD)).
      pose proof (Rinv_0_lt_compat _ (pow_lt 10 30 ltac:(lra))). nra. }
    split.
    - apply Rle_trans with (/ k); [apply Rinv_le_contravar; assumption|].
      unfold Rdiv; pose proof (Rinv_0_lt_compat _ K); nra.
    - assert (/ k <= 10 ^ 30).
      { rewrite <- (Rinv_inv (10 ^ 30)). apply Rinv_le_contravar; [apply Rinv_0_lt_compat, pow_lt; lra|exact Kl]. }
      apply Rle_trans with (6 * 10 ^ 30).
      + unfold Rdiv; pose proof (Rinv_0_lt_compat _ K). apply Rmult_le_compat; lra.
      + apply (Rmult_le_reg_r (10 ^ 10)); [apply pow_lt; lra|].
        rewrite (Rmult_assoc (2 ^ 150)), Rinv_l by (apply pow_nonzero; lra).
        lra.
  Qed.

  Definition outcome_ok (fuel : nat) (l : R) (r : start) : Prop :=
    match r with
    | Start rho lr v => exists s n rs, fits s alpha d /\ lr = l0 + (l - l0) / 10 ^ n /\
        (0 < d \/ l - l0 <= c / Rabs d -> n = 0%nat) /\
        0 < rs /\ sol s l0 c d rs = lr /\ Rabs (rho - rs) <= / 10 ^ 10 /\ 0 < rho /\ good_speed s (spd s c d) rho v
    | IntegrationFailed => d < 0 /\ c / Rabs d < L / 10 ^ 10
    | StartOutOfFuel => (d < 0 /\ c / Rabs d < l - l0) /\ (l - l0) / L >= / 10 ^ 10 * 10 ^ (pred fuel) \/ fuel = O
    | _ => False
    end.
  Lemma lin_ok : forall fuel l, L / 10 ^ 11 <= l - l0 -> (0 < d -> l - l0 <= c * 101 ^ 2 / 8) ->
    outcome_ok fuel l (ExactSolutionLin fuel alpha L l0 l c d).
  Proof using AL LP CP DD.
    induction fuel as [|fuel IH]; intros l Hl Hf; cbn [ExactSolutionLin]; [right; reflexivity|].
    destruct (shape_fits alpha d d_nz AL) as (s & Es & F); rewrite Es.
    pose proof (start_below s l F Hl) as SB.
    destruct (Rlt_dec (l - value s l0 c d rho_down) 0) as [G|_]; [lra|].
    assert (Fin : forall up, l - value s l0 c d up <= 0 -> / 10 ^ 9 <= up <= 2 ^ 150 * / 10 ^ 10 ->
      outcome_ok (S fuel) l (let rho := bisect 150 (fun rho => l - value s l0 c d rho) rho_down up 0 in Start rho l (slope s l0 l c d rho))).
    { intros up U W. destruct (finish_ok s alpha l0 l c d up F ltac:(cbn beta; lra) U W) as (rs & R1 & R2 & R3 & R4).
      exists s, 0%nat, rs; split; [exact F|]; rewrite pow_O. repeat split; try assumption; try (field; fail); try reflexivity.
      - intros N; apply (slope_good s alpha l0 l c d); assumption.
      - intros N; apply (slope_good s alpha l0 l c d); assumption. }
    destruct (Rlt_dec d 0) as [Dn|Dn].
    - change ((if Nat.eqb alpha 2 then 4.493409457909 else 5.13562230184068) / sqrt (Rabs d)) with (last_rho alpha d).
      pose proof last_range as LR.
      assert (LRp : 0 < last_rho alpha d) by (pose proof (Rinv_0_lt_compat _ (pow_lt 10 9 ltac:(lra))); lra).
      pose proof (far_negative s alpha l0 c d F Dn (proj1 CP)) as FN.
      rewrite <- (value_sol s alpha) in FN by assumption.
      destruct (Rlt_dec 0 (l - value s l0 c d (last_rho alpha d))) as [G|G]; [|apply Fin; [lra|exact LR]].
      assert (Pl : 0 < l - l0) by (assert (0 < L / 10 ^ 11) by (apply Rdiv_lt_0_compat; [exact LP|apply pow_lt; lra]); lra).
      assert (Ab : Rabs ((l - l0) / L) = (l - l0) / L) by (apply Rabs_pos_eq, Rlt_le, Rdiv_lt_0_compat; assumption).
      rewrite Ab; destruct (Rlt_dec ((l - l0) / L) (/ 10 ^ 10)) as [Sm|Sm].
      + split; [exact Dn|]. apply Rlt_trans with (l - l0); [lra|].
        apply (Rmult_lt_reg_r (/ L)); [apply Rinv_0_lt_compat, LP|]. unfold Rdiv in *.
        rewrite (Rmult_comm L), Rmult_assoc, Rinv_r, Rmult_1_r by lra. exact Sm.
      + assert (Hn : L / 10 ^ 11 <= l0 + (l - l0) / 10 - l0).
        { apply Rnot_lt_le in Sm. change 11%nat with (1 + 10)%nat.
          apply (Rmult_le_compat_r L) in Sm; [|lra]. unfold Rdiv in *; rewrite pow_split, pow_1.
          replace ((l - l0) * / L * L) with (l - l0) in Sm by (field; lra). lra. }
        pose proof (IH (l0 + (l - l0) / 10) Hn ltac:(lra)) as H.
        destruct (ExactSolutionLin fuel alpha L l0 (l0 + (l - l0) / 10) c d) as [rho lr v| | | |] eqn:Er; cbn [outcome_ok] in *; try exact H.
        * destruct H as (s' & n & rs & F' & El & Hn0 & Rest).
          exists s', (S n), rs; split; [exact F'|]; split; [|split; [lra|exact Rest]].
          rewrite El; cbn [pow]. field. apply pow_nonzero; lra.
        * left; destruct H as [[[_ H1] H2]| ->].
          -- split; [split; [exact Dn|lra]|]. cbn [pred]. destruct fuel as [|fuel]; [rewrite pow_O, Rmult_1_r; lra|].
             cbn [pred] in H2. replace ((l - l0) / L) with (10 * ((l0 + (l - l0) / 10 - l0) / L)) by (field; lra). cbn [pow]. lra.
          -- split; [split; [exact Dn|lra]|]. cbn [pred]; rewrite pow_O, Rmult_1_r; lra.
    - assert (Dp : 0 < d) by (pose proof d_nz; lra).
      destruct (widen_spec (fun rho => l - value s l0 c d rho) 100 1) as [W1 W2]; set (up := widen 100 (fun rho => l - value s l0 c d rho) 1) in *.
      assert (I100 : INR 100 = 100) by (rewrite INR_IZR_INZ; reflexivity). rewrite I100 in *.
      apply Fin.
      + destruct W2 as [W2|W2]; [exact W2|]. rewrite W2.
        pose proof (reaches_far s alpha l0 c d (1 + 100) F Dp (proj1 CP) ltac:(lra)) as RF.
        rewrite <- (value_sol s alpha) in RF by (exact F || lra). pose proof (Hf Dp). replace (1 + 100) with 101 in * by lra. lra.
      + split.
        * apply Rle_trans with 1; [|lra]. rewrite <- Rinv_1; apply Rinv_le_contravar; [lra|]. apply pow_R1_Rle; lra.
        * apply Rle_trans with 101; [lra|]. apply (Rmult_le_reg_r (10 ^ 10)); [apply pow_lt; lra|].
          rewrite (Rmult_assoc (2 ^ 150)), Rinv_l by (apply pow_nonzero; lra). lra.
  Qed.
End Lin.
