(** Proofs about the gravitational wave spectrum and the wall velocity. *)
From Coq Require Import Reals List Lra Lia Psatz.
Import ListNotations.
From Verif.Model Require Import GW.
Open Scope R_scope.

(** ** powers *)
Lemma cpow_pos x y : 0 < x -> cpow x y = Rpower x y.
Proof. intro H. unfold cpow. destruct (Rlt_dec 0 x); [reflexivity|contradiction]. Qed.
Lemma cpow_gt0 x y : 0 < x -> 0 < cpow x y.
Proof. intro H. rewrite cpow_pos by exact H. apply exp_pos. Qed.
Lemma cpow_ge0 x y : 0 <= cpow x y.
Proof. unfold cpow. destruct (Rlt_dec 0 x); [apply Rlt_le, exp_pos|lra]. Qed.
Lemma Rpower_lt1 x y : 0 < x -> x < 1 -> 0 < y -> Rpower x y < 1.
Proof.
  intros Hx H1 Hy. unfold Rpower. rewrite <- exp_0. apply exp_increasing.
  assert (ln x < 0) by (rewrite <- ln_1; now apply ln_increasing). nra.
Qed.
Lemma Rpower_base_le x y a : 0 < x -> x <= y -> 0 <= a -> Rpower x a <= Rpower y a.
Proof. intros. apply Rle_Rpower_l; [assumption|]. now split. Qed.
Lemma Rpower_1_l a : Rpower 1 a = 1.
Proof. unfold Rpower. now rewrite ln_1, Rmult_0_r, exp_0. Qed.
(** x^(-7/2) as the seventh power of 1/sqrt x *)
Lemma Rpower_m7_2 x : 0 < x -> Rpower x (- (7 / 2)) = (/ sqrt x) ^ 7.
Proof.
  intro H. rewrite Rpower_Ropp. rewrite pow_inv. f_equal.
  rewrite <- (Rpower_pow 7 (sqrt x)) by now apply sqrt_lt_R0.
  rewrite <- Rpower_sqrt by exact H. rewrite Rpower_mult. f_equal. cbn. lra.
Qed.

(** ** C31: the sound wave shape *)
Lemma poly_factor t : (4 + 3 * t) ^ 7 - 7 ^ 7 * t ^ 3 =
  (t - 1) ^ 2 * (16384 + 118784 * t + 414720 * t ^ 2 + 129033 * t ^ 3 + 24786 * t ^ 4 + 2187 * t ^ 5).
Proof. ring. Qed.

Definition shape (x : R) : R := cpow (4 / 7) (- (7 / 2)) * x ^ 3 * cpow (1 + 3 / 4 * x ^ 2) (- (7 / 2)).
(** the same without roots: its square is x^6 * (7/(4+3x^2))^7 *)
Lemma shape_sq x : shape x * shape x = x ^ 6 * 7 ^ 7 / (4 + 3 * x ^ 2) ^ 7.
Proof.
  assert (P : 0 <= x ^ 2) by apply pow2_ge_0. unfold shape.
  rewrite !cpow_pos by lra. rewrite !Rpower_m7_2 by lra.
  set (a := / sqrt (4 / 7)). set (b := / sqrt (1 + 3 / 4 * x ^ 2)).
  assert (A : a * a = 7 / 4). { unfold a. rewrite <- Rinv_mult, sqrt_sqrt by lra. field. }
  assert (B : b * b = / (1 + 3 / 4 * x ^ 2)). { unfold b. rewrite <- Rinv_mult, sqrt_sqrt by lra. reflexivity. }
  replace (a ^ 7 * x ^ 3 * b ^ 7 * (a ^ 7 * x ^ 3 * b ^ 7)) with ((a * a) ^ 7 * x ^ 6 * (b * b) ^ 7) by ring.
  rewrite A, B. rewrite pow_inv.
  replace (1 + 3 / 4 * x ^ 2) with ((4 + 3 * x ^ 2) / 4) by field. field. nra.
Qed.
Lemma shape_nonneg x : 0 <= x -> 0 <= shape x.
Proof.
  intro H. unfold shape. apply Rmult_le_pos; [apply Rmult_le_pos|]; [apply cpow_ge0|now apply pow_le|apply cpow_ge0].
Qed.
Lemma shape_sq_le x : 0 <= x -> shape x * shape x <= 1 /\ (shape x * shape x = 1 -> x = 1).
Proof.
  intro H. rewrite shape_sq. set (t := x ^ 2). assert (T : 0 <= t) by apply pow2_ge_0.
  replace (x ^ 6) with (t ^ 3) by (unfold t; ring).
  assert (D : 0 < (4 + 3 * t) ^ 7) by (apply pow_lt; lra).
  pose proof (poly_factor t) as F.
  set (q := 16384 + 118784 * t + 414720 * t ^ 2 + 129033 * t ^ 3 + 24786 * t ^ 4 + 2187 * t ^ 5) in *.
  assert (Q : 0 < q).
  { unfold q. pose proof (pow_le t 2 T). pose proof (pow_le t 3 T). pose proof (pow_le t 4 T). pose proof (pow_le t 5 T). lra. }
  assert (S : 0 <= (t - 1) ^ 2) by apply pow2_ge_0.
  split.
  - apply Rmult_le_reg_r with ((4 + 3 * t) ^ 7); [exact D|].
    unfold Rdiv. rewrite Rmult_assoc, Rinv_l, Rmult_1_r, Rmult_1_l by lra. nra.
  - intro E. assert (E' : t ^ 3 * 7 ^ 7 = (4 + 3 * t) ^ 7).
    { apply Rmult_eq_reg_r with (/ (4 + 3 * t) ^ 7); [|apply Rinv_neq_0_compat; lra]. rewrite Rinv_r by lra. exact E. }
    assert (Z : (t - 1) ^ 2 * q = 0) by lra.
    apply Rmult_integral in Z as [Z|Z]; [|lra].
    assert (t = 1) by nra. unfold t in *. nra.
Qed.
Lemma shape_le x : 0 <= x -> shape x <= 1.
Proof. intro H. pose proof (shape_nonneg x H). destruct (shape_sq_le x H). nra. Qed.
Lemma shape_eq x : 0 <= x -> (shape x = 1 <-> x = 1).
Proof.
  intro H. split.
  - intro E. apply (proj2 (shape_sq_le x H)). rewrite E. ring.
  - intros ->. pose proof (shape_sq 1) as E. pose proof (shape_nonneg 1 H).
    replace (1 ^ 6 * 7 ^ 7 / (4 + 3 * 1 ^ 2) ^ 7) with 1 in E by field. nra.
Qed.
Lemma sw_term_shape d f : g_fsw d <> 0 -> sw_term d f = Some (g_asw d * shape (f / g_fsw d)).
Proof.
  intro H. unfold sw_term. destruct (Req_EM_T (g_fsw d) 0); [contradiction|]. f_equal. unfold shape. ring.
Qed.
Lemma Rpower_le_1 x a : 1 <= x -> 0 <= a -> Rpower x (- a) <= 1.
Proof.
  intros H A. unfold Rpower. rewrite <- exp_0.
  assert (L : 0 <= ln x). { rewrite <- ln_1. destruct H as [H| <-]; [apply Rlt_le, ln_increasing; lra|lra]. }
  destruct (Rle_lt_or_eq_dec 0 (a * ln x)) as [P|P]; [nra| |].
  - apply Rlt_le, exp_increasing. lra.
  - replace (- a * ln x) with 0 by lra. lra.
Qed.
(** cubic rise: bounded by and asymptotic to a multiple of the cube *)
Lemma shape_cubic x : 0 <= x -> shape x <= cpow (4 / 7) (- (7 / 2)) * x ^ 3.
Proof.
  intro H. unfold shape. rewrite (cpow_pos (1 + _)) by nra.
  assert (P : Rpower (1 + 3 / 4 * x ^ 2) (- (7 / 2)) <= 1) by (apply Rpower_le_1; nra).
  assert (0 <= cpow (4 / 7) (- (7 / 2)) * x ^ 3) by (apply Rmult_le_pos; [apply cpow_ge0|now apply pow_le]).
  nra.
Qed.
Lemma pow7_bound u : 0 <= u -> 1 - 7 * u <= (/ (1 + u)) ^ 7.
Proof.
  intro H. assert (I : 1 - u <= / (1 + u) <= 1).
  { split.
    - apply Rmult_le_reg_r with (1 + u); [lra|]. rewrite Rinv_l by lra. nra.
    - rewrite <- Rinv_1. apply Rinv_le_contravar; lra. }
  assert (0 < / (1 + u)) by (apply Rinv_0_lt_compat; lra).
  set (w := / (1 + u)) in *. assert (B : 1 - 7 * (1 - w) <= w ^ 7).
  { assert (X : forall z, 0 <= z <= 1 -> z ^ 7 - 1 + 7 * (1 - z) = (1 - z) ^ 2 * (6 + 5 * z + 4 * z ^ 2 + 3 * z ^ 3 + 2 * z ^ 4 + z ^ 5)) by (intros; ring).
    specialize (X w ltac:(lra)).
    assert (0 <= (1 - w) ^ 2) by apply pow2_ge_0.
    assert (0 <= 6 + 5 * w + 4 * w ^ 2 + 3 * w ^ 3 + 2 * w ^ 4 + w ^ 5).
    { pose proof (pow_le w 2 ltac:(lra)). pose proof (pow_le w 3 ltac:(lra)). pose proof (pow_le w 4 ltac:(lra)). pose proof (pow_le w 5 ltac:(lra)). lra. }
    nra. }
  lra.
Qed.
Lemma shape_cubic_low x : 0 <= x -> cpow (4 / 7) (- (7 / 2)) * x ^ 3 * (1 - 21 / 4 * x ^ 2) <= shape x.
Proof.
  intro H. unfold shape. rewrite (cpow_pos (1 + _)) by nra. rewrite Rpower_m7_2 by nra.
  apply Rmult_le_compat_l; [apply Rmult_le_pos; [apply cpow_ge0|now apply pow_le]|].
  set (s := 1 + 3 / 4 * x ^ 2). assert (S : 1 <= s) by (unfold s; nra).
  assert (Q : sqrt s <= s).
  { rewrite <- (sqrt_square s) at 2 by lra. apply sqrt_le_1; nra. }
  assert (Q1 : 0 < sqrt s) by (apply sqrt_lt_R0; lra).
  apply Rle_trans with ((/ s) ^ 7).
  - unfold s. pose proof (pow7_bound (3 / 4 * x ^ 2) ltac:(nra)). lra.
  - apply pow_incr. split; [apply Rlt_le, Rinv_0_lt_compat; lra|]. apply Rinv_le_contravar; assumption.
Qed.

(** ** C32 *)
Lemma init_sw_fix d : init_sw (set_peaks d) = set_peaks d.
Proof. unfold init_sw. destruct (Req_EM_T _ _); [reflexivity|]. destruct (Req_EM_T _ _); reflexivity. Qed.
Lemma init_tb_fix d : init_tb (set_peaks d) = set_peaks d.
Proof. unfold init_tb. destruct (Req_EM_T _ _); [reflexivity|]. destruct (Req_EM_T _ _); reflexivity. Qed.
Lemma step_fix d f sw tb : fst (CalcGWAmplitude (set_peaks d) f sw tb) = set_peaks d.
Proof.
  unfold CalcGWAmplitude. destruct sw, tb; rewrite ?init_sw_fix, ?init_tb_fix; cbn [fst]; reflexivity.
Qed.
Lemma run_fix d h : run (set_peaks d) h = set_peaks d.
Proof. unfold run. induction h as [|e h IH]; [reflexivity|]. cbn. rewrite step_fix. exact IH. Qed.

Lemma fresh_first d f : g_asw d = 0 -> g_fsw d = 0 -> snd (CalcGWAmplitude d f true false) = None.
Proof.
  intros A F. unfold CalcGWAmplitude. cbn [snd]. unfold init_sw. destruct (Req_EM_T (g_asw d) 0); [|contradiction].
  unfold sw_term. cbn [g_fsw set_asw]. rewrite F. destruct (Req_EM_T 0 0); [reflexivity|contradiction].
Qed.
Lemma fresh_second d f f' : g_asw d = 0 -> g_fsw d = 0 -> peak_a_sw d <> 0 -> peak_f_sw d <> 0 ->
  exists v, snd (CalcGWAmplitude (fst (CalcGWAmplitude d f true false)) f' true false) = Some v /\
    v = peak_a_sw d * shape (f' / peak_f_sw d).
Proof.
  intros A F NA NF. unfold CalcGWAmplitude at 2. cbn [fst]. unfold init_sw at 1.
  destruct (Req_EM_T (g_asw d) 0); [|contradiction]. unfold CalcGWAmplitude. cbn [snd].
  assert (E : init_sw (set_asw d) = set_fsw (set_asw d)).
  { unfold init_sw. cbn [g_asw set_asw]. destruct (Req_EM_T (peak_a_sw d) 0); [contradiction|].
    cbn [g_fsw set_asw]. destruct (Req_EM_T (g_fsw d) 0); [reflexivity|contradiction]. }
  rewrite E. rewrite sw_term_shape.
  2:{ cbn [g_fsw set_fsw]. exact NF. }
  cbn [add_opt]. eexists. split; [reflexivity|]. cbn [g_asw g_fsw set_fsw set_asw]. rewrite Rplus_0_l. reflexivity.
Qed.

Lemma fresh_first_tb d f : g_atb d = 0 -> g_ftb d = 0 -> snd (CalcGWAmplitude d f false true) = None.
Proof.
  intros A F. unfold CalcGWAmplitude. cbn [snd]. unfold init_tb. destruct (Req_EM_T (g_atb d) 0); [|contradiction].
  unfold tb_term. cbn [g_ftb set_atb]. rewrite F. destruct (Req_EM_T 0 0); [reflexivity|contradiction].
Qed.
Lemma fresh_second_tb d f f' : g_atb d = 0 -> g_ftb d = 0 -> peak_a_tb d <> 0 -> peak_f_tb d <> 0 ->
  exists v, snd (CalcGWAmplitude (fst (CalcGWAmplitude d f false true)) f' false true) = Some v.
Proof.
  intros A F NA NF. unfold CalcGWAmplitude at 2. cbn [fst]. unfold init_tb at 1.
  destruct (Req_EM_T (g_atb d) 0); [|contradiction]. unfold CalcGWAmplitude. cbn [snd].
  assert (E : init_tb (set_atb d) = set_ftb (set_atb d)).
  { unfold init_tb. cbn [g_atb set_atb]. destruct (Req_EM_T (peak_a_tb d) 0); [contradiction|].
    cbn [g_ftb set_atb]. destruct (Req_EM_T (g_ftb d) 0); [reflexivity|contradiction]. }
  rewrite E. unfold tb_term. cbn [g_ftb set_ftb]. change (peak_f_tb (set_atb d)) with (peak_f_tb d). destruct (Req_EM_T (peak_f_tb d) 0); [contradiction|].
  cbn [add_opt]. eexists. reflexivity.
Qed.

(** ** C33 *)
Lemma turb_value d f : g_ftb d <> 0 ->
  tb_term d f = Some (g_atb d * (f / g_ftb d) ^ 3 / (1 + f / g_ftb d) ^ 3 / (1 + 8 * PI * f / g_Hstar d)).
Proof. intro H. unfold tb_term. destruct (Req_EM_T (g_ftb d) 0); [contradiction|reflexivity]. Qed.
Lemma turb_differs d f : 0 < g_ftb d -> 0 < g_atb d -> 0 < g_Hstar d -> 0 < f ->
  exists v, tb_term d f = Some v /\
    g_atb d * (f / g_ftb d) ^ 3 / Rpower (1 + f / g_ftb d) (11 / 3) / (1 + 8 * PI * f / g_Hstar d) < v.
Proof.
  intros F A H P. eexists. split; [apply turb_value; lra|].
  assert (X : 0 < f / g_ftb d) by (apply Rdiv_lt_0_compat; assumption). set (x := f / g_ftb d) in *.
  assert (Y : 0 < 1 + 8 * PI * f / g_Hstar d).
  { assert (0 < 8 * PI * f / g_Hstar d); [|lra]. apply Rdiv_lt_0_compat; [|exact H]. pose proof PI_RGT_0. nra. }
  unfold Rdiv. apply Rmult_lt_compat_r; [now apply Rinv_0_lt_compat|]. apply Rmult_lt_compat_l.
  - apply Rmult_lt_0_compat; [exact A|now apply pow_lt].
  - apply Rinv_lt_contravar.
    + apply Rmult_lt_0_compat; [apply pow_lt; lra|apply exp_pos].
    + rewrite <- (Rpower_pow 3 (1 + x)) by lra. apply Rpower_lt; [lra|]. cbn. lra.
Qed.
Lemma turb_bound d f v : 0 < g_ftb d -> 0 < g_atb d -> 0 < g_Hstar d -> 0 <= f -> tb_term d f = Some v -> 0 <= v < g_atb d.
Proof.
  intros F A H P E. rewrite turb_value in E by lra. 
  assert (E' : v = g_atb d * (f / g_ftb d) ^ 3 / (1 + f / g_ftb d) ^ 3 / (1 + 8 * PI * f / g_Hstar d)) by congruence. clear E. subst v.
  assert (X : 0 <= f / g_ftb d).
  { apply Rmult_le_pos; [exact P|]. apply Rlt_le, Rinv_0_lt_compat, F. }
  set (x := f / g_ftb d) in *.
  assert (Y : 0 <= 8 * PI * f / g_Hstar d).
  { apply Rmult_le_pos; [|apply Rlt_le, Rinv_0_lt_compat, H]. pose proof PI_RGT_0. nra. }
  set (y := 1 + 8 * PI * f / g_Hstar d). assert (1 <= y) by (unfold y; lra).
  assert (C : 0 <= (x / (1 + x)) ^ 3 < 1).
  { assert (0 <= x / (1 + x) < 1).
    { split; [apply Rmult_le_pos; [exact X|apply Rlt_le, Rinv_0_lt_compat; lra]|].
      apply Rmult_lt_reg_r with (1 + x); [lra|]. unfold Rdiv. rewrite Rmult_assoc, Rinv_l by lra. lra. }
    set (w := x / (1 + x)) in *. split; [apply pow_le; lra|]. assert (w * w < 1) by nra. replace (w ^ 3) with (w * w * w) by ring. nra. }
  replace (g_atb d * x ^ 3 / (1 + x) ^ 3) with (g_atb d * (x / (1 + x)) ^ 3) by (field; lra).
  assert (0 < / y <= 1).
  { split; [apply Rinv_0_lt_compat; lra|]. rewrite <- Rinv_1. apply Rinv_le_contravar; lra. }
  set (w := (x / (1 + x)) ^ 3) in *. unfold Rdiv. set (z := / y) in *.
  split; [apply Rmult_le_pos; [apply Rmult_le_pos|]; lra|].
  assert (g_atb d * w < g_atb d) by nra. assert (0 <= g_atb d * w) by (apply Rmult_le_pos; lra). nra.
Qed.

(** ** C30 *)
Lemma sqrt_cj_bounds alpha : 0 <= alpha -> alpha <= sqrt (alpha ^ 2 + 2 / 3 * alpha) <= alpha + 1 / 3.
Proof.
  intro H. split.
  - rewrite <- (sqrt_pow2 alpha) at 1 by exact H. apply sqrt_le_1; nra.
  - rewrite <- (sqrt_pow2 (alpha + 1 / 3)) by lra. apply sqrt_le_1; nra.
Qed.
Lemma cj_bounds cs alpha : 0 <= cs <= 2 / 3 -> 0 <= alpha -> cs <= v_ChapmanJouget cs alpha <= 1.
Proof.
  intros C H. unfold v_ChapmanJouget. pose proof (sqrt_cj_bounds alpha H).
  set (s := sqrt (alpha ^ 2 + 2 / 3 * alpha)) in *. split.
  - apply Rmult_le_reg_r with (1 + alpha); [lra|]. replace (1 / (1 + alpha) * (cs + s) * (1 + alpha)) with (cs + s) by (field; lra). nra.
  - apply Rmult_le_reg_r with (1 + alpha); [lra|]. replace (1 / (1 + alpha) * (cs + s) * (1 + alpha)) with (cs + s) by (field; lra). nra.
Qed.
Lemma cj_xiJ alpha : v_ChapmanJouget (sqrt (1 / 3)) alpha = xiJ alpha.
Proof. unfold v_ChapmanJouget, xiJ. replace (alpha ^ 2 + 2 / 3 * alpha) with (2 / 3 * alpha + alpha * alpha) by ring. unfold Rdiv. ring. Qed.

Lemma mode1_range cs alpha rho Vi Vf : 0 <= cs <= 2 / 3 -> 0 < alpha -> 0 < rho -> Vf <= Vi ->
  exists v, vwall_mode1 cs alpha rho Vi Vf = Some v /\ 0 <= v <= 1.
Proof.
  intros C A Rh V. unfold vwall_mode1. assert (AR : 0 < alpha * rho) by now apply Rmult_lt_0_compat.
  destruct (Req_EM_T (alpha * rho) 0); [lra|].
  assert (Q : 0 <= (Vi - Vf) / (alpha * rho)) by (apply Rmult_le_pos; [lra|apply Rlt_le, Rinv_0_lt_compat, AR]).
  destruct (Rlt_dec _ 0); [lra|]. eexists. split; [reflexivity|].
  pose proof (cj_bounds cs alpha C ltac:(lra)). pose proof (sqrt_pos ((Vi - Vf) / (alpha * rho))).
  destruct (Rlt_dec _ _); lra.
Qed.
Lemma mode1_defined cs alpha rho Vi Vf : 0 <= cs <= 2 / 3 -> 0 <= alpha -> 0 < rho ->
  (forall v, vwall_mode1 cs alpha rho Vi Vf = Some v -> 0 <= v <= 1) /\
  (vwall_mode1 cs alpha rho Vi Vf = None <-> Vi < Vf \/ alpha = 0 /\ Vi = Vf).
Proof.
  intros C A Rh. destruct (Req_dec alpha 0) as [->|NA].
  - unfold vwall_mode1. rewrite Rmult_0_l. destruct (Req_EM_T 0 0) as [_|]; [|contradiction].
    destruct (Rlt_dec Vf Vi).
    + split; [intros v E; assert (v = 1) by congruence; lra|]. split; [discriminate|]. intros [|[_ ?]]; lra.
    + split; [discriminate|]. split; [|reflexivity]. intros _. destruct (Req_dec Vi Vf); [right; now split|left; lra].
  - assert (0 < alpha) by lra. assert (AR : 0 < alpha * rho) by now apply Rmult_lt_0_compat.
    destruct (Rle_dec Vf Vi) as [L|L].
    + destruct (mode1_range cs alpha rho Vi Vf C H Rh L) as (v & E & B). rewrite E. split.
      * intros w F. assert (v = w) by congruence. now subst.
      * split; [discriminate|]. intros [|[? _]]; [lra|contradiction].
    + assert (N : vwall_mode1 cs alpha rho Vi Vf = None).
      { unfold vwall_mode1. destruct (Req_EM_T (alpha * rho) 0); [lra|].
        destruct (Rlt_dec ((Vi - Vf) / (alpha * rho)) 0) as [|NN]; [reflexivity|]. exfalso. apply NN.
        assert (0 < / (alpha * rho)) by now apply Rinv_0_lt_compat. unfold Rdiv. nra. }
      rewrite N. split; [discriminate|]. split; [intros _; left; lra|reflexivity].
Qed.

(** the generalised mean used for mode -2 *)
Definition p2 : R := - 3.433 / 2.
Definition pinv : R := 1 / - 3.433.
Lemma Rpower_anti x y a : 0 < x -> x <= y -> a <= 0 -> Rpower y a <= Rpower x a.
Proof.
  intros Hx H A. replace a with (- - a) by ring. rewrite (Rpower_Ropp y), (Rpower_Ropp x).
  apply Rinv_le_contravar; [apply exp_pos|]. apply Rpower_base_le; lra.
Qed.
Lemma mean_le1 x y : 0 < y -> y <= 1 -> 0 <= x -> 0 <= cpow (x + cpow y p2) pinv <= 1.
Proof.
  intros Hy H1 Hx. assert (P : 1 <= Rpower y p2).
  { rewrite <- (Rpower_1_l p2). apply Rpower_anti; unfold p2; lra. }
  rewrite (cpow_pos y) by exact Hy. rewrite cpow_pos by lra.
  split; [apply Rlt_le, exp_pos|]. rewrite <- (Rpower_1_l pinv). apply Rpower_anti; unfold pinv; lra.
Qed.

(** y is at most one when alpha >= (1 - psi)/3 *)
Lemma mode2_y cs alpha psi : 0 <= cs <= 2 / 3 -> 0 < alpha -> 0 <= psi <= 1 -> 1 - psi <= 3 * alpha ->
  0 <= 1 - 0.2233 * cpow (1 - psi) 1.704 / alpha <= 1.
Proof.
  intros C A P H. assert (B : 0 <= cpow (1 - psi) 1.704 <= 1 - psi).
  { split; [apply cpow_ge0|]. unfold cpow. destruct (Rlt_dec 0 (1 - psi)); [|lra].
    rewrite <- (Rpower_1 (1 - psi)) at 2 by assumption. unfold Rpower.
    assert (L : ln (1 - psi) <= 0).
    { rewrite <- ln_1. destruct (Req_dec psi 0) as [->|]; [rewrite Rminus_0_r; lra|]. apply Rlt_le, ln_increasing; lra. }
    destruct (Rle_lt_or_eq_dec _ _ L) as [L'|L'].
    - apply Rlt_le, exp_increasing. lra.
    - rewrite L', !Rmult_0_r. lra. }
  set (c := cpow (1 - psi) 1.704) in *.
  assert (0 <= c / alpha <= 3).
  { split; [apply Rmult_le_pos; [lra|apply Rlt_le, Rinv_0_lt_compat, A]|].
    apply Rmult_le_reg_r with alpha; [exact A|]. unfold Rdiv. rewrite Rmult_assoc, Rinv_l by lra. lra. }
  replace (0.2233 * c / alpha) with (0.2233 * (c / alpha)) by (unfold Rdiv; ring). lra.
Qed.
Lemma mode2_range cs alpha psi : 0 <= cs <= 2 / 3 -> 0 < alpha -> 0 <= psi <= 1 -> 1 - psi <= 3 * alpha ->
  exists v, vwall_mode2 cs alpha psi = Some v /\ 0 <= v <= 1.
Proof.
  intros C A P H. pose proof (mode2_y cs alpha psi C A P H) as Y. pose proof (cj_bounds cs alpha C ltac:(lra)) as V.
  unfold vwall_mode2.
  set (y0 := 1 - 0.2233 * cpow (1 - psi) 1.704 / alpha) in *. set (cj := v_ChapmanJouget cs alpha) in *.
  destruct (Req_EM_T alpha 0); [lra|]. destruct (Rlt_dec 1 psi); [lra|].
  set (num := 3 * alpha + psi - 1). set (den := 2 * (2 - 3 * psi + psi ^ 3)).
  assert (YB : 0 <= Rabs (cj * y0) <= 1) by (rewrite Rabs_pos_eq; nra).
  destruct (Req_EM_T den 0) as [D|D].
  - destruct (Req_EM_T num 0) as [N|N].
    + exfalso. unfold den, num in *. assert (psi = 1) by nra. nra.
    + destruct (Req_EM_T (Rabs (cj * y0)) 0); [exists 0; split; [reflexivity|lra]|].
      eexists. split; [reflexivity|]. apply mean_le1; lra.
  - destruct (Req_EM_T (Rabs (num / den)) 0); [exists 0; split; [reflexivity|lra]|].
    destruct (Req_EM_T (Rabs (cj * y0)) 0); [exists 0; split; [reflexivity|lra]|].
    eexists. split; [reflexivity|]. apply mean_le1; try lra. apply cpow_ge0.
Qed.

(** outside that range the estimate exceeds the speed of light *)
Lemma mean_gt1 x y : 4 <= x -> 4 <= y -> 1 < cpow (cpow x p2 + cpow y p2) pinv.
Proof.
  intros Hx Hy. rewrite !(cpow_pos _ p2) by lra.
  assert (B : forall z, 4 <= z -> 0 < Rpower z p2 <= / 4).
  { intros z Hz. split; [apply exp_pos|]. apply Rle_trans with (Rpower 4 p2); [apply Rpower_anti; unfold p2; lra|].
    replace (/ 4) with (Rpower 4 (Ropp 1)) by (rewrite Rpower_Ropp, Rpower_1; lra). apply Rle_Rpower; unfold p2; lra. }
  destruct (B x Hx), (B y Hy). set (s := Rpower x p2 + Rpower y p2). assert (0 < s <= / 2) by (unfold s; lra).
  rewrite cpow_pos by lra. replace pinv with (- (1 / 3.433)) by (unfold pinv; lra). rewrite Rpower_Ropp.
  rewrite <- Rinv_1 at 1. apply Rinv_lt_contravar; [rewrite Rmult_1_r; apply exp_pos|]. apply Rpower_lt1; lra.
Qed.
Lemma mode2_refuted : exists alpha psi v, 0 < alpha /\ 0 < psi < 1 /\
  vwall_mode2 Csound alpha psi = Some v /\ 1 < v.
Proof.
  exists (1 / 1000000), (99 / 100). unfold vwall_mode2.
  set (num := 3 * (1 / 1000000) + 99 / 100 - 1). set (den := 2 * (2 - 3 * (99 / 100) + (99 / 100) ^ 3)).
  assert (N : num = - 9997 / 1000000) by (unfold num; lra). assert (D : den = 598 / 1000000) by (unfold den; lra).
  set (y := Rabs (v_ChapmanJouget Csound (1 / 1000000) * (1 - 0.2233 * cpow (1 - 99 / 100) 1.704 / (1 / 1000000)))).
  assert (X : 4 <= Rabs (num / den)).
  { rewrite N, D. replace (- 9997 / 1000000 / (598 / 1000000)) with (- (9997 / 598)) by field. rewrite Rabs_Ropp, Rabs_pos_eq; lra. }
  assert (S3 : 1 / 2 <= Csound <= 2 / 3).
  { unfold Csound. lra. }
  pose proof (cj_bounds Csound (1 / 1000000) ltac:(lra) ltac:(lra)) as V.
  assert (P : (1 / 100) ^ 2 <= cpow (1 - 99 / 100) 1.704).
  { replace (1 - 99 / 100) with (1 / 100) by lra. rewrite cpow_pos by lra. rewrite <- Rpower_pow by lra.
    unfold Rpower. apply Rlt_le, exp_increasing. cbn [INR].
    assert (ln (1 / 100) < 0) by (rewrite <- ln_1; apply ln_increasing; lra). lra. }
  assert (Y : 4 <= y).
  { unfold y. rewrite Rabs_mult. rewrite (Rabs_pos_eq (v_ChapmanJouget _ _)) by lra.
    set (c := cpow (1 - 99 / 100) 1.704) in *.
    assert (21 <= Rabs (1 - 0.2233 * c / (1 / 1000000))).
    { replace (0.2233 * c / (1 / 1000000)) with (223300 * c) by lra. rewrite Rabs_left; lra. }
    set (z := Rabs _) in *. nra. }
  destruct (Req_EM_T (1 / 1000000) 0); [lra|]. destruct (Rlt_dec 1 (99 / 100)); [lra|].
  destruct (Req_EM_T den 0); [lra|]. destruct (Req_EM_T (Rabs (num / den)) 0); [lra|]. destruct (Req_EM_T y 0); [lra|].
  eexists. split; [lra|]. split; [lra|]. split; [reflexivity|]. now apply mean_gt1.
Qed.

(** ** C68: turnover time *)
Lemma tau_eq HR K : 0 < K -> 2 * HR / sqrt (3 * K) = 2 / sqrt 3 * HR / sqrt K.
Proof.
  intro H. rewrite sqrt_mult by lra. assert (0 < sqrt 3) by (apply sqrt_lt_R0; lra). assert (0 < sqrt K) by now apply sqrt_lt_R0.
  field. lra.
Qed.
Lemma peak_amplitude d : 0 < g_Ksw d -> 0 < g_HR d ->
  peak_a_sw d = h0 * h0 * 2.061 * 1.2e-2 * 3.57e-5 * cpow (100 / g_gstar d) (1 / 3)
    * (g_HR d * g_Ksw d ^ 2 * Rmin 1 (2 / sqrt 3 * g_HR d / sqrt (g_Ksw d))).
Proof.
  intros K H. unfold peak_a_sw, IsFluidTurnoverApproxOne. rewrite tau_eq by exact K.
  f_equal. destruct (Rlt_dec _ 1) as [L|L].
  - rewrite Rmin_right by lra. rewrite cpow_pos by exact K.
    replace (3 / 2) with (1 + / 2) by lra. rewrite Rpower_plus, Rpower_1, Rpower_sqrt by exact K.
    assert (0 < sqrt (g_Ksw d)) by now apply sqrt_lt_R0. assert (0 < sqrt 3) by (apply sqrt_lt_R0; lra).
    pose proof (sqrt_sqrt (g_Ksw d) ltac:(lra)) as SS.
    replace (g_Ksw d ^ 2) with (g_Ksw d * (sqrt (g_Ksw d) * sqrt (g_Ksw d))) by (rewrite SS; ring). field. lra.
  - rewrite Rmin_left by lra. ring.
Qed.
Lemma eps_turb HR K eps : 0 < K -> 0 < HR -> (eps = -1 \/ 0 <= eps <= 1) ->
  0 <= CalcEpsTurb HR K eps <= 1 /\ (eps = -1 -> CalcEpsTurb HR K eps = 0 <-> IsFluidTurnoverApproxOne HR K = true).
Proof.
  intros HK HH E. unfold CalcEpsTurb. destruct (Req_EM_T eps (-1)) as [->|N].
  2:{ split; [lra|]. intros ->. contradiction. }
  set (tau := 2 / sqrt 3 * HR / sqrt K).
  assert (T : 0 < tau).
  { unfold tau. apply Rdiv_lt_0_compat; [|now apply sqrt_lt_R0]. apply Rmult_lt_0_compat; [|exact HH].
    apply Rdiv_lt_0_compat; [lra|]. apply sqrt_lt_R0. lra. }
  unfold IsFluidTurnoverApproxOne. rewrite tau_eq by exact HK. fold tau. split.
  - split; [apply cpow_ge0|]. unfold cpow. destruct (Rlt_dec 0 (1 - Rmin tau 1)) as [L|L]; [|lra].
    apply Rlt_le, Rpower_lt1; [exact L| |lra]. unfold Rmin in *. destruct (Rle_dec tau 1); lra.
  - intros _. unfold cpow, Rmin. destruct (Rle_dec tau 1) as [L|L].
    + destruct (Rlt_dec 0 (1 - tau)) as [M|M].
      * destruct (Rlt_dec tau 1); [|lra]. split; [|discriminate]. intro Z. pose proof (exp_pos (2 / 3 * ln (1 - tau))). unfold Rpower in Z. lra.
      * destruct (Rlt_dec tau 1); [lra|]. tauto.
    + destruct (Rlt_dec 0 (1 - 1)); [lra|]. destruct (Rlt_dec tau 1); [lra|]. tauto.
Qed.

(** ** the peak data are positive *)
Lemma peaks_pos d : 0 < g_T d -> 0 < g_HR d -> 0 < g_gstar d -> 0 < g_Ksw d -> 0 < peak_f_sw d /\ 0 < peak_a_sw d.
Proof.
  intros T H G K. assert (I : 0 < 1 / g_HR d) by (apply Rdiv_lt_0_compat; lra). split.
  - unfold peak_f_sw. assert (0 < cpow (g_gstar d / 100) (1 / 6)) by (apply cpow_gt0; lra).
    apply Rmult_lt_0_compat; [|assumption]. apply Rmult_lt_0_compat; [|lra]. nra.
  - rewrite peak_amplitude by assumption.
    assert (0 < cpow (100 / g_gstar d) (1 / 3)) by (apply cpow_gt0, Rdiv_lt_0_compat; lra).
    assert (0 < Rmin 1 (2 / sqrt 3 * g_HR d / sqrt (g_Ksw d))).
    { apply Rmin_pos; [lra|]. apply Rdiv_lt_0_compat; [|now apply sqrt_lt_R0]. apply Rmult_lt_0_compat; [|exact H].
      apply Rdiv_lt_0_compat; [lra|]. apply sqrt_lt_R0. lra. }
    apply Rmult_lt_0_compat; [|apply Rmult_lt_0_compat; [apply Rmult_lt_0_compat|]; [exact H|now apply pow_lt|assumption]].
    apply Rmult_lt_0_compat; [|assumption]. unfold h0. lra.
Qed.
Lemma peaks_pos_tb d : 0 < g_T d -> 0 < g_HR d -> 0 < g_gstar d -> 0 < g_Kturb d -> 0 < peak_f_tb d /\ 0 < peak_a_tb d.
Proof.
  intros T H G K. assert (I : 0 < 1 / g_HR d) by (apply Rdiv_lt_0_compat; lra). split.
  - unfold peak_f_tb. assert (0 < cpow (g_gstar d / 100) (1 / 6)) by (apply cpow_gt0; lra).
    apply Rmult_lt_0_compat; [|assumption]. apply Rmult_lt_0_compat; [|lra]. nra.
  - unfold peak_a_tb. assert (0 < cpow (100 / g_gstar d) (1 / 3)) by (apply cpow_gt0, Rdiv_lt_0_compat; lra).
    assert (0 < cpow (g_Kturb d) (3 / 2)) by now apply cpow_gt0.
    apply Rmult_lt_0_compat; [|assumption]. apply Rmult_lt_0_compat; [|exact H]. lra.
Qed.
(** evaluation of the sound wave spectrum on an object whose peaks are set *)
Lemma sw_eval d f : peak_f_sw d <> 0 ->
  snd (CalcGWAmplitude (set_peaks d) f true false) = Some (peak_a_sw d * shape (f / peak_f_sw d)).
Proof.
  intro H. unfold CalcGWAmplitude. rewrite init_sw_fix. cbn [snd]. rewrite sw_term_shape by exact H.
  cbn [add_opt]. f_equal. rewrite Rplus_0_l. reflexivity.
Qed.
Lemma sw_peak d f : 0 < g_T d -> 0 < g_HR d -> 0 < g_gstar d -> 0 < g_Ksw d -> 0 <= f ->
  exists v, snd (CalcGWAmplitude (set_peaks d) f true false) = Some v /\
    0 <= v <= g_asw (set_peaks d) /\ (v = g_asw (set_peaks d) <-> f = g_fsw (set_peaks d)).
Proof.
  intros T H G K F. destruct (peaks_pos d T H G K) as [PF PA]. eexists. split; [apply sw_eval; lra|].
  change (g_asw (set_peaks d)) with (peak_a_sw d). change (g_fsw (set_peaks d)) with (peak_f_sw d).
  set (x := f / peak_f_sw d). assert (X : 0 <= x) by (apply Rmult_le_pos; [exact F|apply Rlt_le, Rinv_0_lt_compat, PF]).
  pose proof (shape_nonneg x X). pose proof (shape_le x X). split; [split; [apply Rmult_le_pos; lra|nra]|].
  split.
  - intro E. assert (S : shape x = 1) by (apply Rmult_eq_reg_l with (peak_a_sw d); lra).
    apply (shape_eq x X) in S. unfold x in S. apply Rmult_eq_reg_r with (/ peak_f_sw d); [|apply Rinv_neq_0_compat; lra].
    rewrite Rinv_r by lra. exact S.
  - intros ->. assert (S : x = 1) by (unfold x; field; lra). apply (shape_eq x X) in S. rewrite S. ring.
Qed.
Lemma sw_cubic d : 0 < g_T d -> 0 < g_HR d -> 0 < g_gstar d -> 0 < g_Ksw d ->
  exists C, 0 < C /\ forall e, 0 < e -> exists del, 0 < del /\ forall f, 0 < f < del ->
    exists v, snd (CalcGWAmplitude (set_peaks d) f true false) = Some v /\ Rabs (v / f ^ 3 - C) < e.
Proof.
  intros T H G K. destruct (peaks_pos d T H G K) as [PF PA]. set (fp := peak_f_sw d) in *. set (a := peak_a_sw d) in *.
  set (c := cpow (4 / 7) (- (7 / 2))). assert (Cp : 0 < c) by (apply cpow_gt0; lra).
  set (C := a * c / fp ^ 3). assert (F3 : 0 < fp ^ 3) by now apply pow_lt.
  assert (CC : 0 < C) by (apply Rdiv_lt_0_compat; [nra|exact F3]).
  exists C. split; [exact CC|]. intros e He.
  set (L := C * (21 / 4) / fp ^ 2). assert (F2 : 0 < fp ^ 2) by now apply pow_lt.
  assert (LP : 0 < L) by (apply Rdiv_lt_0_compat; [lra|exact F2]).
  exists (Rmin 1 (e / L)). assert (EL : 0 < e / L) by now apply Rdiv_lt_0_compat.
  split; [apply Rmin_pos; lra|]. intros f [F D]. pose proof (Rmin_l 1 (e / L)). pose proof (Rmin_r 1 (e / L)).
  eexists. split; [apply sw_eval; fold fp; lra|]. fold fp a. set (x := f / fp).
  assert (X : 0 <= x) by (apply Rmult_le_pos; [lra|apply Rlt_le, Rinv_0_lt_compat, PF]).
  pose proof (shape_cubic x X) as U. pose proof (shape_cubic_low x X) as W. fold c in U, W.
  assert (FF : 0 < f ^ 3) by now apply pow_lt.
  assert (E1 : C = a * (c * x ^ 3) / f ^ 3) by (unfold C, x; field; lra).
  assert (E2 : C - L * f ^ 2 = a * (c * x ^ 3 * (1 - 21 / 4 * x ^ 2)) / f ^ 3) by (unfold L, C, x; field; lra).
  assert (B : C - L * f ^ 2 <= a * shape x / f ^ 3 <= C).
  { assert (0 < / f ^ 3) by now apply Rinv_0_lt_compat.
    split; [rewrite E2|rewrite E1]; unfold Rdiv; apply Rmult_le_compat_r; try lra; apply Rmult_le_compat_l; unfold Rdiv in *; lra. }
  assert (L * f ^ 2 < e).
  { assert (f * f <= f) by nra. assert (L * f < e).
    { assert (f < e / L) by lra. apply Rmult_lt_reg_r with (/ L); [now apply Rinv_0_lt_compat|].
      replace (L * f * / L) with f by (field; lra). exact H3. }
    replace (f ^ 2) with (f * f) by ring. nra. }
  apply Rabs_def1; lra.
Qed.
Lemma turb_eval d f : peak_f_tb d <> 0 ->
  snd (CalcGWAmplitude (set_peaks d) f false true) = tb_term (set_peaks d) f.
Proof.
  intro H. unfold CalcGWAmplitude. rewrite init_tb_fix. cbn [snd]. rewrite turb_value by exact H. cbn [add_opt]. f_equal. ring.
Qed.
Lemma sw_frequency d : 0 < g_T d -> 0 < g_HR d -> 0 < g_gstar d ->
  0 < g_fsw (set_peaks d) /\ (g_fsw (set_peaks d) * g_HR d * 1000000 / 26) ^ 6 = (g_T d / 100) ^ 6 * (g_gstar d / 100).
Proof.
  intros HT HR HG. assert (E : g_fsw (set_peaks d) = 26e-6 * (1 / g_HR d) * (g_T d / 100) * cpow (g_gstar d / 100) (1 / 6)) by reflexivity.
  rewrite E. clear E. rewrite cpow_pos by lra. assert (P : 0 < g_gstar d / 100) by lra. set (x := g_gstar d / 100) in *. clearbody x.
  assert (Q : 0 < Rpower x (1 / 6)) by (unfold Rpower; apply exp_pos). split.
  - assert (0 < / g_HR d) by now apply Rinv_0_lt_compat. assert (0 < 1 / g_HR d) by lra. assert (0 < g_T d / 100) by lra. assert (0 < 26e-6) by lra.
    repeat apply Rmult_lt_0_compat; assumption || lra.
  - replace (26e-6 * (1 / g_HR d) * (g_T d / 100) * Rpower x (1 / 6) * g_HR d * 1000000 / 26) with (g_T d / 100 * Rpower x (1 / 6)).
    2:{ replace 26e-6 with (26 / 1000000) by lra. field. lra. }
    rewrite Rpow_mult_distr. f_equal. rewrite <- Rpower_pow by exact Q. rewrite Rpower_mult. replace (1 / 6 * INR 6) with 1 by (cbn [INR]; field). now apply Rpower_1.
Qed.
Lemma tb_frequency d : 0 < g_T d -> 0 < g_HR d -> 0 < g_gstar d ->
  0 < g_ftb (set_peaks d) /\ (g_ftb (set_peaks d) * g_HR d * 100000000 / 7909) ^ 6 = (g_T d / 100) ^ 6 * (g_gstar d / 100).
Proof.
  intros HT HR HG. assert (E : g_ftb (set_peaks d) = 7.909e-5 * (1 / g_HR d) * (g_T d / 100) * cpow (g_gstar d / 100) (1 / 6)) by reflexivity.
  rewrite E. clear E. rewrite cpow_pos by lra. assert (P : 0 < g_gstar d / 100) by lra. set (x := g_gstar d / 100) in *. clearbody x.
  assert (Q : 0 < Rpower x (1 / 6)) by (unfold Rpower; apply exp_pos). split.
  - assert (0 < / g_HR d) by now apply Rinv_0_lt_compat. assert (0 < 1 / g_HR d) by lra. assert (0 < g_T d / 100) by lra. assert (0 < 7.909e-5) by lra.
    apply Rmult_lt_0_compat; [apply Rmult_lt_0_compat; [apply Rmult_lt_0_compat|]|]; assumption || lra.
  - replace (7.909e-5 * (1 / g_HR d) * (g_T d / 100) * Rpower x (1 / 6) * g_HR d * 100000000 / 7909) with (g_T d / 100 * Rpower x (1 / 6)).
    2:{ replace 7.909e-5 with (7909 / 100000000) by lra. field. lra. }
    rewrite Rpow_mult_distr. f_equal. rewrite <- Rpower_pow by exact Q. rewrite Rpower_mult. replace (1 / 6 * INR 6) with 1 by (cbn [INR]; field). now apply Rpower_1.
Qed.

