(** Kinetic energy fractions and the mean bubble separation (C84). *)
From Coq Require Import Reals Lra Lia Psatz.
From Verif.Model Require Import GW.
From Verif.Proofs Require Import GWProofs KappaProofs.
Open Scope R_scope.

(** ** rational bounds for rational powers *)
Lemma Rpower_nat_pow x y n : 0 < x -> Rpower x y ^ n = Rpower x (y * INR n).
Proof. intro H. rewrite <- Rpower_mult, Rpower_pow; [reflexivity|]. apply exp_pos. Qed.
Lemma Rpower_frac_ge x y p q : 0 < x -> 0 < y -> (0 < q)%nat -> y ^ q <= x ^ p -> y <= Rpower x (INR p / INR q).
Proof.
  intros X Y Q H. assert (NQ : 0 < INR q) by now apply lt_0_INR.
  destruct (Rle_lt_dec y (Rpower x (INR p / INR q))) as [|L]; [assumption|exfalso].
  assert (P : 0 < Rpower x (INR p / INR q)) by apply exp_pos.
  assert (E : Rpower x (INR p / INR q) ^ q = x ^ p).
  { rewrite Rpower_nat_pow by exact X. replace (INR p / INR q * INR q) with (INR p) by (field; lra). now apply Rpower_pow. }
  assert (Rpower x (INR p / INR q) ^ q < y ^ q); [|lra].
  clear - L P Q. destruct q as [|q]; [lia|]. clear Q. generalize dependent (Rpower x (INR p / INR (S q))). intros z L P.
  induction q as [|q IH]; [cbn; lra|]. change (z * z ^ S q < y * y ^ S q).
  assert (0 < z ^ S q) by (now apply pow_lt). nra.
Qed.
Lemma Rpower_frac_le x y p q : 0 < x -> 0 < y -> (0 < q)%nat -> x ^ p <= y ^ q -> Rpower x (INR p / INR q) <= y.
Proof.
  intros X Y Q H. assert (NQ : 0 < INR q) by now apply lt_0_INR.
  assert (E : Rpower x (INR p / INR q) ^ q = x ^ p).
  { rewrite Rpower_nat_pow by exact X. replace (INR p / INR q * INR q) with (INR p) by (field; lra). now apply Rpower_pow. }
  destruct (Rle_lt_dec (Rpower x (INR p / INR q)) y) as [|L]; [assumption|exfalso].
  assert (y ^ q < Rpower x (INR p / INR q) ^ q); [|lra].
  clear - L Y Q. destruct q as [|q]; [lia|]. clear Q. generalize dependent (Rpower x (INR p / INR (S q))). intros z L.
  induction q as [|q IH]; [cbn; lra|]. change (y * y ^ S q < z * z ^ S q).
  assert (0 < y ^ S q) by (now apply pow_lt). nra.
Qed.

(** ** mean bubble separation *)
Lemma separation beta v cs : 0 < beta -> 0 < v -> 0 < cs ->
  0 < GetHR beta v cs /\
  (v <= cs -> (GetHR beta v cs * beta) ^ 3 = 8 * PI * cs ^ 3) /\
  (cs <= v -> (GetHR beta v cs * beta) ^ 3 = 8 * PI * v ^ 3).
Proof.
  intros B V C. assert (P := PI_RGT_0). unfold GetHR.
  assert (E : cpow (8 * PI) (1 / 3) ^ 3 = 8 * PI).
  { rewrite cpow_pos by lra. rewrite Rpower_nat_pow by lra. replace (1 / 3 * INR 3) with 1 by (cbn; lra). apply Rpower_1. lra. }
  assert (G : forall m, (1 / beta * cpow (8 * PI) (1 / 3) * m * beta) ^ 3 = 8 * PI * m ^ 3).
  { intro m. replace ((1 / beta * cpow (8 * PI) (1 / 3) * m * beta) ^ 3) with (cpow (8 * PI) (1 / 3) ^ 3 * m ^ 3) by (field; lra).
    now rewrite E. }
  split; [|split]; intros; rewrite ?G; try (rewrite Rmax_right by lra; reflexivity); try (rewrite Rmax_left by lra; reflexivity).
  apply Rmult_lt_0_compat; [apply Rmult_lt_0_compat|].
  - apply Rdiv_lt_0_compat; lra.
  - apply cpow_gt0. lra.
  - apply Rlt_le_trans with v; [exact V|apply Rmax_l].
Qed.

(** ** fractions *)
Lemma share alpha v cs eps : GetK_turb alpha (eps * Getkappa_sw alpha v cs) = eps * GetK_sw alpha v cs.
Proof. unfold GetK_turb, GetK_sw, Rdiv. ring. Qed.
Lemma fraction_of alpha v cs : 0 < alpha -> 0 < Getkappa_sw alpha v cs <= 1 -> 0 < GetK_sw alpha v cs < 1.
Proof.
  intros A [K0 K1]. unfold GetK_sw. set (k := Getkappa_sw alpha v cs) in *. split.
  - apply Rdiv_lt_0_compat; [|lra]. apply Rmult_lt_0_compat; lra.
  - apply Rmult_lt_reg_r with (1 + alpha); [lra|]. replace (k * alpha / (1 + alpha) * (1 + alpha)) with (k * alpha) by (field; lra). nra.
Qed.

Section A.
  Variable alpha : R.
  Hypothesis Ha : 0 < alpha.

  Lemma kC_lt1 : kappaC alpha < 1.
  Proof.
    unfold kappaC. assert (sqrt alpha <= sqrt (0.98 + alpha)) by (apply sqrt_le_1; lra). pose proof (sqrt_pos alpha).
    apply Rmult_lt_reg_r with (0.135 + sqrt (0.98 + alpha)); [lra|].
    replace (sqrt alpha / (0.135 + sqrt (0.98 + alpha)) * (0.135 + sqrt (0.98 + alpha))) with (sqrt alpha) by (field; lra). lra.
  Qed.
  Lemma kB_lt1 : kappaB alpha < 1.
  Proof.
    unfold kappaB. assert (L : cpow alpha (2 / 5) <= cpow (0.997 + alpha) (2 / 5)).
    { rewrite !cpow_pos by lra. apply Rpower_base_le; lra. }
    assert (0 < cpow alpha (2 / 5)) by now apply cpow_gt0.
    set (a := cpow alpha (2 / 5)) in *. set (b := cpow (0.997 + alpha) (2 / 5)) in *.
    apply Rmult_lt_reg_r with (0.017 + b); [lra|]. replace (a / (0.017 + b) * (0.017 + b)) with a by (field; lra). lra.
  Qed.

  (** kappaD is below the 5/2th power of the detonation velocity *)
  Lemma xiJ_low1 : 1 <= alpha -> (alpha + 0.857) / (1 + alpha) <= xiJ alpha.
  Proof.
    intro A. unfold xiJ. pose proof sqrt13_low.
    assert (alpha + 0.28 <= sqrt (2 / 3 * alpha + alpha * alpha)).
    { rewrite <- (sqrt_pow2 (alpha + 0.28)) by lra. apply sqrt_le_1_alt. nra. }
    unfold Rdiv. apply Rmult_le_compat_r; [left; apply Rinv_0_lt_compat; lra|]. unfold Rdiv in *. lra.
  Qed.
  Lemma xiJ_low2 : alpha <= 1 -> (1.29 * alpha + 0.577) / (1 + alpha) <= xiJ alpha.
  Proof.
    intro A. unfold xiJ. pose proof sqrt13_low.
    assert (1.29 * alpha <= sqrt (2 / 3 * alpha + alpha * alpha)).
    { rewrite <- (sqrt_pow2 (1.29 * alpha)) by lra. apply sqrt_le_1_alt. nra. }
    unfold Rdiv. apply Rmult_le_compat_r; [left; apply Rinv_0_lt_compat; lra|]. unfold Rdiv in *. lra.
  Qed.
  Lemma kD_le : kappaD alpha <= alpha / (0.73 + alpha).
  Proof.
    unfold kappaD, Rdiv. apply Rmult_le_compat_l; [lra|]. apply Rinv_le_contravar; [lra|]. pose proof (sqrt_pos alpha). lra.
  Qed.
  Lemma kD_xiJ3 : kappaD alpha <= xiJ alpha ^ 3.
  Proof.
    apply Rle_trans with (alpha / (0.73 + alpha)); [exact kD_le|].
    destruct (Rle_lt_dec alpha 1) as [A|A].
    - assert (L := xiJ_low2 A). apply Rle_trans with (((1.29 * alpha + 0.577) / (1 + alpha)) ^ 3).
      + replace (((1.29 * alpha + 0.577) / (1 + alpha)) ^ 3) with ((1.29 * alpha + 0.577) ^ 3 / (1 + alpha) ^ 3) by (field; lra).
        assert (P : 0 < (1 + alpha) ^ 3) by (apply pow_lt; lra).
        apply Rmult_le_reg_r with ((0.73 + alpha) * (1 + alpha) ^ 3); [apply Rmult_lt_0_compat; lra|].
        replace (alpha / (0.73 + alpha) * ((0.73 + alpha) * (1 + alpha) ^ 3)) with (alpha * (1 + alpha) ^ 3) by (field; lra).
        replace ((1.29 * alpha + 0.577) ^ 3 / (1 + alpha) ^ 3 * ((0.73 + alpha) * (1 + alpha) ^ 3))
          with ((1.29 * alpha + 0.577) ^ 3 * (0.73 + alpha)) by (field; lra).
        nra.
      + apply pow_incr. split; [|exact L]. apply Rlt_le, Rdiv_lt_0_compat; lra.
    - assert (L := xiJ_low1 ltac:(lra)). apply Rle_trans with (((alpha + 0.857) / (1 + alpha)) ^ 3).
      + replace ((alpha + 0.857) / (1 + alpha)) with (1 - 0.143 * / (1 + alpha))
          by (replace (alpha + 0.857) with ((1 + alpha) - 0.143) by lra; unfold Rdiv; rewrite Rmult_minus_distr_r, Rinv_r by lra; reflexivity).
        replace (alpha / (0.73 + alpha)) with (1 - 0.73 * / (0.73 + alpha))
          by (replace (alpha / (0.73 + alpha)) with (((0.73 + alpha) - 0.73) / (0.73 + alpha)) by (f_equal; lra);
              unfold Rdiv; rewrite Rmult_minus_distr_r, Rinv_r by lra; reflexivity).
        set (u := / (1 + alpha)). assert (0 < u < 1).
        { unfold u. split; [apply Rinv_0_lt_compat; lra|]. rewrite <- Rinv_1. apply Rinv_lt_contravar; lra. }
        assert (u <= / (0.73 + alpha)) by (unfold u; apply Rinv_le_contravar; lra). nra.
      + apply pow_incr. split; [|exact L]. apply Rlt_le, Rdiv_lt_0_compat; lra.
  Qed.
End A.

(** detonations: the efficiency is below one for every strength *)
Lemma detonation alpha cs v : 0 < alpha -> 0 < cs -> cs < xiJ alpha -> xiJ alpha < v <= 1 ->
  0 < Getkappa_sw alpha v cs <= 1.
Proof.
  intros A C O [V V1]. split; [apply deto_pos; auto|].
  rewrite kappa_regimes. destruct (Rlt_dec v cs); [lra|]. destruct (Rlt_dec (xiJ alpha) v) as [_|]; [|lra].
  assert (D := deto_den alpha cs A C O v ltac:(lra)). unfold deto in *.
  assert (KC := kC_pos alpha A). assert (KC1 := kC_lt1 alpha A). assert (KD := kD_pos alpha A).
  assert (X1 := xiJ_lt1 alpha A). assert (X3 := kD_xiJ3 alpha A).
  assert (X0 : 0 < xiJ alpha) by lra.
  assert (R3 : xiJ alpha ^ 3 <= cpow (xiJ alpha) (5 / 2)).
  { rewrite cpow_pos by exact X0. rewrite <- Rpower_pow by exact X0. unfold Rpower.
    assert (ln (xiJ alpha) < 0) by (rewrite <- ln_1; apply ln_increasing; lra).
    replace (INR 3) with 3 by (cbn; lra).
    assert (E : 3 * ln (xiJ alpha) <= 5 / 2 * ln (xiJ alpha)) by lra. destruct E as [E|E]; [left; now apply exp_increasing|rewrite E; lra]. }
  assert (S : 0 < cpow (xiJ alpha) (5 / 2) * cpow v (- (5 / 2)) <= 1).
  { split; [apply Rmult_lt_0_compat; apply cpow_gt0; lra|]. rewrite !cpow_pos by lra.
    rewrite Rpower_Ropp. assert (Rpower (xiJ alpha) (5 / 2) <= Rpower v (5 / 2)) by (apply Rpower_base_le; lra).
    assert (0 < Rpower v (5 / 2)) by apply exp_pos. apply Rmult_le_reg_r with (Rpower v (5 / 2)); [assumption|].
    rewrite Rmult_assoc, Rinv_l by lra. lra. }
  assert (RP : 0 < cpow (xiJ alpha) (5 / 2)) by now apply cpow_gt0.
  set (r := cpow (xiJ alpha) (5 / 2)) in *. set (w := cpow v (- (5 / 2))) in *.
  set (kc := kappaC alpha) in *. set (kd := kappaD alpha) in *.
  assert (A3 := cube_neg (xiJ alpha - 1) ltac:(lra)).
  assert (B3 : (v - 1) ^ 3 <= 0). { destruct (Req_dec v 1) as [->|N]; [|left; apply cube_neg; lra]. replace (1 - 1) with 0 by ring. cbn; lra. }
  assert (AB := cube_mono (xiJ alpha - 1) (v - 1) ltac:(lra)).
  set (a := (xiJ alpha - 1) ^ 3) in *. set (b := (v - 1) ^ 3) in *.
  set (den := (a - b) * r * kc + b * kd) in *.
  apply Rmult_le_reg_r with (- den); [lra|].
  replace (a * r * w * kc * kd / den * - den) with ((- a) * (r * w) * (kc * kd)) by (field; lra).
  assert (kc * kd <= r * kc) by nra. assert (kc * kd <= kd) by nra. assert (0 < kc * kd) by now apply Rmult_lt_0_compat.
  assert ((- a) * (r * w) * (kc * kd) <= (- a) * (kc * kd)).
  { apply Rmult_le_compat_r; [lra|]. rewrite <- (Rmult_1_r (- a)) at 2. apply Rmult_le_compat_l; lra. }
  assert ((b - a) * (kc * kd) <= (b - a) * (r * kc)) by (apply Rmult_le_compat_l; lra).
  assert ((- b) * (kc * kd) <= (- b) * kd) by (apply Rmult_le_compat_l; lra).
  unfold den. lra.
Qed.

(** deflagrations *)
Lemma defl_le1 alpha cs v : 0 < alpha -> 0 < cs -> 0 < v < cs -> kappaA alpha v <= 1 -> defl alpha cs v <= 1.
Proof.
  intros A C [V L] KA. unfold defl. assert (D := defl_den alpha cs A C v ltac:(lra)).
  assert (KB := kB_pos alpha A). assert (KB1 := kB_lt1 alpha A). assert (KAP := kA_pos alpha A v V).
  assert (E1 : cpow cs (11 / 5) = cs * cpow cs (6 / 5)).
  { rewrite !cpow_pos by exact C. replace (11 / 5) with (1 + 6 / 5) by lra. rewrite Rpower_plus, Rpower_1 by exact C. ring. }
  assert (E2 : cpow v (11 / 5) = v * cpow v (6 / 5)).
  { rewrite !cpow_pos by exact V. replace (11 / 5) with (1 + 6 / 5) by lra. rewrite Rpower_plus, Rpower_1 by exact V. ring. }
  assert (M : cpow v (6 / 5) <= cpow cs (6 / 5)) by (apply cpow_mono; lra).
  assert (P := cpow_gt0 cs (6 / 5) C). assert (Q := cpow_gt0 v (6 / 5) V). rewrite E1, E2 in *.
  set (c := cpow cs (6 / 5)) in *. set (d := cpow v (6 / 5)) in *. set (ka := kappaA alpha v) in *. set (kb := kappaB alpha) in *.
  apply Rmult_le_reg_r with ((cs * c - v * d) * kb + v * c * ka); [exact D|].
  replace (cs * c * ka * kb / ((cs * c - v * d) * kb + v * c * ka) * ((cs * c - v * d) * kb + v * c * ka))
    with (cs * c * ka * kb) by (field; lra).
  (* ka (cs c kb - v c) <= kb (cs c - v d) *)
  assert (v * d * kb <= v * c). { rewrite Rmult_assoc. apply Rmult_le_compat_l; [lra|]. nra. }
  destruct (Rle_lt_dec (cs * c * kb) (v * c)) as [N|N].
  - assert (0 <= (v * c - cs * c * kb) * ka) by (apply Rmult_le_pos; lra).
    assert (v * d <= cs * c). { apply Rmult_le_compat; lra. }
    assert (0 <= (cs * c - v * d) * kb) by (apply Rmult_le_pos; lra). lra.
  - assert ((cs * c * kb - v * c) * ka <= (cs * c * kb - v * c) * 1) by (apply Rmult_le_compat_l; lra). lra.
Qed.

Lemma deflagration alpha v : 0 < alpha <= 1 / 2 -> 0 < v < Csound -> 0 < Getkappa_sw alpha v Csound <= 1.
Proof.
  intros [A A2] [V L]. assert (C : 0 < Csound) by (unfold Csound; lra). split; [apply defl_pos; auto|].
  rewrite kappa_regimes. destruct (Rlt_dec v Csound); [|lra]. apply defl_le1; auto.
  unfold kappaA. assert (D := kA_den alpha A). apply Rmult_le_reg_r with (1.36 - 0.037 * sqrt alpha + alpha); [exact D|].
  assert (S : sqrt alpha <= 0.8). { rewrite <- (sqrt_pow2 0.8) by lra. apply sqrt_le_1; lra. }
  assert (B : cpow v (6 / 5) <= 0.518).
  { apply Rle_trans with (cpow Csound (6 / 5)); [apply cpow_mono; lra|]. rewrite cpow_pos by exact C.
    replace (6 / 5) with (INR 6 / INR 5) by (cbn; lra). apply Rpower_frac_le; [exact C|lra|lia|]. unfold Csound. lra. }
  assert (0 < cpow v (6 / 5)) by now apply cpow_gt0. set (w := cpow v (6 / 5)) in *.
  replace (w * 6.9 * alpha / (1.36 - 0.037 * sqrt alpha + alpha) * (1.36 - 0.037 * sqrt alpha + alpha))
    with (w * 6.9 * alpha) by (field; lra). nra.
Qed.

(** strong deflagrations: more kinetic energy than energy *)
Lemma too_much : exists alpha v, 0 < alpha /\ 0 < v < Csound /\ 1 < GetK_sw alpha v Csound.
Proof.
  exists 100000, (9 / 10 * Csound). assert (C : 0 < Csound) by (unfold Csound; lra).
  set (v := 9 / 10 * Csound). assert (V : 0 < v) by (unfold v; lra).
  split; [lra|]. split; [split; unfold v; lra|].
  unfold GetK_sw. rewrite kappa_regimes. destruct (Rlt_dec v Csound) as [_|N]; [|unfold v in N; lra].
  assert (D := defl_den 100000 Csound ltac:(lra) C v ltac:(unfold v; lra)).
  unfold defl.
  assert (P5 : forall x, 0 < x -> cpow x (11 / 5) = x * cpow x (6 / 5)).
  { intros x X. rewrite !cpow_pos by exact X. replace (11 / 5) with (1 + 6 / 5) by lra. rewrite Rpower_plus, Rpower_1 by exact X. ring. }
  assert (W : cpow v (6 / 5) = cpow (9 / 10) (6 / 5) * cpow Csound (6 / 5)).
  { unfold v. rewrite !cpow_pos by lra. symmetry. apply Rpower_mult_distr; lra. }
  assert (W1 : 0.881 <= cpow (9 / 10) (6 / 5)).
  { rewrite cpow_pos by lra. replace (6 / 5) with (INR 6 / INR 5) by (cbn; lra). apply Rpower_frac_ge; [lra|lra|lia|lra]. }
  assert (W2 : cpow (9 / 10) (6 / 5) <= 0.882).
  { rewrite cpow_pos by lra. replace (6 / 5) with (INR 6 / INR 5) by (cbn; lra). apply Rpower_frac_le; [lra|lra|lia|lra]. }
  assert (C1 : 0.517 <= cpow Csound (6 / 5)).
  { rewrite cpow_pos by exact C. replace (6 / 5) with (INR 6 / INR 5) by (cbn; lra). apply Rpower_frac_ge; [exact C|lra|lia|]. unfold Csound. lra. }
  assert (B1 : 0.999 <= kappaB 100000).
  { unfold kappaB. assert (100 <= cpow 100000 (2 / 5)).
    { rewrite cpow_pos by lra. replace (2 / 5) with (INR 2 / INR 5) by (cbn; lra). apply Rpower_frac_ge; [lra|lra|lia|lra]. }
    assert (cpow (0.997 + 100000) (2 / 5) <= 100.001).
    { rewrite cpow_pos by lra. replace (2 / 5) with (INR 2 / INR 5) by (cbn; lra). apply Rpower_frac_le; [lra|lra|lia|lra]. }
    assert (0 < cpow (0.997 + 100000) (2 / 5)) by (apply cpow_gt0; lra).
    set (x := cpow 100000 (2 / 5)) in *. set (y := cpow (0.997 + 100000) (2 / 5)) in *.
    apply Rmult_le_reg_r with (0.017 + y); [lra|]. replace (x / (0.017 + y) * (0.017 + y)) with x by (field; lra). lra. }
  assert (B2 := kB_lt1 100000 ltac:(lra)).
  assert (A1 : 6.9 * cpow v (6 / 5) <= kappaA 100000 v).
  { unfold kappaA. assert (S : 36.8 <= sqrt 100000). { rewrite <- (sqrt_pow2 36.8) by lra. apply sqrt_le_1; lra. }
    assert (De := kA_den 100000 ltac:(lra)). assert (0 < cpow v (6 / 5)) by now apply cpow_gt0.
    set (w := cpow v (6 / 5)) in *. apply Rmult_le_reg_r with (1.36 - 0.037 * sqrt 100000 + 100000); [exact De|].
    replace (w * 6.9 * 100000 / (1.36 - 0.037 * sqrt 100000 + 100000) * (1.36 - 0.037 * sqrt 100000 + 100000))
      with (w * 6.9 * 100000) by (field; lra). nra. }
  rewrite !P5, W in * by assumption.
  assert (CP := cpow_gt0 Csound (6 / 5) C).
  set (c := cpow Csound (6 / 5)) in *. set (x := cpow (9 / 10) (6 / 5)) in *. set (ka := kappaA 100000 v) in *. set (kb := kappaB 100000) in *.
  set (den := (Csound * c - v * (x * c)) * kb + v * c * ka) in *.
  apply Rmult_lt_reg_r with (den * (1 + 100000)); [nra|].
  replace (Csound * c * ka * kb / den * 100000 / (1 + 100000) * (den * (1 + 100000))) with (Csound * c * ka * kb * 100000) by (field; lra).
  unfold den. change v with (9 / 10 * Csound).
  replace (1 * (((Csound * c - 9 / 10 * Csound * (x * c)) * kb + 9 / 10 * Csound * c * ka) * (1 + 100000)))
    with (Csound * c * (((1 - 9 / 10 * x) * kb + 9 / 10 * ka) * 100001)) by ring.
  replace (Csound * c * ka * kb * 100000) with (Csound * c * (ka * kb * 100000)) by ring.
  apply Rmult_lt_compat_l; [now apply Rmult_lt_0_compat|].
  assert (K : 3.14 <= ka). { apply Rle_trans with (6.9 * (x * c)); [|exact A1]. nra. }
  assert ((1 - 9 / 10 * x) * kb <= 0.2072). { assert (1 - 9 / 10 * x <= 0.2071) by lra. nra. }
  nra.
Qed.
