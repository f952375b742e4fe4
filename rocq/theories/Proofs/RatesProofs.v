(** Proofs for the rates of the vev-insertion approach. *)
From Coq Require Import Reals List ZArith Lra Lia.
From Coquelicot Require Import Complex.
From Verif Require Import Base Model.Rates Spec.RatesSpec Proofs.DerivLib.
Import ListNotations.
Open Scope R_scope.

Lemma relaxation_value : forall k w G h, w <> 0 -> G <> 0 ->
  relaxation k w G h = k ^ 2 / w ^ 2 * (h * ((w ^ 2 + G ^ 2 - k ^ 2) / G - G + k ^ 2 * G / (w ^ 2 + G ^ 2))).
Proof.
  intros k w G h W0 G0. unfold relaxation, cenergy. f_equal.
  assert (D : w ^ 2 + G ^ 2 <> 0) by nra.
  unfold Cdiv, Cinv, Cminus, Cmult, Copp, Cplus, Cconj, RtoC, Im. cbn [fst snd].
  field. repeat split; try assumption; nra.
Qed.

Lemma source_value : forall k w G n n', w <> 0 -> G <> 0 ->
  source k w G n n' = k ^ 2 / w ^ 2 *
    ((w ^ 2 + G ^ 2 - k ^ 2) / (2 * G) * n'
     + (k ^ 2 * w * G / (w ^ 2 + G ^ 2) ^ 2 * (n - 1 / 2) - G * n' / 2 * (1 + k ^ 2 * (w ^ 2 - G ^ 2) / (w ^ 2 + G ^ 2) ^ 2))).
Proof.
  intros k w G n n' W0 G0. unfold source, cenergy. f_equal.
  assert (D : w ^ 2 + G ^ 2 <> 0) by nra.
  unfold Cdiv, Cinv, Cminus, Cmult, Copp, Cplus, Cconj, RtoC, Im. cbn [fst snd].
  field. repeat split; try assumption; try nra.
  replace (((w + - w) * (w + - w) - (- G + - - - G) * (- G + - - - G)) ^ 2 +
  ((w + - w) * (- G + - - - G) + (- G + - - - G) * (w + - w)) ^ 2) with (16 * (G * G * G * G)) by ring.
  intro E. apply G0. assert (F : G * G * G * G = 0) by lra.
  destruct (Rmult_integral _ _ F) as [F1|F1]; [|exact F1]. destruct (Rmult_integral _ _ F1) as [F2|F2]; [|exact F2].
  destruct (Rmult_integral _ _ F2); assumption.
Qed.

Lemma energy_facts : forall k m2, 0 < m2 -> 0 < sqrt (k ^ 2 + m2) /\ (sqrt (k ^ 2 + m2)) ^ 2 = k ^ 2 + m2.
Proof.
  intros k m2 H. assert (P : 0 < k ^ 2 + m2) by nra. split; [apply sqrt_lt_R0; exact P|].
  rewrite <- Rsqr_pow2. apply Rsqr_sqrt. lra.
Qed.

(** the integrand without mass difference, as a function of the energy *)
Definition gam_lead (G w k : R) : R := k ^ 2 / G - k ^ 4 / (w ^ 2 * G) + k ^ 4 * G / w ^ 4.
Lemma gam_poly_zero : forall G m2 k, gam_poly G m2 0 k = gam_lead G (sqrt (k ^ 2 + m2)) k.
Proof. intros. unfold gam_poly, gam_lead. unfold Rdiv. ring. Qed.

Lemma gam_first_order : forall m2 k h, 0 < m2 ->
  agree_to_first_order (sqrt (k ^ 2 + m2)) (fun G => gam_poly G m2 0 k * h) (fun G => relaxation k (sqrt (k ^ 2 + m2)) G h).
Proof.
  intros m2 k h M2. destruct (energy_facts k m2 M2) as [W _]. set (w := sqrt (k ^ 2 + m2)) in *.
  exists (Rabs h * k ^ 4 / w ^ 6). intros G [G0 GW].
  rewrite gam_poly_zero. fold w. rewrite relaxation_value by lra.
  assert (D : 0 < w ^ 2 + G ^ 2) by nra.
  replace (gam_lead G w k * h - k ^ 2 / w ^ 2 * (h * ((w ^ 2 + G ^ 2 - k ^ 2) / G - G + k ^ 2 * G / (w ^ 2 + G ^ 2))))
    with (h * (k ^ 4 * G ^ 3 / (w ^ 4 * (w ^ 2 + G ^ 2)))) by (unfold gam_lead; field; lra).
  assert (K : 0 <= k ^ 4) by (replace (k ^ 4) with ((k ^ 2) ^ 2) by ring; apply pow2_ge_0).
  assert (W4 : 0 < w ^ 4) by (apply pow_lt; lra). assert (W6 : 0 < w ^ 6) by (apply pow_lt; lra).
  assert (G3 : 0 < G ^ 3) by (apply pow_lt; lra).
  rewrite Rabs_mult, (Rabs_pos_eq (k ^ 4 * G ^ 3 / _)).
  2: { apply Rmult_le_pos; [apply Rmult_le_pos; lra|]. left. apply Rinv_0_lt_compat. apply Rmult_lt_0_compat; assumption. }
  replace (Rabs h * k ^ 4 / w ^ 6 * G ^ 3) with (Rabs h * (k ^ 4 * G ^ 3 * / w ^ 6)) by (unfold Rdiv; ring).
  apply Rmult_le_compat_l; [apply Rabs_pos|]. unfold Rdiv. apply Rmult_le_compat_l; [apply Rmult_le_pos; lra|].
  apply Rinv_le_contravar; [exact W6|]. replace (w ^ 6) with (w ^ 4 * w ^ 2) by ring.
  apply Rmult_le_compat_l; [lra|]. nra.
Qed.

Definition scp_total (G w dw n n' k : R) : R := fold_right Rplus 0 (scp_terms G w dw n n' k).
(** what the sum would be with the fourth power of the energy in the fifth term *)
Definition scp_fixed (G w dw n n' k : R) : R := scp_total G w dw n n' k + G / 2 * (1 - k ^ 4 / w ^ 4) * n'.

Lemma scp_fixed_zero : forall G w n n' k, k <> 0 -> w <> 0 -> G <> 0 ->
  scp_fixed G w 0 n n' k = k ^ 4 * G / w ^ 5 * (n - 1 / 2) + (k ^ 2 / (2 * G) - k ^ 4 / (2 * w ^ 2 * G) - k ^ 4 * G / (2 * w ^ 4)) * n'.
Proof.
  intros G w n n' k K W G0. unfold scp_fixed, scp_total, scp_terms. cbn [fold_right]. field. auto.
Qed.

Lemma quotient_bound : forall w G a b, 0 < w -> 0 <= b <= a -> 
  0 <= (a * w ^ 2 + b * G ^ 2) / (w ^ 2 + G ^ 2) ^ 2 <= a / w ^ 2.
Proof.
  intros w G a b W [B A]. assert (W2 : 0 < w ^ 2) by nra. assert (G2 : 0 <= G ^ 2) by nra.
  set (x := w ^ 2) in *. set (y := G ^ 2) in *. assert (D : 0 < x + y) by lra. assert (D2 : 0 < (x + y) ^ 2) by nra.
  split.
  - apply Rmult_le_pos; [nra|]. left. apply Rinv_0_lt_compat. exact D2.
  - apply Rmult_le_reg_r with ((x + y) ^ 2 * x); [nra|].
    replace ((a * x + b * y) / (x + y) ^ 2 * ((x + y) ^ 2 * x)) with ((a * x + b * y) * x) by (field; lra).
    replace (a / x * ((x + y) ^ 2 * x)) with (a * (x + y) ^ 2) by (field; lra). 
    assert (0 <= (a - b) * (x * y)) by (apply Rmult_le_pos; nra).
    assert (0 <= a * (x * y)) by (apply Rmult_le_pos; nra). assert (0 <= a * y ^ 2) by (apply Rmult_le_pos; nra). nra.
Qed.

Lemma scp_first_order : forall m2 k n n', 0 < m2 -> k <> 0 ->
  agree_to_first_order (sqrt (k ^ 2 + m2)) (fun G => scp_fixed G (sqrt (k ^ 2 + m2)) 0 n n' k) (fun G => source k (sqrt (k ^ 2 + m2)) G n n').
Proof.
  intros m2 k n n' M2 K. destruct (energy_facts k m2 M2) as [W _]. set (w := sqrt (k ^ 2 + m2)) in *.
  exists (k ^ 4 / w ^ 5 * Rabs (n - 1 / 2) * (2 / w ^ 2) + k ^ 4 / (2 * w ^ 4) * Rabs n' * (3 / w ^ 2)). intros G [G0 GW].
  rewrite scp_fixed_zero, source_value by lra.
  assert (D : 0 < w ^ 2 + G ^ 2) by nra.
  replace (k ^ 4 * G / w ^ 5 * (n - 1 / 2) + (k ^ 2 / (2 * G) - k ^ 4 / (2 * w ^ 2 * G) - k ^ 4 * G / (2 * w ^ 4)) * n' - _)
    with (k ^ 4 / w ^ 5 * (n - 1 / 2) * ((2 * w ^ 2 + 1 * G ^ 2) / (w ^ 2 + G ^ 2) ^ 2) * G ^ 3
          - k ^ 4 / (2 * w ^ 4) * n' * ((3 * w ^ 2 + 1 * G ^ 2) / (w ^ 2 + G ^ 2) ^ 2) * G ^ 3) by (field; lra).
  pose proof (quotient_bound w G 2 1 W ltac:(lra)) as Q2. pose proof (quotient_bound w G 3 1 W ltac:(lra)) as Q3.
  set (q2 := (2 * w ^ 2 + 1 * G ^ 2) / (w ^ 2 + G ^ 2) ^ 2) in *. set (q3 := (3 * w ^ 2 + 1 * G ^ 2) / (w ^ 2 + G ^ 2) ^ 2) in *.
  assert (K4 : 0 <= k ^ 4) by (replace (k ^ 4) with ((k ^ 2) ^ 2) by ring; apply pow2_ge_0).
  assert (A : 0 <= k ^ 4 / w ^ 5) by (apply Rmult_le_pos; [exact K4|left; apply Rinv_0_lt_compat, pow_lt; lra]).
  assert (B : 0 <= k ^ 4 / (2 * w ^ 4)) by (apply Rmult_le_pos; [exact K4|left; apply Rinv_0_lt_compat; pose proof (pow_lt w 4 W); lra]).
  assert (G3 : 0 < G ^ 3) by (apply pow_lt; lra).
  set (a := k ^ 4 / w ^ 5) in *. set (b := k ^ 4 / (2 * w ^ 4)) in *. set (g := G ^ 3) in *.
  eapply Rle_trans; [apply Rabs_triang|]. rewrite Rabs_Ropp, Rmult_plus_distr_r. apply Rplus_le_compat.
  - rewrite !Rabs_mult, (Rabs_pos_eq a), (Rabs_pos_eq q2), (Rabs_pos_eq g) by lra.
    apply Rmult_le_compat_r; [lra|]. apply Rmult_le_compat_l; [apply Rmult_le_pos; [exact A|apply Rabs_pos]|lra].
  - rewrite !Rabs_mult, (Rabs_pos_eq b), (Rabs_pos_eq q3), (Rabs_pos_eq g) by lra.
    apply Rmult_le_compat_r; [lra|]. apply Rmult_le_compat_l; [apply Rmult_le_pos; [exact B|apply Rabs_pos]|lra].
Qed.

(** the sum of the program does not agree with the formula to first order *)
Lemma scp_not_first_order : forall m2 k n n', 0 < m2 -> k <> 0 -> n' <> 0 ->
  ~ agree_to_first_order (sqrt (k ^ 2 + m2)) (fun G => scp_total G (sqrt (k ^ 2 + m2)) 0 n n' k) (fun G => source k (sqrt (k ^ 2 + m2)) G n n').
Proof.
  intros m2 k n n' M2 K N [M1 H1]. destruct (scp_first_order m2 k n n' M2 K) as [M H].
  destruct (energy_facts k m2 M2) as [W W2]. set (w := sqrt (k ^ 2 + m2)) in *.
  set (c := / 2 * (1 - k ^ 4 / w ^ 4) * n').
  assert (C0 : c <> 0).
  { unfold c. assert (P : 0 < 1 - k ^ 4 / w ^ 4).
    { replace (1 - k ^ 4 / w ^ 4) with ((w ^ 4 - k ^ 4) * / w ^ 4) by (field; lra).
      apply Rmult_lt_0_compat; [|apply Rinv_0_lt_compat, pow_lt; lra].
      replace (w ^ 4) with ((w ^ 2) ^ 2) by ring. rewrite W2. nra. }
    apply Rmult_integral_contrapositive_currified; [lra|exact N]. }
  assert (B : forall G, 0 < G <= w -> Rabs c * G <= (M + M1) * G ^ 3).
  { intros G HG. pose proof (H G HG) as A. pose proof (H1 G HG) as A1. unfold scp_fixed in A.
    replace (Rabs c * G) with (Rabs (c * G)) by (rewrite Rabs_mult, (Rabs_pos_eq G) by lra; reflexivity).
    set (t := scp_total G w 0 n n' k) in *. set (f := source k w G n n') in *.
    replace (c * G) with ((t + G / 2 * (1 - k ^ 4 / w ^ 4) * n' - f) - (t - f)) by (unfold c, Rdiv; ring).
    eapply Rle_trans; [apply Rabs_triang|]. rewrite Rabs_Ropp. lra. }
  assert (CP : 0 < Rabs c) by (apply Rabs_pos_lt; exact C0).
  set (S := Rabs (M + M1) + 1). assert (SP : 0 < S) by (unfold S; pose proof (Rabs_pos (M + M1)); lra).
  set (x := Rmin (Rmin w 1) (Rabs c / (2 * S))).
  assert (XP : 0 < x). { unfold x. apply Rmin_glb_lt; [apply Rmin_glb_lt; lra|]. apply Rmult_lt_0_compat; [exact CP|]. apply Rinv_0_lt_compat. lra. }
  assert (XW : x <= w) by (unfold x; eapply Rle_trans; [apply Rmin_l|apply Rmin_l]).
  assert (X1 : x <= 1) by (unfold x; eapply Rle_trans; [apply Rmin_l|apply Rmin_r]).
  assert (XC : x * (2 * S) <= Rabs c).
  { assert (E : x <= Rabs c / (2 * S)) by (unfold x; apply Rmin_r).
    apply (Rmult_le_compat_r (2 * S)) in E; [|lra]. replace (Rabs c / (2 * S) * (2 * S)) with (Rabs c) in E by (field; lra). exact E. }
  pose proof (B x (conj XP XW)) as BB.
  assert (L : (M + M1) * x ^ 3 <= S * x ^ 3).
  { apply Rmult_le_compat_r; [left; apply pow_lt; exact XP|]. unfold S. pose proof (Rle_abs (M + M1)). lra. }
  assert (L2 : S * x ^ 3 <= S * x * x). { replace (S * x ^ 3) with (S * x * x * x) by ring.
    assert (0 <= S * x * x) by (apply Rmult_le_pos; [apply Rmult_le_pos; lra|lra]). nra. }
  assert (L3 : x * (2 * S) * x <= Rabs c * x) by (apply Rmult_le_compat_r; lra).
  assert (0 < S * x * x) by (apply Rmult_lt_0_compat; [apply Rmult_lt_0_compat; lra|lra]). nra.
Qed.

Lemma energy_shift : forall k m2, 0 < m2 -> dl (fun x => sqrt (k ^ 2 + (m2 + x / 2))) 0 (1 / (4 * sqrt (k ^ 2 + m2))).
Proof.
  intros k m2 H. destruct (energy_facts k m2 H) as [W _].
  assert (D : dl (fun x => k ^ 2 + (m2 + x / 2)) 0 (0 + (0 + (1 * 2 - 0 * 0) / 2 ^ 2))).
  { apply dl_plus; [apply dl_const|]. apply dl_plus; [apply dl_const|].
    apply (dl_div (fun x => x) (fun _ => 2) 0 1 0); [apply dl_id|apply dl_const|lra]. }
  eapply dl_eq; [apply (dl_sqrt _ _ _ D)|]; cbv beta; replace (0 / 2) with 0 by field; rewrite Rplus_0_r; [nra|]. field. lra.
Qed.

Lemma dl_inv_pow : forall n v c, v <> 0 -> dl (fun x => c / x ^ S n) v (- (INR (S n)) * c / v ^ S (S n)).
Proof.
  intros n v c V. eapply dl_eq.
  - apply (dl_div (fun _ => c) (fun x => x ^ S n)); [apply dl_const|apply (dl_pow (fun x => x)); apply dl_id|apply pow_nonzero; exact V].
  - cbv beta. rewrite Nat.pred_succ. cbn [pow]. field. split; [apply pow_nonzero; exact V|exact V].
Qed.

Lemma gam_lead_deriv : forall G v k, v <> 0 -> G <> 0 -> dl (fun v => gam_lead G v k) v (2 * k ^ 4 / (v ^ 3 * G) - 4 * k ^ 4 * G / v ^ 5).
Proof.
  intros G v k V G0. apply dl_ext_loc with (f := fun v => k ^ 2 / G - (k ^ 4 / G) / v ^ 2 + k ^ 4 * G / v ^ 4) (eps0 := Rabs v).
  - apply Rabs_pos_lt. exact V.
  - intros y H. assert (y <> 0). { intros ->. replace (0 - v) with (- v) in H by ring. rewrite Rabs_Ropp in H. lra. }
    unfold gam_lead. field. auto.
  - eapply dl_eq; [apply dl_plus; [apply dl_minus; [apply dl_const|apply (dl_inv_pow 1)]|apply (dl_inv_pow 3)]; exact V|].
    rewrite !S_INR. cbn [INR]. field. auto.
Qed.

Lemma gam_mass_difference : forall G m2 dm2 k, 0 < m2 -> G <> 0 ->
  exists c, dl (fun x => gam_poly G (m2 + x / 2) 0 k) 0 c /\ gam_poly G m2 dm2 k = gam_poly G m2 0 k + c * dm2.
Proof.
  intros G m2 dm2 k H G0. destruct (energy_facts k m2 H) as [W _]. set (w := sqrt (k ^ 2 + m2)) in *.
  exists ((2 * k ^ 4 / (w ^ 3 * G) - 4 * k ^ 4 * G / w ^ 5) * (1 / (4 * w))). split.
  - apply dl_ext with (f := fun x => gam_lead G (sqrt (k ^ 2 + (m2 + x / 2))) k).
    { intro y. symmetry. apply gam_poly_zero. }
    apply (dl_comp (fun x => sqrt (k ^ 2 + (m2 + x / 2))) (fun v => gam_lead G v k)); [apply energy_shift; exact H|].
    replace (0 / 2) with 0 by field. rewrite Rplus_0_r. fold w. apply gam_lead_deriv; [lra|exact G0].
  - unfold gam_poly. fold w. field. split; [lra|exact G0].
Qed.

Lemma scp_mass_difference : forall G m2 dm2 k (n : R -> R) n', 0 < m2 -> G <> 0 -> k <> 0 ->
  let w := sqrt (k ^ 2 + m2) in
  dl n w n' ->
  exists c, dl (fun x => let v := sqrt (k ^ 2 + (m2 + x / 2)) in scp_fixed G v 0 (n v) n' k) 0 c /\
    scp_fixed G w (dm2 / (2 * w)) (n w) n' k = scp_fixed G w 0 (n w) n' k + c * dm2.
Proof.
  intros G m2 dm2 k n n' H G0 K w N. destruct (energy_facts k m2 H) as [W _]. fold w in W.
  exists ((5 * k ^ 4 * G / (2 * w ^ 6) - 5 * k ^ 4 * G * n w / w ^ 6 + k ^ 4 * G * n' / w ^ 5 + (k ^ 4 / (w ^ 3 * G) + 2 * k ^ 4 * G / w ^ 5) * n')
          * (1 / (4 * w))). split.
  - cbv zeta. pose (F := fun v => - (k ^ 4 * G / 2) / v ^ 5 + k ^ 4 * G / v ^ 5 * n v
        + ((k ^ 2 / (2 * G) - (k ^ 4 / (2 * G)) / v ^ 2) - (k ^ 4 * G / 2) / v ^ 4) * n').
    apply dl_ext_loc with (eps0 := m2) (f := fun x => F (sqrt (k ^ 2 + (m2 + x / 2)))).
    + exact H.
    + intros y Y. assert (P : 0 < m2 + y / 2). { apply Rabs_def2 in Y. lra. }
      destruct (energy_facts k (m2 + y / 2) P) as [V _]. rewrite scp_fixed_zero by lra. unfold F. field. lra.
    + apply (dl_comp (fun x => sqrt (k ^ 2 + (m2 + x / 2))) F); [apply energy_shift; exact H|].
      replace (0 / 2) with 0 by field. rewrite Rplus_0_r. fold w. unfold F. eapply dl_eq.
      * apply dl_plus; [apply dl_plus; [apply (dl_inv_pow 4); lra|apply (dl_mult (fun v => k ^ 4 * G / v ^ 5) n); [apply (dl_inv_pow 4); lra|exact N]]|].
        apply (dl_mult (fun v => (k ^ 2 / (2 * G) - (k ^ 4 / (2 * G)) / v ^ 2) - (k ^ 4 * G / 2) / v ^ 4) (fun _ => n')); [|apply dl_const].
        apply dl_minus; [apply dl_minus; [apply dl_const|apply (dl_inv_pow 1); lra]|apply (dl_inv_pow 3); lra].
      * rewrite !S_INR. cbn [INR]. field. lra.
  - unfold scp_fixed, scp_total, scp_terms. cbn [fold_right]. field. lra.
Qed.

(** thermal distribution functions *)
Lemma nf_derivative : forall T w, T <> 0 -> dl (nf_value T) w (nf_prime_value T w).
Proof.
  intros T w T0. unfold nf_value, nf_prime_value. assert (P := exp_pos (w / T)). eapply dl_eq.
  - apply (dl_div (fun _ => 1) (fun w => exp (w / T) + 1)); [apply dl_const| |lra].
    apply dl_plus; [|apply dl_const]. apply (dl_exp (fun w => w / T)).
    apply (dl_div (fun w => w) (fun _ => T)); [apply dl_id|apply dl_const|exact T0].
  - replace (1 / T * w) with (w / T) by (field; exact T0). field. repeat split; (exact T0 || lra).
Qed.
Lemma hf_is_derivative : forall T w, T <> 0 -> hf_value T w = - T * nf_prime_value T w.
Proof.
  intros T w T0. unfold hf_value, nf_prime_value. replace (w * (1 / T)) with (1 / T * w) by ring.
  assert (P := exp_pos (1 / T * w)). field. repeat split; (exact T0 || lra).
Qed.
Lemma hf_derivative : forall T w, T <> 0 -> dl (hf_value T) w (hf_prime_value T w).
Proof.
  intros T w T0. unfold hf_value, hf_prime_value. assert (P := exp_pos (w * (1 / T))). eapply dl_eq.
  - assert (E : dl (fun w => exp (w * (1 / T))) w (exp (w * (1 / T)) * (1 * (1 / T) + w * 0))).
    { apply (dl_exp (fun w => w * (1 / T))). apply (dl_mult (fun w => w) (fun _ => 1 / T)); [apply dl_id|apply dl_const]. }
    apply (dl_div (fun w => exp (w * (1 / T))) (fun w => (1 + exp (w * (1 / T))) ^ 2)); [exact E| |apply pow_nonzero; lra].
    apply (dl_pow (fun w => 1 + exp (w * (1 / T)))). apply dl_plus; [apply dl_const|exact E].
  - cbn [INR pred]. field. repeat split; (exact T0 || lra).
Qed.

(** cuts *)
Lemma small_error : forall x, Rabs (small x - x) <= smallcut.
Proof.
  intro x. unfold small. destruct (Rlt_dec (Rabs x) smallcut) as [H|H].
  - replace (0 - x) with (- x) by ring. rewrite Rabs_Ropp. lra.
  - replace (x - x) with 0 by ring. rewrite Rabs_R0. unfold smallcut. left. apply Rinv_0_lt_compat. apply pow_lt. lra.
Qed.

Lemma scp_sum_acc : forall l a b, Rabs (fold_left (fun acc x => small (acc + x)) l a - (b + fold_right Rplus 0 l))
  <= INR (length l) * smallcut + Rabs (a - b).
Proof.
  intro l. induction l as [|x l IH]; intros a b.
  - cbn. rewrite Rplus_0_r, Rmult_0_l, Rplus_0_l. apply Rle_refl.
  - cbn [fold_left fold_right length]. rewrite <- Rplus_assoc. eapply Rle_trans; [apply IH|].
    rewrite S_INR. pose proof (small_error (a + x)) as E.
    assert (B : Rabs (small (a + x) - (b + x)) <= smallcut + Rabs (a - b)).
    { replace (small (a + x) - (b + x)) with ((small (a + x) - (a + x)) + (a - b)) by ring.
      eapply Rle_trans; [apply Rabs_triang|]. lra. }
    lra.
Qed.
Lemma scp_sum_error : forall l, Rabs (scp_sum l - fold_right Rplus 0 l) <= INR (length l) * smallcut.
Proof.
  intro l. pose proof (scp_sum_acc l 0 0) as H. rewrite Rplus_0_l in H. replace (0 - 0) with 0 in H by ring. rewrite Rabs_R0, Rplus_0_r in H. exact H.
Qed.

Lemma gam_value : forall lepton T m m2 dm2 k r, gam_integrand lepton T m m2 dm2 k = Ok r -> mass_threshold < Rabs m2 ->
  exists I, r = rate_density 3 T m I /\
    let p := gam_poly (width lepton T) m2 dm2 k in
    Rabs (I - p * hf_value T (sqrt (k ^ 2 + m2))) <= (1 + Rabs p) * smallcut.
Proof.
  intros lepton T m m2 dm2 k r H M. unfold gam_integrand in H. destruct (Rlt_dec mass_threshold (Rabs m2)); [|contradiction].
  unfold hf in H. destruct (Rle_dec _ exp_limit); [|discriminate]. cbn [bind] in H. apply (f_equal (fun o => match o with Ok x => x | _ => 0 end)) in H. subst r.
  set (p := gam_poly (width lepton T) m2 dm2 k). set (h := hf_value T (sqrt (k ^ 2 + m2))).
  exists (small (p * small h)). split.
  - unfold rate_density. unfold Rdiv. f_equal; [f_equal; ring|]. f_equal. ring.
  - cbv zeta. pose proof (small_error (p * small h)) as A. pose proof (small_error h) as B.
    replace (small (p * small h) - p * h) with ((small (p * small h) - p * small h) + p * (small h - h)) by ring.
    eapply Rle_trans; [apply Rabs_triang|]. rewrite Rabs_mult.
    assert (Rabs p * Rabs (small h - h) <= Rabs p * smallcut) by (apply Rmult_le_compat_l; [apply Rabs_pos|exact B]). lra.
Qed.

Lemma scp_value : forall lepton T vw m thp m2 dm2 k r, scp_integrand lepton T vw m thp m2 dm2 k = Ok r -> 1 / 1000 < Rabs m2 -> k <> 0 ->
  exists I n n', r = source_density 3 vw m thp I /\
    let w := sqrt (k ^ 2 + m2) in
    Rabs (n - nf_value T w) <= smallcut /\ Rabs (n' - nf_prime_value T w) <= smallcut /\
    Rabs (I - scp_total (width lepton T) w (dm2 / (2 * w)) n n' k) <= 6 * smallcut.
Proof.
  intros lepton T vw m thp m2 dm2 k r H M K. unfold scp_integrand in H. destruct (Rlt_dec (1 / 1000) (Rabs m2)); [|contradiction].
  destruct (Req_EM_T k 0); [contradiction|]. apply (f_equal (fun o => match o with Ok x => x | _ => 0 end)) in H. subst r.
  replace (k * k + m2) with (k ^ 2 + m2) by ring. set (w := sqrt (k ^ 2 + m2)).
  eexists. exists (small (nf_value T w)), (small (nf_prime_value T w)). split; [|split; [apply small_error|split; [apply small_error|]]].
  - unfold source_density. unfold Rdiv. f_equal; [|f_equal; ring]. f_equal. ring.
  - pose proof (scp_sum_error (scp_terms (width lepton T) w (dm2 / (2 * w)) (small (nf_value T w)) (small (nf_prime_value T w)) k)) as E.
    replace (INR (length _)) with 6 in E by (cbn; ring). exact E.
Qed.

Lemma hf_defined : forall T k m2, 15 <= T -> 0 < m2 <= T ^ 2 -> 0 <= k <= 10 ^ 4 -> exists h, hf T (sqrt (k ^ 2 + m2)) = Ok h.
Proof.
  intros T k m2 HT [M0 M1] [K0 K1]. unfold hf. destruct (Rle_dec _ exp_limit) as [H|H]; [eexists; reflexivity|]. exfalso. apply H.
  destruct (energy_facts k m2 M0) as [W W2]. set (w := sqrt (k ^ 2 + m2)) in *.
  assert (B : w <= k + T). { destruct (Rle_dec w (k + T)) as [L|L]; [exact L|]. exfalso. nra. }
  apply Rmult_le_reg_r with T; [lra|]. replace (w * (1 / T) * T) with w by (field; lra).
  unfold exp_limit. replace (10 ^ 4) with 10000 in K1 by ring. lra.
Qed.
Lemma hf_overflow : hf 10 (sqrt ((10 ^ 4) ^ 2 + 1)) = Throw RuntimeError.
Proof.
  unfold hf. destruct (Rle_dec _ exp_limit) as [H|H]; [|reflexivity]. exfalso.
  assert (W : 10 ^ 4 <= sqrt ((10 ^ 4) ^ 2 + 1)).
  { rewrite <- (sqrt_pow2 (10 ^ 4)) at 1 by (apply pow_le; lra). apply sqrt_le_1_alt. lra. }
  unfold exp_limit in H. replace (10 ^ 4) with 10000 in * by ring. lra.
Qed.

Lemma top_thermal : forall gp g gs y T, thermal_q gp g gs y T =
  (singlet_mass gp g gs (2 / 3) casimir_colour y T,
   singlet_mass gp g gs (2 / 3) casimir_colour y T - doublet_mass gp g gs (1 / 6) casimir_colour y T).
Proof.
  intros. unfold thermal_q, singlet_mass, doublet_mass, thermal_mass, casimir_colour, casimir_isospin. f_equal; field.
Qed.
Lemma bottom_thermal : forall gp g gs y T, thermal_q gp g gs y T =
  (singlet_mass gp g gs (- (1 / 3)) casimir_colour y T + gp ^ 2 * T ^ 2 / 24,
   singlet_mass gp g gs (- (1 / 3)) casimir_colour y T - doublet_mass gp g gs (1 / 6) casimir_colour y T + gp ^ 2 * T ^ 2 / 24).
Proof.
  intros. unfold thermal_q, singlet_mass, doublet_mass, thermal_mass, casimir_colour, casimir_isospin. f_equal; field.
Qed.
Lemma tau_thermal : forall gp g gs y T, thermal_l gp g y T =
  (singlet_mass gp g gs (- 1) 0 y T,
   singlet_mass gp g gs (- 1) 0 y T - doublet_mass gp g gs (- (1 / 2)) 0 y T + 21 / 32 * gp ^ 2 * T ^ 2).
Proof.
  intros. unfold thermal_l, singlet_mass, doublet_mass, thermal_mass, casimir_colour, casimir_isospin. f_equal; field.
Qed.

Lemma yukawa_masses : forall gp g gs v tanb type mt mb mtau T t, 0 < v -> 0 < tanb ->
  set_thermal gp g gs v tanb type mt mb mtau T = Ok t ->
  (type = 1%Z \/ type = 2%Z) /\
  let v2 := v * sin (atan tanb) in
  let vd := if Z.eqb type 1 then v2 else v * cos (atan tanb) in
  t_yt t * v2 / sqrt 2 = mt /\ t_yb t * vd / sqrt 2 = mb /\ t_ytau t * vd / sqrt 2 = mtau /\
  t_top t = thermal_q gp g gs (t_yt t) T /\ t_bot t = thermal_q gp g gs (t_yb t) T /\ t_tau t = thermal_l gp g (t_ytau t) T.
Proof.
  intros gp g gs v tanb type mt mb mtau T t V TB H.
  assert (A : 0 < atan tanb < PI / 2). { split; [rewrite <- atan_0; apply atan_increasing; exact TB|apply atan_bound]. }
  assert (S : 0 < sin (atan tanb)) by (apply sin_gt_0; lra).
  assert (C : 0 < cos (atan tanb)) by (apply cos_gt_0; lra).
  assert (Q : 0 < sqrt 2) by (apply sqrt_lt_R0; lra).
  unfold set_thermal in H. destruct (Z.eqb_spec type 1) as [-> | N1].
  - apply (f_equal (fun o => match o with Ok x => x | _ => t end)) in H. subst t. split; [auto|].
    cbn. repeat split; field; lra.
  - destruct (Z.eqb_spec type 2) as [-> | N2]; [|discriminate].
    apply (f_equal (fun o => match o with Ok x => x | _ => t end)) in H. subst t. split; [auto|].
    cbn. repeat split; field; lra.
Qed.

Lemma colour_lepton : exists r I, gam_integrand true 1 1 1 0 1 = Ok r /\ r = rate_density 3 1 1 I /\ r <> rate_density 1 1 1 I.
Proof.
  assert (P := PI_RGT_0).
  unfold gam_integrand. destruct (Rlt_dec mass_threshold (Rabs 1)) as [A|A].
  2: { exfalso. apply A. rewrite Rabs_R1. unfold mass_threshold. replace (10 ^ 4) with 10000 by ring. lra. }
  assert (E : 1 ^ 2 + 1 = 2) by ring. rewrite E.
  assert (Q : 1 < sqrt 2 < 2). { pose proof (sqrt_lt_R0 2 ltac:(lra)). pose proof (pow2_sqrt 2 ltac:(lra)). nra. }
  unfold hf. destruct (Rle_dec (sqrt 2 * (1 / 1)) exp_limit) as [B|B].
  2: { exfalso. apply B. unfold exp_limit. lra. }
  cbn [bind]. eexists. exists (small (gam_poly (width true 1) 1 0 1 * small (hf_value 1 (sqrt 2)))). split; [reflexivity|].
  assert (X : 1 < exp (sqrt 2 * (1 / 1)) <= 9).
  { replace (sqrt 2 * (1 / 1)) with (sqrt 2) by field. split; [rewrite <- exp_0; apply exp_increasing; lra|].
    apply Rle_trans with (exp (1 + 1)); [left; apply exp_increasing; lra|]. rewrite exp_plus.
    pose proof exp_le_3. pose proof (exp_pos 1). nra. }
  assert (H : 1 / 100 <= hf_value 1 (sqrt 2)).
  { unfold hf_value. set (x := exp (sqrt 2 * (1 / 1))) in *. apply Rmult_le_reg_r with ((1 + x) ^ 2); [nra|].
    replace (x / (1 + x) ^ 2 * (1 + x) ^ 2) with x by (field; lra). nra. }
  assert (C : 0 < smallcut < 1 / 100).
  { unfold smallcut. split; [apply Rinv_0_lt_compat, pow_lt; lra|]. replace (1 / 100) with (/ 100) by field. apply Rinv_lt_contravar; [|].
    - apply Rmult_lt_0_compat; [lra|apply pow_lt; lra].
    - replace 100 with (10 ^ 2) by ring. apply Rlt_pow; [lra|]. repeat constructor. }
  assert (SH : small (hf_value 1 (sqrt 2)) = hf_value 1 (sqrt 2)).
  { unfold small. destruct (Rlt_dec _ smallcut) as [L|L]; [|reflexivity]. rewrite Rabs_pos_eq in L; lra. }
  rewrite SH. set (h := hf_value 1 (sqrt 2)) in *.
  assert (G : 1 <= gam_poly (width true 1) 1 0 1).
  { rewrite gam_poly_zero. rewrite E. unfold gam_lead, width. replace (sqrt 2 ^ 4) with 4.
    2: { replace (sqrt 2 ^ 4) with ((sqrt 2 ^ 2) ^ 2) by ring. rewrite pow2_sqrt by lra. ring. }
    rewrite pow2_sqrt by lra. lra. }
  set (p := gam_poly (width true 1) 1 0 1) in *.
  assert (SP : small (p * h) = p * h).
  { unfold small. destruct (Rlt_dec _ smallcut) as [L|L]; [|reflexivity]. rewrite Rabs_pos_eq in L; nra. }
  rewrite SP. assert (PH : 0 < p * h) by nra. unfold rate_density. split.
  - field. lra.
  - intro Y. apply (f_equal (fun x => x * (PI * PI))) in Y.
    replace (6 / 1 ^ 2 * (3 * (2 * 1 * 1) * (p * h)) / (2 * PI * PI * 1) * (PI * PI)) with (18 * (p * h)) in Y by (field; lra).
    replace (6 / 1 ^ 2 * (1 * (2 * 1 ^ 2) * (p * h)) / (2 * PI ^ 2 * 1) * (PI * PI)) with (6 * (p * h)) in Y by (field; lra). lra.
Qed.

Lemma thresholds : forall lepton T vw m thp m2 dm2 k,
  (Rabs m2 < / 10 ^ 4 -> gam_integrand lepton T m m2 dm2 k = Throw RuntimeError) /\
  (Rabs m2 < 1 / 1000 -> scp_integrand lepton T vw m thp m2 dm2 k = Throw RuntimeError).
Proof.
  intros. unfold gam_integrand, scp_integrand, mass_threshold. split; intro H.
  - destruct (Rlt_dec (/ 10 ^ 4) (Rabs m2)) as [A|A]; [exfalso; lra|]. destruct (Rlt_dec (Rabs m2) (/ 10 ^ 4)); [reflexivity|contradiction].
  - destruct (Rlt_dec (1 / 1000) (Rabs m2)) as [A|A]; [exfalso; lra|]. destruct (Rlt_dec (Rabs m2) (1 / 1000)); [reflexivity|contradiction].
Qed.
