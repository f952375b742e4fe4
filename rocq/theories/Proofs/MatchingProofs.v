(** The interpolated thermal functions at their thresholds, and the one-loop potential at high
    temperature (C85, C86). *)
From Coq Require Import Reals Lra Lia Psatz ZArith.
From Verif.Model Require Import Base Thermal Loop.
From Verif.Spec Require Import ThermalSpec.
From Verif.Proofs Require Import DerivLib ThermalProofs KappaProofs NumBounds ThresholdProofs LoopProofs.
Open Scope R_scope.

Lemma cont_near f x d eps : dl f x d -> 0 < eps -> exists delta, 0 < delta /\ forall y, Rabs (y - x) < delta -> Rabs (f y - f x) < eps.
Proof.
  intros D E. assert (C : continuity_pt f x) by (apply derivable_continuous_pt; exists d; exact D).
  destruct (C eps E) as (a & A & B). exists a. split; [exact A|]. intros y Y.
  destruct (Req_dec y x) as [->|N]; [rewrite Rminus_eq_0, Rabs_R0; exact E|].
  apply (B y). split; [split; [exact I|auto]|exact Y].
Qed.
Lemma cont_near' f x eps : continuity_pt f x -> 0 < eps -> exists delta, 0 < delta /\ forall y, Rabs (y - x) < delta -> Rabs (f y - f x) < eps.
Proof.
  intros C E. destruct (C eps E) as (a & A & B). exists a. split; [exact A|]. intros y Y.
  destruct (Req_dec y x) as [->|N]; [rewrite Rminus_eq_0, Rabs_R0; exact E|].
  apply (B y). split; [split; [exact I|auto]|exact Y].
Qed.

(** gluing two functions with a small jump *)
Lemma glue F f g x e1 e2 d1 d2 r : 0 < r ->
  (forall y, Rabs (y - x) < r -> y < x -> F y = Some (f y)) -> (forall y, Rabs (y - x) < r -> x <= y -> F y = Some (g y)) ->
  dl f x d1 -> dl g x d2 -> Rabs (g x - f x) < e1 -> e1 < e2 -> oscillation_below F x e2.
Proof.
  intros R0 Ff Fg Df Dg J E. set (h := (e2 - e1) / 2). assert (H : 0 < h) by (unfold h; lra).
  destruct (cont_near f x d1 h Df H) as (a & A & A'). destruct (cont_near g x d2 h Dg H) as (b & B & B').
  exists (Rmin r (Rmin a b)). split; [repeat apply Rmin_pos; assumption|]. intros y z Y Z.
  assert (M1 := Rmin_l r (Rmin a b)). assert (M2 := Rmin_r r (Rmin a b)). assert (M3 := Rmin_l a b). assert (M4 := Rmin_r a b).
  assert (V : forall w, Rabs (w - x) < Rmin r (Rmin a b) -> exists v, F w = Some v /\ (Rabs (v - f x) < h \/ Rabs (v - g x) < h)).
  { intros w W. destruct (Rlt_le_dec w x) as [L|L].
    - exists (f w). split; [apply Ff; lra|]. left. apply A'. lra.
    - exists (g w). split; [apply Fg; lra|]. right. apply B'. lra. }
  destruct (V y Y) as (u & U & Hu). destruct (V z Z) as (v & Vv & Hv). exists u, v. split; [exact U|]. split; [exact Vv|].
  assert (G : Rabs (g x - f x) < e1) by exact J. assert (0 <= Rabs (g x - f x)) by apply Rabs_pos.
  assert (2 * h = e2 - e1) by (unfold h; lra). clear - Hu Hv G H H0 H1. apply Rabs_def2 in G.
  destruct Hu as [Hu|Hu], Hv as [Hv|Hv]; apply Rabs_def2 in Hu; apply Rabs_def2 in Hv; apply Rabs_def1; lra.
Qed.

Section Zeta.
  Variable zeta : nat -> R.
  Hypothesis Z3 : is_zeta 3 (zeta 3%nat).
  Hypothesis Z5 : is_zeta 5 (zeta 5%nat).
  Hypothesis Z7 : is_zeta 7 (zeta 7%nat).

  Lemma fermion_threshold : oscillation_below (fun y => JfermionInterpolated (K_fermion zeta) y 0) C_FermionTheta (1 / 1000000).
  Proof.
    assert (T : 0 < C_FermionTheta) by (unfold C_FermionTheta; lra).
    eapply (glue _ (fun y => - fermion_low0 (K_fermion zeta) 4 y - C_FermionShift) (fun y => - high0 K_high 3 y) _ (4 / 10000000) _ _ _ C_FermionTheta T).
    - intros y Y L. apply Rabs_def2 in Y. unfold JfermionInterpolated. destruct (Rle_dec C_FermionTheta y); [lra|].
      unfold JfermionInterpolatedLow. destruct (Req_EM_T y 0); [lra|]. cbn [Z.eqb]. destruct (Rlt_dec y 0); [lra|]. reflexivity.
    - intros y Y L. unfold JfermionInterpolated. destruct (Rle_dec C_FermionTheta y); [|lra]. rewrite JHigh_pos by lra. reflexivity.
    - apply dl_minus; [apply dl_opp, fermion_low_deriv; exact T|apply dl_const].
    - apply dl_opp, high_deriv; exact T.
    - now apply fermion_jump.
    - lra.
  Qed.
  Lemma boson_threshold neg : oscillation_below (fun y => JbosonInterpolated (K_boson zeta) neg y 0) C_BosonTheta (1 / 1000000).
  Proof.
    assert (T : 0 < C_BosonTheta) by (unfold C_BosonTheta; lra).
    eapply (glue _ (fun y => boson_low0 (K_boson zeta) 3 y) (fun y => high0 K_high 3 y - C_BosonShift) _ (4 / 10000000) _ _ _ C_BosonTheta T).
    - intros y Y L. apply Rabs_def2 in Y. unfold JbosonInterpolated. destruct (Rle_dec C_BosonTheta y); [lra|]. destruct (Rle_dec 0 y); [|lra].
      unfold JbosonInterpolatedLow. destruct (Req_EM_T y 0); [lra|]. cbn [Z.eqb]. destruct (Rlt_dec y 0); [lra|]. reflexivity.
    - intros y Y L. unfold JbosonInterpolated. destruct (Rle_dec C_BosonTheta y); [|lra]. rewrite JHigh_pos by lra. reflexivity.
    - apply boson_low_deriv; exact T.
    - apply dl_minus; [apply high_deriv; exact T|apply dl_const].
    - now apply boson_jump.
    - lra.
  Qed.

  (** ** the derivatives *)
  Lemma fermion_low1_form K x : 0 < x -> fermion_low1 K 4 x =
    PI ^ 2 / 24 + x / 16 * (ln x - cf) + x / 32
    - (3 * x ^ 2 / 16 * (/ PI ^ 2 * K 2%nat) - 4 * x ^ 3 / 64 * (/ PI ^ 2 * (/ PI ^ 2 * K 3%nat)) + 5 * x ^ 4 / 256 * (/ PI ^ 2 * (/ PI ^ 2 * (/ PI ^ 2 * K 4%nat)))).
  Proof. intro X. unfold fermion_low1, sum_from. cbn [Nat.sub seq fold_right Nat.mul Nat.add INR]. pose proof PI_RGT_0. field. lra. Qed.
  Lemma boson_low1_form K x : 0 < x -> boson_low1 K 3 x =
    PI ^ 2 / 12 - x / 16 * (ln x - cb) - x / 32 - PI * sqrt x / 4
    + (3 * x ^ 2 / 16 * (/ PI ^ 2 * K 2%nat) - 4 * x ^ 3 / 64 * (/ PI ^ 2 * (/ PI ^ 2 * K 3%nat))).
  Proof. intro X. unfold boson_low1, sum_from. cbn [Nat.sub seq fold_right Nat.mul Nat.add INR]. pose proof PI_RGT_0. field. lra. Qed.
  Lemma high1_form x : 0 < x ->
    high1 K_high 3 x = exp (- sqrt x) * sqrt (2 * PI) * / (8 * sqrt (x * sqrt x)) *
      ((2 * sqrt x - 3) + 15 / 8 * (2 * sqrt x - 1) + 105 / 128 * (2 * sqrt x + 1) - 315 / 1024 * / x * (2 * sqrt x + 3)).
  Proof.
    intro X. unfold high1. destruct ThresholdProofs.K_high_values as (E0 & E1 & E2 & E3).
    replace (Rpower x (3 / 4)) with (sqrt (x * sqrt x)).
    - unfold sum_from. cbn [Nat.sub seq fold_right]. rewrite E0, E1, E2, E3.
      change (Z.quot (1 - Z.of_nat 0) 2) with 0%Z. change (Z.quot (1 - Z.of_nat 1) 2) with 0%Z.
      change (Z.quot (1 - Z.of_nat 2) 2) with 0%Z. change (Z.quot (1 - Z.of_nat 3) 2) with (-1)%Z.
      change (powerRZ x 0) with 1. change (powerRZ x (-1)) with (/ (x * 1)). rewrite (Rmult_1_r x). cbn [INR]. unfold Rdiv. ring.
    - rewrite <- Rpower_3_2 by exact X. rewrite <- Rpower_sqrt by apply exp_pos. rewrite Rpower_mult. f_equal. lra.
  Qed.
  Lemma fermion_slopes : - high1 K_high 3 C_FermionTheta < - fermion_low1 (K_fermion zeta) 4 C_FermionTheta - 41 / 1000.
  Proof.
    assert (T : 0 < C_FermionTheta) by (unfold C_FermionTheta; lra).
    rewrite fermion_low1_form, cf_form, high1_form by exact T. destruct (K_fermion_values zeta) as (E2 & E3 & E4). rewrite E2, E3, E4.
    destruct (zeta3_num _ Z3) as [z3 z3']. destruct (zeta5_num _ Z5) as [z5 z5']. destruct (zeta7_num _ Z7) as [z7 z7'].
    destruct fermion_ln as [L1 L2]. destruct pi2_bounds as [p p']. assert (I := inv_pi2). assert (SQ := fermion_sqrt). assert (X := fermion_exp).
    destruct PI_bounds as [P1 P2].
    assert (A2 : 355 / 10000 <= / PI ^ 2 * (7 / 24 * zeta 3%nat) <= 3553 / 100000) by (apply (pb _ _ (10132 / 100000) (10133 / 100000) (35059 / 100000) (35061 / 100000)); lra).
    assert (A3 : 5088 / 100000 <= / PI ^ 2 * (31 / 64 * zeta 5%nat) <= 5091 / 100000) by (apply (pb _ _ (10132 / 100000) (10133 / 100000) (50226 / 100000) (50228 / 100000)); lra).
    assert (A3' : 515 / 100000 <= / PI ^ 2 * (/ PI ^ 2 * (31 / 64 * zeta 5%nat)) <= 516 / 100000) by (apply (pb _ _ (10132 / 100000) (10133 / 100000) (5088 / 100000) (5091 / 100000)); lra).
    assert (A4 : 1013 / 10000 <= / PI ^ 2 * (127 / 128 * zeta 7%nat) <= 1014 / 10000) by (apply (pb _ _ (10132 / 100000) (10133 / 100000) (10004 / 10000) (10006 / 10000)); lra).
    assert (A4' : 102 / 10000 <= / PI ^ 2 * (/ PI ^ 2 * (127 / 128 * zeta 7%nat)) <= 103 / 10000) by (apply (pb _ _ (10132 / 100000) (10133 / 100000) (1013 / 10000) (1014 / 10000)); lra).
    assert (A4'' : 1 / 1000 <= / PI ^ 2 * (/ PI ^ 2 * (/ PI ^ 2 * (127 / 128 * zeta 7%nat))) <= 11 / 10000) by (apply (pb _ _ (10132 / 100000) (10133 / 100000) (102 / 10000) (103 / 10000)); lra).
    assert (W : 32989 / 10000 <= C_FermionTheta * sqrt C_FermionTheta <= 32990 / 10000)
      by (assert (ET : C_FermionTheta = 2216079120 / 1000000000) by reflexivity; rewrite ET at 1 3; split; lra).
    assert (W2 : 18162 / 10000 <= sqrt (C_FermionTheta * sqrt C_FermionTheta) <= 18164 / 10000) by (apply sqrt_bounds; lra).
    assert (W3 : 25066 / 10000 <= sqrt (2 * PI) <= 25067 / 10000) by (apply sqrt_bounds; lra).
    assert (W4 : 6881 / 100000 <= / (8 * sqrt (C_FermionTheta * sqrt C_FermionTheta)) <= 6883 / 100000)
      by (split; [rewrite <- (Rinv_inv (6881 / 100000))|rewrite <- (Rinv_inv (6883 / 100000))]; apply Rinv_le_contravar; lra).
    assert (M1 : 5656 / 10000 <= exp (- sqrt C_FermionTheta) * sqrt (2 * PI) <= 5658 / 10000)
      by (apply (pb _ _ (22567 / 100000) (22568 / 100000) (25066 / 10000) (25067 / 10000)); lra).
    assert (M2 : 3891 / 100000 <= exp (- sqrt C_FermionTheta) * sqrt (2 * PI) * / (8 * sqrt (C_FermionTheta * sqrt C_FermionTheta)) <= 3895 / 100000)
      by (apply (pb _ _ (5656 / 10000) (5658 / 10000) (6881 / 100000) (6883 / 100000)); lra).
    assert (IX : 45124 / 100000 <= / C_FermionTheta <= 45126 / 100000) by (unfold C_FermionTheta; split; lra).
    assert (SI : 26967 / 10000 <= / C_FermionTheta * (2 * sqrt C_FermionTheta + 3) <= 26974 / 10000)
      by (apply (pb _ _ (45124 / 100000) (45126 / 100000) (597729 / 100000) (597731 / 100000)); lra).
    set (FF := exp (- sqrt C_FermionTheta) * sqrt (2 * PI) * / (8 * sqrt (C_FermionTheta * sqrt C_FermionTheta))) in *.
    set (SS := sqrt C_FermionTheta) in *. set (LN := ln (C_FermionTheta * (/ PI ^ 2 / 1))) in *.
    replace (315 / 1024 * / C_FermionTheta * (2 * SS + 3)) with (315 / 1024 * (/ C_FermionTheta * (2 * SS + 3))) by ring.
    set (Q := / C_FermionTheta * (2 * SS + 3)) in *.
    assert (B : 611 / 100 <= 2 * SS - 3 + 15 / 8 * (2 * SS - 1) + 105 / 128 * (2 * SS + 1) - 315 / 1024 * Q <= 612 / 100) by lra.
    set (BB := 2 * SS - 3 + 15 / 8 * (2 * SS - 1) + 105 / 128 * (2 * SS + 1) - 315 / 1024 * Q) in *.
    assert (FB : 2377 / 10000 <= FF * BB <= 2384 / 10000) by (apply (pb _ _ (3891 / 100000) (3895 / 100000) (611 / 100) (612 / 100)); lra).
    unfold C_FermionTheta, C_euler_gamma. lra.
  Qed.
  Lemma boson_slopes : high1 K_high 3 C_BosonTheta < boson_low1 (K_boson zeta) 3 C_BosonTheta - 6 / 1000.
  Proof.
    assert (T : 0 < C_BosonTheta) by (unfold C_BosonTheta; lra).
    rewrite boson_low1_form, cb_form, high1_form by exact T. destruct (K_boson_values zeta) as (E2 & E3). rewrite E2, E3.
    destruct (zeta3_num _ Z3) as [z3 z3']. destruct (zeta5_num _ Z5) as [z5 z5'].
    destruct boson_ln as [L1 L2]. destruct pi2_bounds as [p p']. assert (I := inv_pi2). assert (SQ := boson_sqrt). assert (X := boson_exp).
    destruct PI_bounds as [P1 P2].
    assert (A2 : 50746 / 10000000 <= / PI ^ 2 * (1 / 24 * zeta 3%nat) <= 50748 / 10000000) by (apply (pb _ _ (1013211 / 10000000) (1013212 / 10000000) (5008570 / 100000000) (5008571 / 100000000)); lra).
    assert (A3 : 16415 / 10000000 <= / PI ^ 2 * (1 / 64 * zeta 5%nat) <= 16417 / 10000000) by (apply (pb _ _ (1013211 / 10000000) (1013212 / 10000000) (162019 / 10000000) (162021 / 10000000)); lra).
    assert (A3' : 16631 / 100000000 <= / PI ^ 2 * (/ PI ^ 2 * (1 / 64 * zeta 5%nat)) <= 16634 / 100000000) by (apply (pb _ _ (1013211 / 10000000) (1013212 / 10000000) (16415 / 10000000) (16417 / 10000000)); lra).
    assert (PS : 96673 / 10000 <= PI * sqrt C_BosonTheta <= 96675 / 10000) by (apply (pb _ _ (31415926535 / 10000000000) (31415926536 / 10000000000) (307721 / 100000) (307722 / 100000)); lra).
    assert (W : 29138 / 1000 <= C_BosonTheta * sqrt C_BosonTheta <= 29139 / 1000)
      by (assert (ET : C_BosonTheta = 9469230596 / 1000000000) by reflexivity; rewrite ET at 1 3; split; lra).
    assert (W2 : 53979 / 10000 <= sqrt (C_BosonTheta * sqrt C_BosonTheta) <= 53981 / 10000) by (apply sqrt_bounds; lra).
    assert (W3 : 25066 / 10000 <= sqrt (2 * PI) <= 25067 / 10000) by (apply sqrt_bounds; lra).
    assert (W4 : 23156 / 1000000 <= / (8 * sqrt (C_BosonTheta * sqrt C_BosonTheta)) <= 23158 / 1000000)
      by (split; [rewrite <- (Rinv_inv (23156 / 1000000))|rewrite <- (Rinv_inv (23158 / 1000000))]; apply Rinv_le_contravar; lra).
    assert (M1 : 11552 / 100000 <= exp (- sqrt C_BosonTheta) * sqrt (2 * PI) <= 11553 / 100000)
      by (apply (pb _ _ (460875 / 10000000) (460876 / 10000000) (25066 / 10000) (25067 / 10000)); lra).
    assert (M2 : 26749 / 10000000 <= exp (- sqrt C_BosonTheta) * sqrt (2 * PI) * / (8 * sqrt (C_BosonTheta * sqrt C_BosonTheta)) <= 26755 / 10000000)
      by (apply (pb _ _ (11552 / 100000) (11553 / 100000) (23156 / 1000000) (23158 / 1000000)); lra).
    assert (IX : 1056 / 10000 <= / C_BosonTheta <= 1057 / 10000) by (unfold C_BosonTheta; split; lra).
    assert (SI : 9667 / 10000 <= / C_BosonTheta * (2 * sqrt C_BosonTheta + 3) <= 9677 / 10000)
      by (apply (pb _ _ (1056 / 10000) (1057 / 10000) (91544 / 10000) (91545 / 10000)); lra).
    set (FF := exp (- sqrt C_BosonTheta) * sqrt (2 * PI) * / (8 * sqrt (C_BosonTheta * sqrt C_BosonTheta))) in *.
    set (PX := PI * sqrt C_BosonTheta) in *.
    set (SS := sqrt C_BosonTheta) in *. set (LN := ln (C_BosonTheta * (/ PI ^ 2 / 16))) in *.
    replace (315 / 1024 * / C_BosonTheta * (2 * SS + 3)) with (315 / 1024 * (/ C_BosonTheta * (2 * SS + 3))) by ring.
    set (Q := / C_BosonTheta * (2 * SS + 3)) in *.
    assert (B : 1838 / 100 <= 2 * SS - 3 + 15 / 8 * (2 * SS - 1) + 105 / 128 * (2 * SS + 1) - 315 / 1024 * Q <= 1840 / 100) by lra.
    set (BB := 2 * SS - 3 + 15 / 8 * (2 * SS - 1) + 105 / 128 * (2 * SS + 1) - 315 / 1024 * Q) in *.
    assert (FB : 491 / 10000 <= FF * BB <= 4924 / 100000) by (apply (pb _ _ (26749 / 10000000) (26755 / 10000000) (1838 / 100) (1840 / 100)); lra).
    unfold C_BosonTheta, C_euler_gamma. lra.
  Qed.

  Lemma cp_ln x : 0 < x -> continuity_pt ln x.
  Proof. intro X. apply derivable_continuous_pt. exists (/ x). now apply derivable_pt_lim_ln. Qed.
  Lemma cp_sqrt x : 0 < x -> continuity_pt sqrt x.
  Proof. intro X. apply continuity_pt_sqrt. lra. Qed.
  Lemma fermion_low1_cont K x : 0 < x -> continuity_pt (fermion_low1 K 4) x.
  Proof.
    intro X. eapply (cp_ext_loc _ _ x x X); [intros y Y; symmetry; apply fermion_low1_form; apply Rabs_def2 in Y; lra|].
    repeat (apply cp_const || apply cp_minus || apply cp_plus || apply cp_mult || apply cp_id || apply cp_pow || (apply cp_ln; exact X) || apply cp_div || discrR).
  Qed.
  Lemma boson_low1_cont K x : 0 < x -> continuity_pt (boson_low1 K 3) x.
  Proof.
    intro X. eapply (cp_ext_loc _ _ x x X); [intros y Y; symmetry; apply boson_low1_form; apply Rabs_def2 in Y; lra|].
    repeat (apply cp_const || apply cp_minus || apply cp_plus || apply cp_mult || apply cp_id || apply cp_pow || (apply cp_ln; exact X) || (apply cp_sqrt; exact X) || apply cp_div || discrR).
  Qed.
  Lemma fermion_derivative_jump : jumps (fun y => JfermionInterpolated (K_fermion zeta) y 1) C_FermionTheta (4 / 100).
  Proof.
    assert (T : 0 < C_FermionTheta) by (unfold C_FermionTheta; lra).
    destruct (cont_near' _ _ (1 / 1000) (fermion_low1_cont (K_fermion zeta) _ T) ltac:(lra)) as (d & D & C).
    exists (Rmin d C_FermionTheta), (- high1 K_high 3 C_FermionTheta). split; [now apply Rmin_pos|]. split.
    - unfold JfermionInterpolated. destruct (Rle_dec C_FermionTheta C_FermionTheta); [|lra]. rewrite JHigh_pos by exact T. reflexivity.
    - intros y [Y1 Y2]. pose proof (Rmin_l d C_FermionTheta). pose proof (Rmin_r d C_FermionTheta).
      exists (- fermion_low1 (K_fermion zeta) 4 y + 0). split.
      + unfold JfermionInterpolated. destruct (Rle_dec C_FermionTheta y); [lra|]. unfold JfermionInterpolatedLow.
        destruct (Req_EM_T y 0); [lra|]. cbn [Z.eqb Pos.eqb]. destruct (Rlt_dec y 0); [lra|]. reflexivity.
      + specialize (C y ltac:(rewrite Rabs_left; lra)). apply Rabs_def2 in C. pose proof fermion_slopes. rewrite Rabs_left; lra.
  Qed.
  Lemma boson_derivative_jump neg : jumps (fun y => JbosonInterpolated (K_boson zeta) neg y 1) C_BosonTheta (5 / 1000).
  Proof.
    assert (T : 0 < C_BosonTheta) by (unfold C_BosonTheta; lra).
    destruct (cont_near' _ _ (1 / 2000) (boson_low1_cont (K_boson zeta) _ T) ltac:(lra)) as (d & D & C).
    exists (Rmin d C_BosonTheta), (high1 K_high 3 C_BosonTheta - 0). split; [now apply Rmin_pos|]. split.
    - unfold JbosonInterpolated. destruct (Rle_dec C_BosonTheta C_BosonTheta); [|lra]. rewrite JHigh_pos by exact T. reflexivity.
    - intros y [Y1 Y2]. pose proof (Rmin_l d C_BosonTheta). pose proof (Rmin_r d C_BosonTheta).
      exists (boson_low1 (K_boson zeta) 3 y). split.
      + unfold JbosonInterpolated. destruct (Rle_dec C_BosonTheta y); [lra|]. destruct (Rle_dec 0 y); [|lra]. unfold JbosonInterpolatedLow.
        destruct (Req_EM_T y 0); [lra|]. cbn [Z.eqb Pos.eqb]. destruct (Rlt_dec y 0); [lra|]. reflexivity.
      + specialize (C y ltac:(rewrite Rabs_left; lra)). apply Rabs_def2 in C. pose proof boson_slopes. rewrite Rabs_left; lra.
  Qed.
End Zeta.

(** ** the zeta function exists *)
Lemma zeta_exists s : (3 <= s)%nat -> exists z, is_zeta s z.
Proof.
  intro H. destruct (growing_cv (zpart s)) as (z & Z).
  - intro k. unfold zpart. cbn [sum_f_R0]. assert (0 < / IZR (Z.of_nat (S (S k))) ^ s); [|lra].
    apply Rinv_0_lt_compat, pow_lt. rewrite IZR_S. pose proof (pos_INR (S k)). lra.
  - exists 2. intros x (n & ->). enough (zpart s n + up3 n <= 2) by (pose proof (up3_pos n); lra).
    induction n as [|n IH].
    + unfold zpart, up3. cbn [sum_f_R0 Z.of_nat Pos.of_succ_nat INR]. rewrite pow1. lra.
    + unfold zpart in *. cbn [sum_f_R0]. assert (U := step_up n). rewrite IZR_S, S_INR.
      assert (/ (INR n + 1 + 1) ^ s <= / (INR n + 2) ^ 3); [|lra].
      replace (INR n + 1 + 1) with (INR n + 2) by lra. apply Rinv_le_contravar; [apply pow_lt; pose proof (pos_INR n); lra|].
      apply Rle_pow; [pose proof (pos_INR n); lra|exact H].
  - exists z. exact Z.
Qed.

(** ** high temperatures *)
Lemma CW_value scale m cb : CW_threshold <= m -> CWTerm scale (Rabs m) cb 0 = m ^ 2 / (64 * PI ^ 2) * (ln m - 2 * ln scale - cb).
Proof.
  intro H. assert (P : 0 < CW_threshold) by (unfold CW_threshold; lra). assert (Q := PI_RGT_0).
  rewrite (Rabs_pos_eq m) by lra. unfold CWTerm. rewrite (Rabs_pos_eq m) by lra. destruct (Rlt_dec m CW_threshold); [lra|].
  cbn [Z.eqb]. unfold FCW. rewrite (Rabs_pos_eq m) by lra.
  destruct (Rlt_dec m (/ 10 ^ 200)) as [L|_]; [exfalso|field; lra].
  assert (/ 10 ^ 200 <= / 10 ^ 4) by (apply Rinv_le_contravar; [apply pow_lt; lra|apply Rle_pow; [lra|lia]]).
  unfold CW_threshold in *. lra.
Qed.
Lemma scalar_high scale K neg JN cbm m T : 0 < scale -> 0 < T -> CW_threshold <= m -> m < C_BosonTheta * T ^ 2 ->
  boson scale (fun x => match JbosonInterpolated K neg x 0 with Some r => r | None => 0 end) JN m T cbm 0 =
  scalar_high_T (ln (4 * PI) - C_euler_gamma) (cbm - 3 / 2) scale m T +
  m / T ^ 2 * T ^ 4 / 2 * ((m / T ^ 2 / (4 * PI ^ 2)) ^ 2 * K 2%nat - (m / T ^ 2 / (4 * PI ^ 2)) ^ 3 * K 3%nat).
Proof.
  intros S T0 M B. assert (P := PI_RGT_0). assert (C0 : 0 < CW_threshold) by (unfold CW_threshold; lra).
  assert (T2 : 0 < T ^ 2) by now apply pow_lt. assert (X : 0 < m / T ^ 2) by (apply Rdiv_lt_0_compat; lra).
  assert (XB : m / T ^ 2 < C_BosonTheta). { apply Rmult_lt_reg_r with (T ^ 2); [exact T2|]. replace (m / T ^ 2 * T ^ 2) with m by (field; lra). exact B. }
  unfold boson. cbn [Z.leb Z.eqb Z.compare]. destruct (Req_EM_T T 0); [lra|]. rewrite CW_value by exact M.
  unfold JbosonInterpolated. destruct (Rle_dec C_BosonTheta (m / T ^ 2)); [lra|]. destruct (Rle_dec 0 (m / T ^ 2)); [|lra].
  unfold JbosonInterpolatedLow. destruct (Req_EM_T (m / T ^ 2) 0); [lra|]. cbn [Z.eqb]. destruct (Rlt_dec (m / T ^ 2) 0); [lra|].
  assert (L1 : ln (m / T ^ 2) = ln m - 2 * ln T).
  { unfold Rdiv. rewrite ln_mult by (try apply Rinv_0_lt_compat; lra). rewrite ln_Rinv by exact T2. cbn [pow]. rewrite Rmult_1_r, ln_mult by exact T0. ring. }
  assert (L2 : ln (T / scale) = ln T - ln scale).
  { unfold Rdiv. rewrite ln_mult by (try apply Rinv_0_lt_compat; lra). rewrite ln_Rinv by exact S. ring. }
  assert (R32 : Rpower (m / T ^ 2) (3 / 2) = m * sqrt m / T ^ 3).
  { rewrite Rpower_3_2 by exact X. rewrite sqrt_div by lra. rewrite sqrt_pow2 by lra. field. lra. }
  unfold boson_low0. rewrite L1, R32. unfold scalar_high_T. rewrite L2. unfold cb, sum_from. cbn [Nat.sub seq fold_right].
  field. lra.
Qed.
Lemma fermion_high_temp scale K JN m T : 0 < scale -> 0 < T -> CW_threshold <= m -> m < C_FermionTheta * T ^ 2 ->
  fermion scale (fun x => match JfermionInterpolated K x 0 with Some r => r | None => 0 end) JN m T 0 =
  fermion_high_T (ln PI - C_euler_gamma) scale m T - C_FermionShift * T ^ 4 / (2 * PI ^ 2) +
  m / T ^ 2 * T ^ 4 / 2 * ((m / T ^ 2 / (4 * PI ^ 2)) ^ 2 * K 2%nat - (m / T ^ 2 / (4 * PI ^ 2)) ^ 3 * K 3%nat + (m / T ^ 2 / (4 * PI ^ 2)) ^ 4 * K 4%nat).
Proof.
  intros S T0 M B. assert (P := PI_RGT_0). assert (C0 : 0 < CW_threshold) by (unfold CW_threshold; lra).
  assert (T2 : 0 < T ^ 2) by now apply pow_lt. assert (X : 0 < m / T ^ 2) by (apply Rdiv_lt_0_compat; lra).
  assert (XB : m / T ^ 2 < C_FermionTheta). { apply Rmult_lt_reg_r with (T ^ 2); [exact T2|]. replace (m / T ^ 2 * T ^ 2) with m by (field; lra). exact B. }
  unfold fermion, boson. cbn [Z.leb Z.eqb Z.compare]. destruct (Req_EM_T T 0); [lra|]. rewrite CW_value by exact M.
  unfold JfermionInterpolated. destruct (Rle_dec C_FermionTheta (m / T ^ 2)); [lra|].
  unfold JfermionInterpolatedLow. destruct (Req_EM_T (m / T ^ 2) 0); [lra|]. cbn [Z.eqb]. destruct (Rlt_dec (m / T ^ 2) 0); [lra|]. cbn [option_map].
  assert (L1 : ln (m / T ^ 2) = ln m - 2 * ln T).
  { unfold Rdiv. rewrite ln_mult by (try apply Rinv_0_lt_compat; lra). rewrite ln_Rinv by exact T2. cbn [pow]. rewrite Rmult_1_r, ln_mult by exact T0. ring. }
  assert (L2 : ln (T / scale) = ln T - ln scale).
  { unfold Rdiv. rewrite ln_mult by (try apply Rinv_0_lt_compat; lra). rewrite ln_Rinv by exact S. ring. }
  unfold fermion_low0. rewrite L1. unfold fermion_high_T. rewrite L2. unfold cf, C_CWcbFermion, sum_from. cbn [Nat.sub seq fold_right].
  rewrite (ln_mult 4 PI) by lra. field. lra.
Qed.
