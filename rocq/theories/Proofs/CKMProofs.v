(** The mixing matrix is unitary and has the Wolfenstein parameters. *)
From Coq Require Import Reals Lra Lia List.
From Coquelicot Require Import Complex.
From Verif.Model Require Import SMConst Yukawa.
From Verif.Spec Require Import ScalarSpec GaugeSpec.
Import ListNotations.
Open Scope R_scope.

Lemma expi_parts s12 c12 s13 c13 s23 c23 sd cd : s12 * s12 + c12 * c12 = 1 -> s13 * s13 + c13 * c13 = 1 -> s23 * s23 + c23 * c23 = 1 -> sd * sd + cd * cd = 1 ->
  forall V : matrix33,
  V 0%nat 0%nat = RtoC (c12 * c13) -> V 0%nat 1%nat = RtoC (s12 * c13) -> V 0%nat 2%nat = (RtoC s13 * (cd, (- sd)%R))%C ->
  V 1%nat 0%nat = (RtoC (- s12 * c23) - RtoC (c12 * s23 * s13) * (cd, sd))%C ->
  V 1%nat 1%nat = (RtoC (c12 * c23) - RtoC (s12 * s23 * s13) * (cd, sd))%C ->
  V 1%nat 2%nat = RtoC (s23 * c13) ->
  V 2%nat 0%nat = (RtoC (s12 * s23) - RtoC (c12 * c23 * s13) * (cd, sd))%C ->
  V 2%nat 1%nat = (RtoC (- c12 * s23) - RtoC (s12 * c23 * s13) * (cd, sd))%C ->
  V 2%nat 2%nat = RtoC (c23 * c13) -> unitary33 V.
Proof.
  intros H12 H13 H23 Hd V E00 E01 E02 E10 E11 E12 E20 E21 E22.
  assert (K12 : c12 * c12 = 1 - s12 * s12) by lra. assert (K13 : c13 * c13 = 1 - s13 * s13) by lra.
  assert (K23 : c23 * c23 = 1 - s23 * s23) by lra. assert (Kd : cd * cd = 1 - sd * sd) by lra.
  split; intros a b Ha Hb; destruct a as [|[|[|a]]]; try lia; destruct b as [|[|[|b]]]; try lia; unfold csum3;
    rewrite ?E00, ?E01, ?E02, ?E10, ?E11, ?E12, ?E20, ?E21, ?E22; unfold delta; cbn [Nat.eqb];
    unfold Cminus, Cconj, Cmult, Cplus, Copp, RtoC; cbn [fst snd]; apply injective_projections; cbn [fst snd]; ring [K12 K13 K23 Kd].
Qed.
Lemma sc x : sin x * sin x + cos x * cos x = 1.
Proof. pose proof (sin2_cos2 x). unfold Rsqr in *. lra. Qed.
Lemma CKM_unitary i : unitary33 (CKM (GetSMConstants i)).
Proof.
  set (z := (RtoC (i_A i * i_lambda i ^ 3) * (i_rho i, i_eta i))%C).
  apply (expi_parts (sin (asin (i_lambda i))) (cos (asin (i_lambda i))) (sin (asin (Cmod z))) (cos (asin (Cmod z)))
    (sin (asin (i_A i * i_lambda i ^ 2))) (cos (asin (i_A i * i_lambda i ^ 2))) (sin (arg z)) (cos (arg z))); try apply sc; try reflexivity.
  cbn [CKM GetSMConstants V13]. unfold expi. now rewrite cos_neg, sin_neg.
Qed.

(** the polar form *)
Lemma polar z : (RtoC (Cmod z) * expi (arg z))%C = z.
Proof.
  destruct (Req_dec (Cmod z) 0) as [Z|NZ].
  - rewrite Z. apply Cmod_eq_0 in Z as ->. unfold Cmult, RtoC; cbn [fst snd]. apply injective_projections; cbn [fst snd]; ring.
  - assert (P : 0 < Cmod z) by (pose proof (Cmod_ge_0 z); lra). destruct z as [x y].
    assert (N : Cmod (x, y) * Cmod (x, y) = x * x + y * y).
    { unfold Cmod. cbn [fst snd]. rewrite sqrt_sqrt; nra. }
    remember (Cmod (x, y)) as m eqn:Em.
    assert (B : -1 <= x / m <= 1).
    { assert (Q : -m <= x <= m) by nra. split; [apply Rmult_le_reg_r with m|apply Rmult_le_reg_r with m]; try exact P; unfold Rdiv; rewrite Rmult_assoc, Rinv_l; lra. }
    assert (T : sqrt (1 - (x / m)²) = Rabs y / m).
    { replace (1 - (x / m)²) with ((Rabs y / m)²). { apply sqrt_Rsqr. apply Rmult_le_pos; [apply Rabs_pos|left; now apply Rinv_0_lt_compat]. }
      unfold Rsqr. transitivity (Rabs y * Rabs y / (m * m)); [field; lra|]. assert (A : Rabs y * Rabs y = y * y) by (unfold Rabs; destruct (Rcase_abs y); ring).
      rewrite A. replace (y * y) with (m * m - x * x) by lra. field. lra. }
    unfold arg, expi, Re, Im; cbn [fst snd]. rewrite <- Em.
    destruct (Rle_dec 0 y) as [Y|Y].
    + rewrite cos_acos, sin_acos, T by exact B. rewrite Rabs_pos_eq by exact Y. unfold Cmult, RtoC; cbn [fst snd]. apply injective_projections; cbn [fst snd]; field; lra.
    + rewrite cos_neg, sin_neg, cos_acos, sin_acos, T by exact B. rewrite Rabs_left by lra. unfold Cmult, RtoC; cbn [fst snd]. apply injective_projections; cbn [fst snd]; field; lra.
Qed.
(** the parameters of Wolfenstein *)
Lemma wolfenstein i : let K := GetSMConstants i in let z := (RtoC (i_A i * i_lambda i ^ 3) * (i_rho i, i_eta i))%C in
  -1 <= i_lambda i <= 1 -> -1 <= i_A i * i_lambda i ^ 2 <= 1 -> Cmod z <= 1 ->
  V13 K = Cconj z /\ V23 K = (RtoC (i_A i * i_lambda i) * V12 K)%C /\
  abs2 (V12 K) = i_lambda i ^ 2 * (abs2 (V11 K) + abs2 (V12 K)).
Proof.
  intros K z L A Z. pose proof (Cmod_ge_0 z) as Z0.
  assert (E13 : V13 K = (RtoC (Cmod z) * expi (- arg z))%C) by (cbn [K GetSMConstants V13]; fold z; now rewrite sin_asin by lra).
  assert (E23 : V23 K = RtoC (i_A i * i_lambda i ^ 2 * cos (asin (Cmod z)))) by (cbn [K GetSMConstants V23]; fold z; now rewrite sin_asin by lra).
  assert (E12 : V12 K = RtoC (i_lambda i * cos (asin (Cmod z)))) by (cbn [K GetSMConstants V12]; fold z; now rewrite sin_asin by lra).
  assert (E11 : V11 K = RtoC (cos (asin (i_lambda i)) * cos (asin (Cmod z)))) by reflexivity.
  rewrite E13, E23, E12, E11. split; [|split].
  - rewrite <- (polar z) at 3. unfold expi. rewrite cos_neg, sin_neg. unfold Cconj, Cmult, RtoC; cbn [fst snd]. apply injective_projections; cbn [fst snd]; ring.
  - rewrite <- RtoC_mult. f_equal. ring.
  - unfold abs2, Re, Cconj, Cmult, RtoC; cbn [fst snd]. pose proof (sc (asin (i_lambda i))) as Q. rewrite sin_asin in Q by lra.
    set (c := cos (asin (Cmod z))) in *. set (d := cos (asin (i_lambda i))) in *. clearbody c d.
    assert (Q2 : d * d = 1 - i_lambda i * i_lambda i) by lra. ring [Q2].
Qed.
