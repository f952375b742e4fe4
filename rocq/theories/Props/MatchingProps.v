(** C85, C86: the one-loop potential at high temperature; matching of the thermal expansions *)
From Coq Require Import Reals Lra ZArith.
From Verif.Model Require Import Base Thermal Loop.
From Verif.Spec Require Import ThermalSpec.
From Verif.Proofs Require Import ThermalProofs NumBounds ThresholdProofs MatchingProofs.
Open Scope R_scope.

(** C85: bosons *)
Theorem C85_boson_high_temperature : forall scale zeta neg JN cb m T,
  0 < scale -> 0 < T -> CW_threshold <= m -> m < C_BosonTheta * T ^ 2 ->
  boson scale (fun x => match JbosonInterpolated (K_boson zeta) neg x 0 with Some r => r | None => 0 end) JN m T cb 0 =
  scalar_high_T (ln (4 * PI) - C_euler_gamma) (cb - 3 / 2) scale m T +
  m * T ^ 2 / 2 * (zeta 3%nat / 24 * (m / (4 * PI ^ 2 * T ^ 2)) ^ 2 - zeta 5%nat / 64 * (m / (4 * PI ^ 2 * T ^ 2)) ^ 3).
Proof.
  intros scale zeta neg JN cbm m T S T0 M B. rewrite scalar_high by assumption. destruct (K_boson_values zeta) as [E2 E3]. rewrite E2, E3.
  f_equal. pose proof PI_RGT_0. field. split; lra.
Qed.
Print Assumptions C85_boson_high_temperature.
(** C85: fermions *)
Theorem C85_fermion_high_temperature : forall scale zeta JN m T,
  0 < scale -> 0 < T -> CW_threshold <= m -> m < C_FermionTheta * T ^ 2 ->
  fermion scale (fun x => match JfermionInterpolated (K_fermion zeta) x 0 with Some r => r | None => 0 end) JN m T 0 =
  fermion_high_T (ln PI - C_euler_gamma) scale m T - C_FermionShift * T ^ 4 / (2 * PI ^ 2) +
  m * T ^ 2 / 2 * (7 * zeta 3%nat / 24 * (m / (4 * PI ^ 2 * T ^ 2)) ^ 2 - 31 * zeta 5%nat / 64 * (m / (4 * PI ^ 2 * T ^ 2)) ^ 3
                   + 127 * zeta 7%nat / 128 * (m / (4 * PI ^ 2 * T ^ 2)) ^ 4).
Proof.
  intros scale zeta JN m T S T0 M B. rewrite fermion_high_temp by assumption. destruct (K_fermion_values zeta) as (E2 & E3 & E4). rewrite E2, E3, E4.
  f_equal. pose proof PI_RGT_0. field. split; lra.
Qed.
Print Assumptions C85_fermion_high_temperature.
Example C85_nonvacuous : 0 < 246 /\ 0 < 100 /\ CW_threshold <= 6400 /\ 6400 < C_BosonTheta * 100 ^ 2 /\ 6400 < C_FermionTheta * 100 ^ 2.
Proof. unfold CW_threshold, C_BosonTheta, C_FermionTheta. lra. Qed.

(** C86: values *)
Theorem C86_values_match : forall zeta neg, zeta_values zeta ->
  oscillation_below (fun y => JfermionInterpolated (K_fermion zeta) y 0) C_FermionTheta (1 / 1000000) /\
  oscillation_below (fun y => JbosonInterpolated (K_boson zeta) neg y 0) C_BosonTheta (1 / 1000000).
Proof. intros zeta neg (A & B & C). split; [now apply fermion_threshold|now apply boson_threshold]. Qed.
Print Assumptions C86_values_match.
(** C86: the derivatives do not match *)
Theorem C86_derivatives_refuted : forall zeta neg, zeta_values zeta ->
  jumps (fun y => JfermionInterpolated (K_fermion zeta) y 1) C_FermionTheta (4 / 100) /\
  jumps (fun y => JbosonInterpolated (K_boson zeta) neg y 1) C_BosonTheta (5 / 1000).
Proof. intros zeta neg (A & B & C). split; [now apply fermion_derivative_jump|now apply boson_derivative_jump]. Qed.
Print Assumptions C86_derivatives_refuted.
Example C86_nonvacuous : exists zeta, zeta_values zeta.
Proof.
  destruct (zeta_exists 3) as (a & A); [auto|]. destruct (zeta_exists 5) as (b & B); [auto with arith|].
  destruct (zeta_exists 7) as (c & C); [auto with arith|].
  exists (fun n => match n with 3%nat => a | 5%nat => b | _ => c end). split; [exact A|]. split; assumption.
Qed.
