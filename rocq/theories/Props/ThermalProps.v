(** C35, C36, C69: thermal functions and their coefficient cache. *)
From Coq Require Import Reals Lra ZArith.
From Verif.Model Require Import Base Thermal.
From Verif.Spec Require Import ThermalSpec.
From Verif.Proofs Require Import DerivLib ThermalProofs.
Open Scope R_scope.

(** ** C35 *)
(** small-argument expansions: any coefficients, any order, any positive argument *)
Theorem C35_low_expansion_fermion_partial :
  forall K n x, 0 < x ->
    derivative_at (fun y => JfermionInterpolatedLow K y n 0) (fun y => JfermionInterpolatedLow K y n 1) x.
Proof. exact fermion_low_derivative. Qed.
Print Assumptions C35_low_expansion_fermion_partial.

Theorem C35_low_expansion_boson_partial :
  forall K n x, 0 < x ->
    derivative_at (fun y => JbosonInterpolatedLow K y n 0) (fun y => JbosonInterpolatedLow K y n 1) x.
Proof. exact boson_low_derivative. Qed.
Print Assumptions C35_low_expansion_boson_partial.

(** the separate values at 0 are those of the function and of its derivative from the right *)
Theorem C35_low_expansion_at_zero_partial :
  forall K n,
    right_derivative_at (fun y => JfermionInterpolatedLow K y n 0) (fun y => JfermionInterpolatedLow K y n 1) 0 /\
    right_derivative_at (fun y => JbosonInterpolatedLow K y n 0) (fun y => JbosonInterpolatedLow K y n 1) 0.
Proof. intros. split; [apply fermion_low_right_derivative|apply boson_low_right_derivative]. Qed.
Print Assumptions C35_low_expansion_at_zero_partial.

(** the interpolated functions below the argument where they change expansion *)
Theorem C35_interpolated_below_threshold_partial :
  forall Kf Kb neg x, 0 < x ->
    (x < C_FermionTheta -> derivative_at (fun y => JfermionInterpolated Kf y 0) (fun y => JfermionInterpolated Kf y 1) x) /\
    (x < C_BosonTheta -> derivative_at (fun y => JbosonInterpolated Kb neg y 0) (fun y => JbosonInterpolated Kb neg y 1) x).
Proof. intros. split; intro; [apply interp_fermion_derivative|apply interp_boson_derivative]; auto. Qed.
Print Assumptions C35_interpolated_below_threshold_partial.

(** large-argument expansion: the reported derivative is right exactly where the terms with an even
    power, whose exponent the program rounds to an integer, cancel *)
Theorem C35_high_expansion_partial :
  forall K n x, 0 < x ->
    (derivative_at (fun y => JInterpolatedHigh K y n 0) (fun y => JInterpolatedHigh K y n 1) x <->
     sum_from 0 n (fun l => K l * (Rpower x ((1 - INR l) / 2) - powerRZ x (Z.quot (1 - Z.of_nat l) 2)) * (2 * INR l + 2 * sqrt x - 3)) = 0).
Proof.
  intros K n x P. rewrite (high_derivative_iff K n x P). unfold high_error. pose proof (prefactor_pos x P) as Q.
  split; intro E.
  - apply Rmult_integral in E as [E|E]; [lra|exact E].
  - rewrite E. ring.
Qed.
Print Assumptions C35_high_expansion_partial.

(** with the program's coefficients and order the derivatives above the thresholds are wrong *)
Theorem C35_high_expansion_refuted :
  exists x, 0 < x /\
    (forall Kf, ~ derivative_at (fun y => JfermionInterpolated Kf y 0) (fun y => JfermionInterpolated Kf y 1) x) /\
    (forall Kb neg, ~ derivative_at (fun y => JbosonInterpolated Kb neg y 0) (fun y => JbosonInterpolated Kb neg y 1) x).
Proof. exists 16. split; [lra|]. split; [exact interp_fermion_wrong|exact interp_boson_wrong]. Qed.
Print Assumptions C35_high_expansion_refuted.

Example C35_nonvacuous : 0 < 1 < C_FermionTheta /\ 0 < 1 < C_BosonTheta /\
  derivative_at (fun y => JInterpolatedHigh K_high y 3 0) (fun y => JInterpolatedHigh K_high y 3 1) 1.
Proof. split; [|split]; [unfold C_FermionTheta; lra|unfold C_BosonTheta; lra|apply high_derivative_one]. Qed.

(** ** C36 *)
Theorem C36_cache_transparent :
  forall A (calc : Z -> A) max n, (0 <= n)%Z -> GetCoefficentAtOrder calc max n = Ok (calc n).
Proof. exact @cache_ok. Qed.
Print Assumptions C36_cache_transparent.

Theorem C36_negative_orders_rejected :
  forall A (calc : Z -> A) max n, (0 <= max)%Z -> (n < 0)%Z -> GetCoefficentAtOrder calc max n = Throw OutOfRange.
Proof.
  intros A calc max n M N. rewrite cache_neg by assumption. destruct (Z.leb_spec n max); [reflexivity|lia].
Qed.
Print Assumptions C36_negative_orders_rejected.

(** a provider constructed with a negative size does compute the negative orders above it *)
Theorem C36_negative_sizes :
  forall A (calc : Z -> A) max n, (n < 0)%Z ->
    GetCoefficentAtOrder calc max n = if Z.leb n max then Throw OutOfRange else Ok (calc n).
Proof. exact @cache_neg. Qed.
Print Assumptions C36_negative_sizes.

Example C36_nonvacuous :
  GetCoefficentAtOrder (fun n => (n * n)%Z) 3 2 = Ok 4%Z /\ GetCoefficentAtOrder (fun n => (n * n)%Z) 3 7 = Ok 49%Z /\
  GetCoefficentAtOrder (fun n => (n * n)%Z) 3 (-1) = Throw OutOfRange /\ GetCoefficentAtOrder (fun n => (n * n)%Z) (-2) (-1) = Ok 1%Z.
Proof. vm_compute. auto. Qed.

(** ** C69 *)
Theorem C69_boson_integrand :
  forall k x, k * k + x <> 0 -> (0 < k * k + x \/ cos (sqrt (- (k * k + x))) <> 1) ->
    derivable_pt_lim (fun y => JbosonIntegrand y k 0) x (JbosonIntegrand x k 1).
Proof. exact boson_integrand_derivative. Qed.
Print Assumptions C69_boson_integrand.

Theorem C69_fermion_integrand :
  forall k x, k * k + x <> 0 -> (0 < k * k + x \/ cos (sqrt (- (k * k + x))) <> -1) ->
    derivable_pt_lim (fun y => JfermionIntegrand y k 0) x (JfermionIntegrand x k 1).
Proof. exact fermion_integrand_derivative. Qed.
Print Assumptions C69_fermion_integrand.

(** a negative argument, where the root is imaginary *)
Example C69_nonvacuous : exists k x, k * k + x < 0 /\ cos (sqrt (- (k * k + x))) <> 1 /\ cos (sqrt (- (k * k + x))) <> -1.
Proof.
  exists 1, (- (1 + (PI / 2) ^ 2)). assert (P := PI_RGT_0).
  assert (0 < (PI / 2) ^ 2) by (apply pow_lt; lra).
  replace (- (1 * 1 + - (1 + (PI / 2) ^ 2))) with ((PI / 2) ^ 2) by ring. rewrite sqrt_pow2 by lra. rewrite cos_PI2.
  split; [|split]; lra.
Qed.
