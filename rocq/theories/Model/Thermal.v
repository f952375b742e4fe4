(** Thermal functions: src/ThermalFunctions/ThermalFunctions.cpp and thermalcoefficientcalculator.cpp.
    Doubles are real numbers, [None] is a result that is not finite.  The expansion coefficients
    (products of gsl special functions, 35-71) are functions of the order. *)
From Coq Require Import Reals ZArith Lia.
From Verif.Model Require Import Base.
Open Scope R_scope.

(** ** Coefficient cache, thermalcoefficientcalculator.cpp 18-40; a std::map from orders to values *)
Section Cache.
  Context {A : Type}.
  Variable calc : Z -> A.
  (** the constructor's loop for i = 0 .. max, 24-27 *)
  Definition fill (max : Z) : list (Z * A) :=
    map (fun i => (Z.of_nat i, calc (Z.of_nat i))) (seq 0 (Z.to_nat (max + 1))).
  Fixpoint map_at (m : list (Z * A)) (n : Z) : outcome A :=
    match m with [] => Throw OutOfRange | (k, v) :: r => if Z.eqb k n then Ok v else map_at r n end.
  (** GetCoefficentAtOrder, 30-40 *)
  Definition GetCoefficentAtOrder (max n : Z) : outcome A :=
    if Z.leb n max then map_at (fill max) n else Ok (calc n).
End Cache.

(** ** Expansions *)
(** C_euler_gamma, ThermalFunctions.h 45 (a literal of 22 digits) *)
Definition C_euler_gamma : R := 5772156649015328606065 / 10000000000000000000000.

Definition sum_from (a n : nat) (f : nat -> R) : R := fold_right (fun l s => f l + s) 0 (seq a (S n - a)).

Section Low.
  Variable K : nat -> R.   (* FermionInterpolatedLowCoefficientCalculator / Boson... *)

  (** cf, 193; cb, 240 *)
  Definition cf : R := 3 / 2 + 2 * ln (4 * PI) - 2 * C_euler_gamma - 2 * ln 4.
  Definition cb : R := 3 / 2 + 2 * ln (4 * PI) - 2 * C_euler_gamma.

  (** 196-207 for x > 0 *)
  Definition fermion_low0 (n : nat) (x : R) : R :=
    -7 * PI ^ 4 / 360 + PI ^ 2 / 24 * x + 1 / 32 * x ^ 2 * (ln x - cf)
    + - PI ^ 2 * x * sum_from 2 n (fun l => (- x / (4 * PI ^ 2)) ^ l * K l).
  (** 211-221 for x > 0; pow(M_PI, 2 - 2l) is PI^2/PI^(2l) *)
  Definition fermion_low1 (n : nat) (x : R) : R :=
    PI ^ 2 / 24 + x * (-6 * cf + 3) / 96 + x * ln x / 16
    + sum_from 2 n (fun l => - K l * (- x / 4) ^ l * (INR l + 1) * (PI ^ 2 / PI ^ (2 * l))).
  (** JfermionInterpolatedLow, 180-225; for x < 0 the logarithm is NaN; [n] <= 1 gives empty sums.
      For other values of diff the result is 0. *)
  Definition JfermionInterpolatedLow (x : R) (n : nat) (diff : Z) : option R :=
    if Req_EM_T x 0 then
      if Z.eqb diff 0 then Some (-7 * PI ^ 4 / 360) else if Z.eqb diff 1 then Some (PI ^ 2 / 24) else Some 0
    else if Z.eqb diff 0 then (if Rlt_dec x 0 then None else Some (fermion_low0 n x))
    else if Z.eqb diff 1 then (if Rlt_dec x 0 then None else Some (fermion_low1 n x))
    else Some 0.

  (** 244-255; pow(x, 1.5) for x > 0 *)
  Definition boson_low0 (n : nat) (x : R) : R :=
    - PI ^ 4 / 45 + PI ^ 2 * x / 12 + - PI * Rpower x (3 / 2) / 6 + - x ^ 2 * (ln x - cb) / 32
    + PI ^ 2 * x * sum_from 2 n (fun l => (- x / (4 * PI ^ 2)) ^ l * K l).
  (** 259-270 *)
  Definition boson_low1 (n : nat) (x : R) : R :=
    PI ^ 2 / 12 + x * (6 * cb - 3) / 96 + - x * ln x / 16 + - PI * sqrt x / 4
    + sum_from 2 n (fun l => K l * (- x / 4) ^ l * (INR l + 1) * (PI ^ 2 / PI ^ (2 * l))).
  (** JbosonInterpolatedLow, 227-273 *)
  Definition JbosonInterpolatedLow (x : R) (n : nat) (diff : Z) : option R :=
    if Req_EM_T x 0 then
      if Z.eqb diff 0 then Some (- PI ^ 4 / 45) else if Z.eqb diff 1 then Some (PI ^ 2 / 12) else Some 0
    else if Z.eqb diff 0 then (if Rlt_dec x 0 then None else Some (boson_low0 n x))
    else if Z.eqb diff 1 then (if Rlt_dec x 0 then None else Some (boson_low1 n x))
    else Some 0.
End Low.

(** gsl_sf_doublefact *)
Fixpoint doublefact (n : nat) : R := match n with S (S m) => INR n * doublefact m | _ => 1 end.
(** BosonInterpolatedLowCoefficientCalculator, 50-63; FermionInterpolatedLowCoefficientCalculator, 35-48;
    [zeta n] is gsl_sf_zeta(n) *)
Definition K_boson (zeta : nat -> R) (l : nat) : R :=
  if Nat.ltb l 2 then 0 else doublefact (2 * l - 3) * zeta (2 * l - 1)%nat / (doublefact (2 * l) * (INR l + 1)).
Definition K_fermion (zeta : nat -> R) (l : nat) : R :=
  if Nat.ltb l 2 then 0
  else doublefact (2 * l - 3) * zeta (2 * l - 1)%nat / (doublefact (2 * l) * (INR l + 1)) * (2 ^ (2 * l - 1) - 1).

(** JInterpolatedHighCoefficientCalculator, 65-71: Gamma(5/2 + l)/Gamma(5/2 - l) written as the product of
    the 2l factors between them *)
Fixpoint gamma_ratio (z : R) (k : nat) : R := match k with O => 1 | S k => z * gamma_ratio (z + 1) k end.
Definition K_high (l : nat) : R := 1 / (2 ^ l * INR (fact l)) * gamma_ratio (5 / 2 - INR l) (2 * l).

Section High.
  Variable K : nat -> R.
  (** 284-291 for x > 0 *)
  Definition high0 (n : nat) (x : R) : R :=
    - exp (- sqrt x) * sqrt (PI / 2 * Rpower x (3 / 2)) * sum_from 0 n (fun l => K l * Rpower x (- INR l / 2)).
  (** 295-302 for x > 0: the exponent (1 - l) / 2 of line 300 is an integer division *)
  Definition high1 (n : nat) (x : R) : R :=
    exp (- sqrt x) * sqrt (2 * PI) / (8 * Rpower x (3 / 4))
    * sum_from 0 n (fun l => K l * powerRZ x (Z.quot (1 - Z.of_nat l) 2) * (2 * INR l + 2 * sqrt x - 3)).
  (** JInterpolatedHigh, 275-305; only called for x >= 2.2, [None] for x <= 0 *)
  Definition JInterpolatedHigh (x : R) (n : nat) (diff : Z) : option R :=
    if Rle_dec x 0 then None
    else if Z.eqb diff 0 then Some (high0 n x) else if Z.eqb diff 1 then Some (high1 n x) else Some 0.
End High.

(** ThermalFunctions.h 24-40 *)
Definition C_FermionTheta : R := 2216079120 / 1000000000.
Definition C_FermionShift : R := - (1560316619 / 100000000000).
Definition C_BosonTheta : R := 9469230596 / 1000000000.
Definition C_BosonShift : R := 63108787 / 10000000000.

Section Interp.
  Variables Kf Kb : nat -> R.
  (** JfermionInterpolated, 307-320 *)
  Definition JfermionInterpolated (x : R) (diff : Z) : option R :=
    if Rle_dec C_FermionTheta x then option_map Ropp (JInterpolatedHigh K_high x 3 diff)
    else option_map (fun r => - r + (if Z.eqb diff 0 then - C_FermionShift else 0)) (JfermionInterpolatedLow Kf x 4 diff).
  (** JbosonInterpolated, 322-339; [neg] is the spline for negative arguments, 350-365 *)
  Variable neg : R -> Z -> R.
  Definition JbosonInterpolated (x : R) (diff : Z) : option R :=
    if Rle_dec C_BosonTheta x then option_map (fun r => r - (if Z.eqb diff 0 then C_BosonShift else 0)) (JInterpolatedHigh K_high x 3 diff)
    else if Rle_dec 0 x then JbosonInterpolatedLow Kb x 3 diff
    else Some (neg x diff).
End Interp.

(** ** Integrands with complex arithmetic, 74-124 *)
Definition cplx : Type := R * R.
Definition cmul (a b : cplx) : cplx := (fst a * fst b - snd a * snd b, fst a * snd b + snd a * fst b).
Definition cadd (a b : cplx) : cplx := (fst a + fst b, snd a + snd b).
Definition cneg (a : cplx) : cplx := (- fst a, - snd a).
Definition norm2 (a : cplx) : R := fst a * fst a + snd a * snd a.
Definition cinv (a : cplx) : cplx := (fst a / norm2 a, - snd a / norm2 a).
Definition cexp (a : cplx) : cplx := (exp (fst a) * cos (snd a), exp (fst a) * sin (snd a)).
(** real part of std::log: log |z| *)
Definition clog_re (a : cplx) : R := ln (sqrt (norm2 a)).
(** std::sqrt of a real number *)
Definition csqrt_real (x : R) : cplx := if Rle_dec 0 x then (sqrt x, 0) else (0, sqrt (- x)).
Definition creal (x : R) : cplx := (x, 0).

(** JbosonIntegrand: k^2 is real, so the real part of k^2 * w is k^2 * Re w *)
Definition JbosonIntegrand (x k : R) (diff : Z) : R :=
  let s := csqrt_real (k * k + x) in
  let e := cexp (cneg s) in
  if Z.eqb diff 0 then k * k * clog_re (cadd (creal 1) (cneg e))
  else if Z.eqb diff 1 then
    fst (cmul (cmul (creal (k * k)) e) (cinv (cmul (cmul (creal 2) s) (cadd (creal 1) (cneg e)))))
  else 0.
Definition JfermionIntegrand (x k : R) (diff : Z) : R :=
  let s := csqrt_real (k * k + x) in
  let e := cexp (cneg s) in
  if Z.eqb diff 0 then k * k * clog_re (cadd (creal 1) e)
  else if Z.eqb diff 1 then
    fst (cmul (cmul (cneg (creal (k * k))) e) (cinv (cmul (cmul (creal 2) s) (cadd (creal 1) e))))
  else 0.
