(** Decay rate, expansion rate and fraction of the false vacuum: src/bounce_solution/bounce_solution.cpp 564-601, 717-722,
    852-936 and 1050-1090.  Doubles are real numbers, arithmetic is exact; gsl_integration_qags returns the integral and
    gsl_deriv_central the derivative (both are in the trusted base). *)
From Coq Require Import Reals.
From Coquelicot Require Import Coquelicot.
Open Scope R_scope.

(** std::pow(x, 3. / 2) for x >= 0 *)
Definition pow_3_2 (x : R) : R := x * sqrt x.

(** TunnelingRate, 564-581.  [first] and [last] are the temperatures of SolutionList.front() and back(), [S3] is the spline of
    GetBounceSol (1050-1053); the rate is asked for after a successful scan only, when the list is not empty. *)
Definition TunnelingRate (first last : R) (S3 : R -> R) (T : R) : R :=
  if Rlt_dec T first then 0 else if Rlt_dec last T then 0
  else if Rlt_dec (S3 T) 0 then 10 ^ 100
  else T ^ 4 * pow_3_2 (S3 T / (2 * PI * T)) * exp (- S3 T / T).

(** HubbleRate, 583-588; MPl is the constant of include/BSMPT/models/SMparam.h 225 *)
Definition MPl : R := 24 / 10 * 10 ^ 18.
Definition HubbleRate (gstar T : R) : R := PI * sqrt gstar / sqrt 90 * T ^ 2 / MPl.

(** CalcGstarPureRad, 590-601 *)
Definition GstarPureRad (NHiggs : nat) : R :=
  let gb := 8 * 2 + 3 * 3 + 2 + INR NHiggs in
  let gf := 6 * 3 * 2 * 2 + 3 * 2 * 2 + 3 * 2 in
  gb + 7 / 8 * gf.

Section Fraction.
  Variables first last Tc gstar vwall : R.
  Variable S3 : R -> R.
  (** inner_integrand and Nintegrate_Inner, 852-857 and 869-898; [T] is the stored temperature *)
  Definition Inner (T T' : R) : R := RInt (fun x => 1 / HubbleRate gstar x) T T'.
  (** outer_integrand, 859-867 *)
  Definition outer_integrand (T x : R) : R := TunnelingRate first last S3 x / (x ^ 4 * HubbleRate gstar x) * Inner T x ^ 3.
  (** Nintegrate_Outer, 900-928 *)
  Definition Outer (T : R) : R := RInt (outer_integrand T) T Tc.
  (** CalcFalseVacFraction, 717-722 *)
  Definition FalseVacFraction (T : R) : R := exp (- (4 * PI / 3 * vwall ^ 3) * Outer T).
End Fraction.

(** CalculateInvTimeScale, 1055-1092 *)
Definition InvTimeScale (S3 : R -> R) (T : R) : R := T * Derive (fun x => S3 x / x) T.
