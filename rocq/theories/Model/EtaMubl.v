(** Baryon asymmetry from the left-handed chemical potential: src/baryo_calculation/transport_equations.cpp 901-1000.
    Doubles are real numbers, the integrals of GSL are exact.  The solution of the transport equations, mubl_func, and the spline of Boost
    (data, left end, step) are arguments. *)
From Coq Require Import Reals List.
From Coquelicot Require Import Coquelicot.
Import ListNotations.
Open Scope R_scope.

Section EtaMubl.
  Variable boost_spline : list R -> R -> R -> R -> R.
  Variable mubl : R -> R.
  Variables vw TC ZMAX : R.   (* getvw(), getTC(), getZMAX() *)
  (** 905, 962, 992 *)
  Definition GWS : R := 1 / 10 ^ 6 * TC.
  (** 906, 963 *)
  Definition nu : R := 45 * GWS / (4 * vw).
  (** eta_integrand_func, 901-910 *)
  Definition eta_integrand_func (z : R) : R := mubl z * exp (- nu * z).
  (** Integrate_mubl, 915-934 *)
  Definition Integrate_mubl : R := RInt eta_integrand_func 0 ZMAX.
  (** generate_mubl_spline, 936-956: stepsize and ydata *)
  Definition stepsize (nstep : nat) : R := (ZMAX - 0) / INR nstep.
  Definition ydata (nstep : nat) : list R := map (fun i => mubl (INR i * stepsize nstep)) (seq 0 (S nstep)).
  Definition generate_mubl_spline (nstep : nat) : R -> R := boost_spline (ydata nstep) 0 (stepsize nstep).
  (** mubl_interpolation, 958-967 *)
  Definition mubl_interpolation (spline : R -> R) (z : R) : R := spline z * exp (- nu * z).
  (** Integrate_mubl_interpolated, 969-999 *)
  Definition gstar : R := 10675 / 100.
  Definition prefac : R := 405 * GWS / (4 * PI * PI * vw * gstar * TC).
  Definition Integrate_mubl_interpolated : R := RInt (mubl_interpolation (generate_mubl_spline 100)) 0 ZMAX * prefac.
End EtaMubl.
