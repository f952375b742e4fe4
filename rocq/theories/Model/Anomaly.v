(** Strength of a phase transition: src/bounce_solution/bounce_solution.cpp 934-1052.  Doubles are real numbers, arithmetic is exact. *)
From Coq Require Import Reals.
From Verif Require Import Model.GW.
Open Scope R_scope.

(** rho_gam, 971-972 and 1012-1013 *)
Definition rho_gam (gstar T : R) : R := gstar * PI ^ 2 / 30 * T ^ 4.
(** alpha of CalculatePTStrength, 954-973; Vi, Vf are the potentials of the false and the true minimum at the percolation
    temperature T, dTVi and dTVf the results of VEff with diff = -1 *)
Definition PTStrength (gstar T Vi Vf dTVi dTVf : R) : R := 1 / rho_gam gstar T * (Vi - Vf - T / 4 * (dTVi - dTVf)).
(** the wall velocity of mode -1 that CalculateWallVelocity derives from it, 1003-1023; Csound is a rounded 1/sqrt(3) (SMparam.h 220) *)
Definition WallVelocity1 (gstar T Vi Vf dTVi dTVf : R) : option R :=
  vwall_mode1 (sqrt (1 / 3)) (PTStrength gstar T Vi Vf dTVi dTVf) (rho_gam gstar T) Vi Vf.
(** psi of mode -2, 1041 *)
Definition psi (dTVi dTVf : R) : R := dTVf / dTVi.
