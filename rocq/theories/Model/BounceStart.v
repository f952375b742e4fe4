(** The first step of the bounce: src/bounce_solution/action_calculation.cpp 232-514, class BounceActionInt.

    Doubles are real numbers, arithmetic is exact.  Near the start the equation of motion
    l'' + Alpha / rho l' = V'(l) is replaced by the one with a linear force and solved in closed form. *)
From Coq Require Import Reals List ZArith.
From Coquelicot Require Import Coquelicot.
Open Scope R_scope.

(** BesselI(alpha, x), 232-247, for alpha = 0, 1, 2: tgamma(m + alpha + 1) is (m + alpha)!.
    The sum is taken to the end; the program stops after 100 terms or when it changes by less than 1e-15. *)
Definition BesselI (alpha : nat) (x : R) : R :=
  (x / 2) ^ alpha * PSeries (fun m => / (INR (fact (m + alpha)) * INR (fact m))) ((x / 2) ^ 2).
(** BesselJ, 249-264, likewise *)
Definition BesselJ (x : R) : R := x / 2 * PSeries (fun m => / (INR (fact (m + 1)) * INR (fact m)) * (-1) ^ m) ((x / 2) ^ 2).

(** pow(x, 1.5) for x > 0 *)
Definition pow15 (x : R) : R := x * sqrt x.

(** the four cases of 376-446 *)
Inductive shape := Sinh | Sin | BesI | BesJ.
Definition shape_of (alpha : nat) (d2 : R) : option shape :=
  if Rlt_dec 0 d2 then match alpha with 2%nat => Some Sinh | 3%nat => Some BesI | _ => None end
  else if Rlt_dec d2 0 then match alpha with 2%nat => Some Sin | 3%nat => Some BesJ | _ => None end
  else None.

(** what LinearSolution subtracts from l, 380-382, 395-397, 411-413, 428-430; [d2] is d2Vdl2 *)
Definition value (s : shape) (l0 dVdl d2 rho : R) : R :=
  match s with
  | Sinh => l0 - dVdl / d2 + 1 * dVdl * sinh (sqrt (Rabs d2) * rho) / (pow15 (Rabs d2) * rho)
  | Sin => l0 - dVdl / d2 + -1 * dVdl * sin (sqrt (Rabs d2) * rho) / (pow15 (Rabs d2) * rho)
  | BesI => l0 - dVdl / d2 + 2 * dVdl * BesselI 1 (sqrt d2 * rho) / (pow15 d2 * rho)
  | BesJ => l0 - dVdl / d2 - 2 * dVdl * BesselJ (sqrt (Rabs d2) * rho) / (pow15 (Rabs d2) * rho)
  end.
(** LinearSolutionDerivative, 384-389, 400-406, 415-422, 432-439 *)
Definition slope (s : shape) (l0 l dVdl d2 rho : R) : R :=
  match s with
  | Sinh => dVdl * cosh (sqrt d2 * rho) / (d2 * rho) - dVdl * sinh (sqrt d2 * rho) / (pow15 d2 * rho ^ 2)
  | Sin => - (dVdl * cos (sqrt (Rabs d2) * rho) / (Rabs d2 * rho)) + dVdl * sin (sqrt (Rabs d2) * rho) / (pow15 (Rabs d2) * rho ^ 2)
  | BesI => -2 * dVdl * BesselI 1 (sqrt d2 * rho) / (pow15 d2 * rho ^ 2)
            + dVdl * (BesselI 0 (sqrt d2 * rho) + BesselI 2 (sqrt d2 * rho)) / (d2 * rho)
  | BesJ => - ((l - value BesJ l0 dVdl d2 (rho + 1 / 1000)) - (l - value BesJ l0 dVdl d2 (rho - 1 / 1000))) / (2 / 1000)
  end.

(** 312-317, 490-496: at most [n] times *)
Fixpoint widen (n : nat) (f : R -> R) (up : R) : R :=
  match n with O => up | S n => if Rlt_dec 0 (f up) then widen n f (up + 1) else up end.
(** 319-333, 498-512; [n] counts down from 150 *)
Fixpoint bisect (n : nat) (f : R -> R) (down up middle : R) : R :=
  match n with
  | O => middle
  | S n =>
      if Rlt_dec (/ 10 ^ 10) (up - down) then
        let m := (up + down) / 2 in
        if Rlt_dec 0 (f m) then bisect n f m up m else bisect n f down m m
      else middle
  end.
(** 268, 348 *)
Definition rho_down : R := / 10 ^ 100.

(** {rho, l, dl/drho}; Integration1DFailed; NaN; a std::function that was never set *)
Inductive start := Start (rho l v : R) | IntegrationFailed | NotANumber | EmptyFunction | StartOutOfFuel.

(** 449-451, 460-462 *)
Definition small_step (l0 dVdl : R) : start :=
  let s := / 10 ^ 5 in Start s (l0 + s * s * dVdl / 2) (s * dVdl).
(** ExactSolutionLin, 337-514; [L] is Spline.L, fuel bounds the number of nested calls *)
Fixpoint ExactSolutionLin (fuel : nat) (alpha : nat) (L l0 l dVdl d2 : R) : start :=
  match fuel with
  | O => StartOutOfFuel
  | S fuel =>
      match shape_of alpha d2 with
      | None => small_step l0 dVdl
      | Some s =>
          let f := fun rho => l - value s l0 dVdl d2 rho in
          if Rlt_dec (f rho_down) 0 then small_step l0 dVdl
          else
            let finish up := let rho := bisect 150 f rho_down up 0 in Start rho l (slope s l0 l dVdl d2 rho) in
            if Rlt_dec d2 0 then
              let up := (if Nat.eqb alpha 2 then 4.493409457909 else 5.13562230184068) / sqrt (Rabs d2) in
              if Rlt_dec 0 (f up) then
                if Rlt_dec (Rabs ((l - l0) / L)) (/ 10 ^ 10) then IntegrationFailed
                else ExactSolutionLin fuel alpha L l0 (l0 + (l - l0) / 10) dVdl d2
              else finish up
            else finish (widen 100 f 1)
      end
  end.

(** 276-281, 294-300 *)
Definition min_value (alpha : nat) (hess lmin delta rho : R) : R :=
  if Nat.eqb alpha 2 then lmin + delta * sinh (sqrt hess * rho) / (sqrt hess * rho)
  else lmin + 2 * delta * BesselI 1 (sqrt hess * rho) / (sqrt hess * rho).
(** 282-288, 301-306 *)
Definition min_slope (alpha : nat) (hess delta rho : R) : R :=
  if Nat.eqb alpha 2 then delta * cosh (rho * sqrt hess) / rho - delta * sinh (rho * sqrt hess) / (rho ^ 2 * sqrt hess)
  else 2 * delta * BesselI 2 (rho * sqrt hess) / rho.
(** ExactSolutionFromMinimum, 266-335; [hess] is TrueVacuumHessian, [lmin] is Initial_lmin, [delta] is l0_minus_lmin;
    the assertion of 310 is taken to be switched off; [rho_up < 100] allows 99 increments of 1 *)
Definition ExactSolutionFromMinimum (alpha : nat) (hess lmin delta l : R) : start :=
  if (Nat.eqb alpha 2 || Nat.eqb alpha 3)%bool then
    if Rle_dec hess 0 then NotANumber
    else
      let f := fun rho => l - min_value alpha hess lmin delta rho in
      let rho := bisect 150 f rho_down (widen 99 f 1) 0 in Start rho l (min_slope alpha hess delta rho)
  else EmptyFunction.
