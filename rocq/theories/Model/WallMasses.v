(** Masses of the heavy fermions along the wall and the statistical factor of the transport equations:
    src/baryo_calculation/Fluid_Type/gen_func_fluid.cpp 230-265, 402-451, 520-555.
    Doubles are real numbers; integrations are exact.  The test for NaN of tau_func is left out: no NaN arises for a wall of non-zero thickness. *)
From Coq Require Import Reals List Arith.
From Coquelicot Require Import Coquelicot.
From Verif Require Import Model.WallProfile.
Import ListNotations.
Open Scope R_scope.

(** all or nothing: an exception in one step of a loop ends it *)
Fixpoint sequence (l : list (option R)) : option (list R) :=
  match l with
  | [] => Some []
  | None :: _ => None
  | Some x :: t => match sequence t with Some r => Some (x :: r) | None => None end
  end.
(** 442-445, 549-550: res += dif.at(i) * grad_omega.at(i) *)
Definition along (dif omega : list R) : R := fold_left (fun res '(a, b) => res + a * b) (combine dif omega) 0.
(** one fermion of top_func, 420-445, or tau_func, 535-550: [masses phi i] is QuarkMassesSquared(phi, i) or LeptonMassesSquared(phi, i), [nf] the number
    of fermions, [back] the position counted from the end of the masses; the mass is the one of the last call.  None: std::out_of_range, which is also
    what a wrapped index gives. *)
Definition fermion (masses : list R -> nat -> list R) (nf back : nat) (LW : R) (vc : list R) (z : R) : option (R * R) :=
  let phi := gen_phi LW vc z in
  let n := length vc in
  if (nf <? back)%nat then None
  else if (n =? 0)%nat then None
  else
    match sequence (map (fun i => nth_error (masses phi i) (2 * nf - back)) (seq 1 n)), nth_error (masses phi n) (nf - back) with
    | Some dif, Some m => Some (sqrt (Rabs m), along dif (omegaprime LW vc z))
    | _, _ => None
    end.
(** gen_fluid::top_func, 402-451: masses of top and bottom, and derivatives *)
Definition top_func (QuarkMassesSquared : list R -> nat -> list R) (nquark : nat) (LW : R) (vc : list R) (z : R) : option (list R * list R) :=
  match fermion QuarkMassesSquared nquark 1 LW vc z, fermion QuarkMassesSquared nquark 3 LW vc z with
  | Some (mt, dt), Some (mb, db) => Some ([mt; mb], [dt; db])
  | _, _ => None
  end.
(** gen_fluid::tau_func, 520-555 *)
Definition tau_func (LeptonMassesSquared : list R -> nat -> list R) (nlep : nat) (LW : R) (vc : list R) (z : R) : option (list R * list R) :=
  match fermion LeptonMassesSquared nlep 1 LW vc z with Some (m, d) => Some ([m], [d]) | None => None end.

(** Calc_kappa_t::operator(), 235-245 *)
Definition dkappa (Temp mt x : R) : R := 6 / (PI * PI) * (x * exp x * sqrt (x * x - (mt / Temp) ^ 2) / (exp x + 1) ^ 2).
(** NIntegrate_kappa, 247-265; boost's integrate_adaptive takes no step if the start is not below the end *)
Definition NIntegrate_kappa (Temp mt : R) : R :=
  let xstart := mt / Temp + / 100000 in
  let xend := 3 * 100 in
  if Rlt_dec xstart xend then RInt (dkappa Temp mt) xstart xend else 0.
