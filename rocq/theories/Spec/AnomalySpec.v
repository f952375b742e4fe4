(** Thermodynamics of a phase. *)
From Coq Require Import Reals.
From Coquelicot Require Import Coquelicot.
Open Scope R_scope.

Fixpoint summed (n : nat) (f : nat -> R) : R := match n with O => 0 | S n => summed n f + f n end.
(** The function of n fields and the temperature is differentiable at (x, T) with the gradient g and the temperature
    derivative h (Frechet). *)
Definition differentiable_at (n : nat) (V : (nat -> R) -> R -> R) (x : nat -> R) (T : R) (g : nat -> R) (h : R) : Prop :=
  forall eps, 0 < eps -> exists delta, 0 < delta /\ forall y S,
    (forall i, (i < n)%nat -> Rabs (y i - x i) < delta) -> Rabs (S - T) < delta ->
    Rabs (V y S - V x T - summed n (fun i => g i * (y i - x i)) - h * (S - T)) <= eps * (summed n (fun i => Rabs (y i - x i)) + Rabs (S - T)).
(** A phase: positions of a minimum that move differentiably with the temperature.  At T the gradient vanishes. *)
Definition phase_at (n : nat) (V : (nat -> R) -> R -> R) (x : R -> nat -> R) (T h : R) : Prop :=
  (forall i, (i < n)%nat -> ex_derive (fun S => x S i) T) /\ differentiable_at n V (x T) T (fun _ => 0) h.

(** pressure, entropy density, enthalpy density, energy density and trace anomaly of a phase with the pressure p *)
Definition entropy (p : R -> R) (T : R) : R := Derive p T.
Definition enthalpy (p : R -> R) (T : R) : R := T * entropy p T.
Definition energy (p : R -> R) (T : R) : R := enthalpy p T - p T.
Definition anomaly (p : R -> R) (T : R) : R := (energy p T - 3 * p T) / 4.
(** the pressure is minus the effective potential in the phase *)
Definition pressure (V : (nat -> R) -> R -> R) (x : R -> nat -> R) (T : R) : R := - V (x T) T.
(** the Chapman-Jouguet velocity of a relativistic plasma with sound speed 1 / sqrt 3 *)
Definition jouguet (alpha : R) : R := (1 + sqrt (3 * alpha ^ 2 + 2 * alpha)) / (sqrt 3 * (1 + alpha)).
