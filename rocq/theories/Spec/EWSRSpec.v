(** Specification of the check for symmetry restoration at high temperature (C82, C83). *)
From Coq Require Import Reals List ZArith.
From Verif.Model Require Import EWSR.
From Verif.Spec Require Import NumDerivSpec.
Import ListNotations.
Open Scope R_scope.

(** the eigenvalue of step [i]; before the first step two fixed numbers are used *)
Definition eig (steps : list ewsr_step) (i : Z) : option R :=
  if (i =? -1)%Z then Some (10 ^ 100) else if (i =? -2)%Z then Some (10 ^ 200)
  else match nth_error steps (Z.to_nat i) with Some s => ev s | None => None end.

(** [b] agrees with [a] up to one part in a million; nothing agrees with zero *)
Definition agrees (b a : option R) : Prop :=
  exists x y, b = Some x /\ a = Some y /\ y <> 0 /\ Rabs (x - y) < Rabs y / 1000000.

(** step [i] is the first whose eigenvalue agrees with those of the two previous steps *)
Definition settles (steps : list ewsr_step) (i : nat) : Prop :=
  let ok j := agrees (eig steps j) (eig steps (j - 1)) /\ agrees (eig steps j) (eig steps (j - 2)) in
  (i < length steps)%nat /\ ok (Z.of_nat i) /\ forall j, (j < i)%nat -> ~ ok (Z.of_nat j).

(** a quadratic function of [n] variables: value, gradient and Hessian matrix at the origin *)
Definition quad (n : nat) (c : R) (g : nat -> R) (H : nat -> nat -> R) (y : nat -> R) : R :=
  c + sumR n (fun i => g i * y i) + sumR n (fun i => sumR n (fun j => H i j * y i * y j)) / 2.
Definition symmetric (n : nat) (H : nat -> nat -> R) : Prop := forall i j, (i < n)%nat -> (j < n)%nat -> H i j = H j i.
Definition positive (n : nat) (H : nat -> nat -> R) : Prop :=
  forall y, 0 <= sumR n (fun i => sumR n (fun j => H i j * y i * y j)).
(** [x] solves H x = g *)
Definition solves (n : nat) (H : nat -> nat -> R) (g : nat -> R) (x : nat -> R) : Prop :=
  forall i, (i < n)%nat -> sumR n (fun j => H i j * x j) = g i.
