(** Specification of a wall profile: what it means that a function interpolates between two phases and that
    other functions are its derivatives. *)
From Coq Require Import Reals List.
Import ListNotations.
Open Scope R_scope.

(** [f] tends to [a] far inside the broken phase (z to minus infinity) and to [b] far outside *)
Definition goes_from_to (f : R -> R) (a b : R) : Prop :=
  (forall eps, 0 < eps -> exists M, forall z, z < M -> Rabs (f z - a) < eps) /\
  (forall eps, 0 < eps -> exists M, forall z, M < z -> Rabs (f z - b) < eps).

(** [g] is the derivative of [f] everywhere *)
Definition derivative_of (f g : R -> R) : Prop := forall z, derivable_pt_lim f z (g z).

(** component [i] of a vector-valued profile *)
Definition component (f : R -> list R) (i : nat) (z : R) : R := nth i (f z) 0.

(** [grad] is the gradient of [F] on vectors of length [n]: along every differentiable curve the derivative is
    the sum of the partial derivatives times the velocities *)
Definition gradient_of (n : nat) (F : list R -> R) (grad : list R -> list R) : Prop :=
  forall (c : R -> list R) (v : nat -> R) z, (forall y, length (c y) = n) ->
    (forall i, (i < n)%nat -> derivable_pt_lim (component c i) z (v i)) ->
    derivable_pt_lim (fun y => F (c y)) z (fold_right Rplus 0 (map (fun i => v i * nth i (grad (c z)) 0) (seq 0 n))).
