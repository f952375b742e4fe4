(** Eigenvalues of families of symmetric matrices. *)
From Coq Require Import Reals.
From Coquelicot Require Import Coquelicot.
Open Scope R_scope.

Fixpoint sigma (n : nat) (f : nat -> R) : R := match n with O => 0 | S n => sigma n f + f n end.
Definition image (n : nat) (A : nat -> nat -> R) (x : nat -> R) (i : nat) : R := sigma n (fun j => A i j * x j).
(** a normalised eigenvector *)
Definition eigenpair (n : nat) (A : nat -> nat -> R) (l : R) (v : nat -> R) : Prop :=
  (forall i, (i < n)%nat -> image n A v i = l * v i) /\ sigma n (fun i => v i * v i) = 1.
(** the eigenvalue is not repeated *)
Definition simple (n : nat) (A : nat -> nat -> R) (l : R) (v : nat -> R) : Prop :=
  forall w, (forall i, (i < n)%nat -> image n A w i = l * w i) -> exists k, forall i, (i < n)%nat -> w i = k * v i.
(** a solver of linear systems: right if there is only one solution *)
Definition solver (n : nat) (solve : (nat -> nat -> R) -> (nat -> R) -> (nat -> R)) : Prop := forall C b,
  (forall z, (forall i, (i < n)%nat -> image n C z i = 0) -> forall i, (i < n)%nat -> z i = 0) ->
  forall i, (i < n)%nat -> image n C (solve C b) i = b i.
(** a family of symmetric matrices near (x0, y0) with an eigenpair, all differentiable *)
Record family (n : nat) (x0 y0 eps : R) (M : R -> R -> nat -> nat -> R) (MX : R -> nat -> nat -> R) (MY MXY : nat -> nat -> R)
  (lam : R -> R -> R) (v : R -> R -> nat -> R) : Prop := {
  near : 0 < eps;
  symmetric : forall x y i j, M x y i j = M x y j i;
  in_x : forall y i j, Rabs (y - y0) < eps -> (i < n)%nat -> (j < n)%nat -> is_derive (fun x => M x y i j) x0 (MX y i j);
  in_y : forall i j, (i < n)%nat -> (j < n)%nat -> is_derive (fun y => M x0 y i j) y0 (MY i j);
  in_xy : forall i j, (i < n)%nat -> (j < n)%nat -> is_derive (fun y => MX y i j) y0 (MXY i j);
  pairs : forall x y, Rabs (x - x0) < eps -> Rabs (y - y0) < eps -> eigenpair n (M x y) (lam x y) (v x y);
  vec_x : forall y, Rabs (y - y0) < eps -> exists w, forall i, (i < n)%nat -> is_derive (fun x => v x y i) x0 (w i);
  vec_y : exists w, forall i, (i < n)%nat -> is_derive (fun y => v x0 y i) y0 (w i) }.
