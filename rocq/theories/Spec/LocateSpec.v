(** Linear systems and quadratic forms. *)
From Coq Require Import Reals.
Open Scope R_scope.

Fixpoint sum_of (d : nat) (f : nat -> R) : R := match d with O => 0 | S n => sum_of n f + f n end.
Definition apply (d : nat) (A : nat -> nat -> R) (x : nat -> R) : nat -> R := fun i => sum_of d (fun j => A i j * x j).
(** a solver: a result is a solution, and no result means that some non-zero vector is mapped to zero *)
Definition solves (d : nat) (solve : (nat -> nat -> R) -> (nat -> R) -> option (nat -> R)) : Prop := forall M b,
  match solve M b with
  | Some x => forall i, (i < d)%nat -> apply d M x i = b i
  | None => exists z, (exists i, (i < d)%nat /\ z i <> 0) /\ forall i, (i < d)%nat -> apply d M z i = 0
  end.
(** all eigenvalues of the form are at least c *)
Definition bounded_below (d : nat) (A : nat -> nat -> R) (c : R) : Prop := forall x, c * sum_of d (fun i => x i ^ 2) <= sum_of d (fun i => x i * apply d A x i).
