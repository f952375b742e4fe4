(** Symmetries of a potential and representatives of their orbits. *)
From Coq Require Import Reals.
Open Scope R_scope.

(** rotations in the plane of two fields *)
Definition rotation_invariant (V : (nat -> R) -> R) (i j : nat) : Prop :=
  forall p q, (forall k, k <> i -> k <> j -> p k = q k) -> p i ^ 2 + p j ^ 2 = q i ^ 2 + q j ^ 2 -> V p = V q.
Definition sphere_invariant (V : (nat -> R) -> R) (i j k : nat) : Prop :=
  forall p q, (forall m, m <> i -> m <> j -> m <> k -> p m = q m) -> p i ^ 2 + p j ^ 2 + p k ^ 2 = q i ^ 2 + q j ^ 2 + q k ^ 2 -> V p = V q.
Definition independent (V : (nat -> R) -> R) (i : nat) : Prop := forall p q, (forall k, k <> i -> p k = q k) -> V p = V q.
Fixpoint sum_below (n : nat) (f : nat -> R) : R := match n with O => 0 | S n => sum_below n f + f n end.
(** values that are regarded as equal *)
Definition close (a b : R) : Prop :=
  (Rabs a < / 10 ^ 10 /\ Rabs b < / 10 ^ 10) \/ Rabs (a - b) < Rabs (a + b) / 2 * / 10 ^ 8.
(** all fields are 1 except that the fields i, j, k (in this order) are set to x, y, z *)
Definition point1 (i : nat) (x : R) : nat -> R := fun m => if Nat.eqb m i then x else 1.
Definition point2 (i j : nat) (x y : R) : nat -> R := fun m => if Nat.eqb m j then y else if Nat.eqb m i then x else 1.
Definition point3 (i j k : nat) (x y z : R) : nat -> R := fun m => if Nat.eqb m k then z else if Nat.eqb m j then y else if Nat.eqb m i then x else 1.
