(** Distances of points and images under linear maps. *)
From Coq Require Import Reals List.
Import ListNotations.
Open Scope R_scope.

Fixpoint dist2 (a b : list R) : R := match a, b with x :: a, y :: b => (x - y) ^ 2 + dist2 a b | _, _ => 0 end.
(** length of a vector *)
Definition vector_length (v : list R) : R := sqrt (fold_right (fun x s => x ^ 2 + s) 0 v).
(** a point on the straight line between two points *)
Fixpoint between (s : R) (a b : list R) : list R := match a, b with x :: a, y :: b => (x + s * (y - x)) :: between s a b | _, _ => [] end.
(** |a - b| is less than rel times the mean of a and b, or both are below zero *)
Definition close (rel zero a b : R) : Prop := (Rabs a < zero /\ Rabs b < zero) \/ Rabs (a - b) < rel * Rabs ((a + b) / 2).
