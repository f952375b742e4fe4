(** Roots of polynomials of degree three and conditions under which they are well separated. *)
From Coq Require Import Reals List Sorted.
Import ListNotations.
Local Open Scope R_scope.

(** the value of a + b x + c x^2 + d x^3 *)
Definition cubic (a b c d x : R) : R := a + b * x + c * x ^ 2 + d * x ^ 3.
(** a list of all zeros of a function, ascending, each once *)
Definition all_zeros (f : R -> R) (l : list R) : Prop := StronglySorted Rlt l /\ forall x, In x l <-> f x = 0.
(** the discriminants *)
Definition disc2 (a b c : R) : R := b ^ 2 - 4 * a * c.
Definition disc3 (a b c d : R) : R := 18 * a * b * c * d - 4 * c ^ 3 * a + b ^ 2 * c ^ 2 - 4 * d * b ^ 3 - 27 * d ^ 2 * a ^ 2.
(** roots are equal, or their distance is above the rounding errors of the coefficients *)
Definition separated2 (a b c : R) : Prop := disc2 a b c = 0 \/ (7 * b ^ 2 + 16 * Rabs (a * c)) / 2 ^ 53 < Rabs (disc2 a b c).
Definition separated3 (a b c d : R) : Prop :=
  (disc3 a b c d = 0 /\ (c ^ 2 = 3 * b * d \/ 12 * (c ^ 2 + Rabs (b * d)) / 2 ^ 52 < Rabs (c ^ 2 - 3 * b * d))) \/
  108 * d ^ 4 * ((Rabs (b / d) + (c / d) ^ 2) ^ 3 + 3 * (Rabs (a / d) + Rabs (c / d) * (Rabs (b / d) + (c / d) ^ 2)) ^ 2) / 2 ^ 52 < Rabs (disc3 a b c d).
(** for each degree; the polynomial 0 is excluded *)
Definition separated (a b c d : R) : Prop :=
  (d <> 0 /\ separated3 a b c d) \/ (d = 0 /\ c <> 0 /\ separated2 a b c) \/ (d = 0 /\ c = 0 /\ (b <> 0 \/ a <> 0)).

(** the tolerance of the knot i *)
Definition tolerance (x : nat -> R) (i : nat) : R := match i with O => 0 | S j => Rmin (x i - x j) 1 / 2 ^ 43 end.
(** a piece of the spline takes the value v at t, which lies on the piece or by no more than the tolerance to the left of it *)
Definition crossing (n : nat) (x y b c d : nat -> R) (v t : R) : Prop :=
  exists i, (S i < n)%nat /\ cubic (y i - v) (b i) (c i) (d i) (t - x i) = 0 /\ - tolerance x i <= t - x i < x (S i) - x i.
