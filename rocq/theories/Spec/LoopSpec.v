(** Specification of the loop functions: divided differences of x L(x), and limits. *)
From Coq Require Import Reals.
Open Scope R_scope.

Definition tends_to (f : R -> R) (x l : R) : Prop :=
  forall eps, 0 < eps -> exists delta, 0 < delta /\ forall y, y <> x -> Rabs (y - x) < delta -> Rabs (f y - l) < eps.
Definition tends_right (f : R -> R) (x l : R) : Prop :=
  forall eps, 0 < eps -> exists delta, 0 < delta /\ forall y, x < y < x + delta -> Rabs (f y - l) < eps.

(** logarithm of a squared mass over the squared scale *)
Definition logscale (scale x : R) : R := ln (x / scale ^ 2).
Definition two_point (L : R -> R) (a b : R) : R := (a * L a - b * L b) / (a - b).
Definition three_point (L : R -> R) (a b c : R) : R :=
  a * L a / ((a - b) * (a - c)) + b * L b / ((b - a) * (b - c)) + c * L c / ((c - a) * (c - b)).

(** masses the program does not identify with each other or with zero by its threshold *)
Definition separated (thr a b : R) : Prop := a = b \/ thr <= Rabs (a - b).
Definition masses_apart (t a b c : R) : Prop :=
  separated t a 0 /\ separated t b 0 /\ separated t c 0 /\ separated t a b /\ separated t a c /\ separated t b c.
