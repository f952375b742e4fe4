(** Specification of the four-point loop function: the third divided difference of x L(x). *)
From Coq Require Import Reals.
Open Scope R_scope.

Definition four_point (L : R -> R) (a b c d : R) : R :=
  a * L a / ((a - b) * (a - c) * (a - d)) + b * L b / ((b - a) * (b - c) * (b - d)) +
  c * L c / ((c - a) * (c - b) * (c - d)) + d * L d / ((d - a) * (d - b) * (d - c)).

(** four masses of which any two, and any one and zero, agree or differ by at least [t] *)
Definition masses_apart4 (t a b c d : R) : Prop :=
  let ok x y := x = y \/ t <= Rabs (x - y) in
  (ok a 0 /\ ok b 0 /\ ok c 0 /\ ok d 0) /\ (ok a b /\ ok a c /\ ok a d) /\ (ok b c /\ ok b d /\ ok c d).
