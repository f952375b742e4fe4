(** Specification for the constant-velocity spline (C54, C75, C76). *)
From Coq Require Import QArith Reals List Arith.
Import ListNotations.

(** positions increase strictly along the path *)
Definition increasing (l : list Q) : Prop := forall i j a b, (i < j)%nat -> nth_error l i = Some a -> nth_error l j = Some b -> (a < b)%Q.

Local Open Scope R_scope.
(** F is the integral of f from zero *)
Definition integral_from_zero (f F : R -> R) : Prop := F 0 = 0 /\ forall t, derivable_pt_lim F t (f t).
Definition cubic (a b c d : R) (t : R) : R := a + b * t + c * t ^ 2 + d * t ^ 3.

(** scalar product and squared length *)
Fixpoint dot (u v : list R) : R := match u, v with a :: u', b :: v' => a * b + dot u' v' | _, _ => 0 end.
