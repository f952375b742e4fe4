(** The bounce of several fields, and least squares. *)
From Coq Require Import Reals.
Open Scope R_scope.

Fixpoint inner (d : nat) (a b : nat -> R) : R := match d with O => 0 | S n => inner n a b + a n * b n end.
(** phi'' + alpha / rho phi' = grad V(phi), component by component *)
Definition field_equation (d : nat) (alpha : R) (grad : (nat -> R) -> nat -> R) (phi : R -> nat -> R) : Prop :=
  exists v a : R -> nat -> R, forall r i, 0 < r -> (i < d)%nat ->
    derivable_pt_lim (fun r => phi r i) r (v r i) /\ derivable_pt_lim (fun r => v r i) r (a r i) /\
    a r i + alpha / r * v r i = grad (phi r) i.
(** a curve with unit speed *)
Definition unit_curve (d : nat) (c t k : R -> nat -> R) : Prop :=
  (forall x i, (i < d)%nat -> derivable_pt_lim (fun x => c x i) x (t x i) /\ derivable_pt_lim (fun x => t x i) x (k x i)) /\
  forall x, inner d (t x) (t x) = 1.
