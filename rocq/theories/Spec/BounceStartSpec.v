(** Motion with friction that starts at rest. *)
From Coq Require Import Reals.
Open Scope R_scope.

Definition near_zero (f : R -> R) (c : R) : Prop :=
  forall eps, 0 < eps -> exists d, 0 < d /\ forall r, 0 < r < d -> Rabs (f r - c) < eps.
(** l'' + alpha / rho l' = force l for rho > 0, with l -> l0 and l' -> 0 for rho -> 0 *)
Definition rolls (alpha : nat) (force : R -> R) (l0 : R) (l l' : R -> R) : Prop :=
  (exists l'', forall r, 0 < r ->
     derivable_pt_lim l r (l' r) /\ derivable_pt_lim l' r (l'' r) /\ l'' r + INR alpha / r * l' r = force (l r)) /\
  near_zero l l0 /\ near_zero l' 0.
