(** Barriers and bubble walls. *)
From Coq Require Import Reals.
Open Scope R_scope.

(** Height of the barrier of a potential along a path from 0 to 1 above its
    lower end. *)
Definition barrier (f : R -> R) (b : R) : Prop :=
  exists t, 0 <= t <= 1 /\ (forall u, 0 <= u <= 1 -> f u <= f t) /\ b = f t - Rmin (f 0) (f 1).

(** A static wall: a field profile with phi'' = V'(phi). *)
Definition static_wall (V phi : R -> R) : Prop :=
  exists dphi dV, forall z,
    derivable_pt_lim phi z (dphi z) /\ derivable_pt_lim V (phi z) (dV (phi z)) /\ derivable_pt_lim dphi z (dV (phi z)).

(** Potential with degenerate minima at 0 and v. *)
Definition quartic (lam v phi : R) : R := lam / 4 * phi ^ 2 * (phi - v) ^ 2.

Definition local_maximum (f : R -> R) (t : R) : Prop := exists e, 0 < e /\ forall u, Rabs (u - t) < e -> f u <= f t.
