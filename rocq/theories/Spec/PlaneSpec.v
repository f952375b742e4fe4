(** Specification: the plane through a point with a given normal vector. *)
From Coq Require Import Reals List.
Import ListNotations.
Open Scope R_scope.

(** n . (v - P) over the first [k] components, read with default 0 *)
Fixpoint plane_form (k : nat) (n v P : list R) : R :=
  match k with
  | O => 0
  | S k => plane_form k n v P + nth k n 0 * (nth k v 0 - nth k P 0)
  end.
Definition in_plane (k : nat) (n P v : list R) : Prop := length v = k /\ plane_form k n v P = 0.
