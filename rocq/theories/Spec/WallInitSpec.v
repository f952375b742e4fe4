(** Sign images and phases up to a sign. *)
From Coq Require Import Reals List.
From Coquelicot Require Import Coquelicot.
Import ListNotations.
Open Scope R_scope.

(** componentwise product *)
Fixpoint image (s v : list R) : list R :=
  match s, v with a :: s, x :: v => a * x :: image s v | _, _ => [] end.

(** Euclidean distance squared *)
Fixpoint dist2 (a b : list R) : R :=
  match a, b with x :: a, y :: b => (x - y) ^ 2 + dist2 a b | _, _ => 0 end.

Definition origin (v : list R) : list R := map (fun _ => 0) v.

(** [z] has the phase [p] up to a sign *)
Definition phase_up_to_sign (z : C) (p : R) : Prop :=
  exists r : R, z = (r * cos p, r * sin p).
