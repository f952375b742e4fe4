(** CP conjugation and transport ahead of the wall. *)
From Coq Require Import Reals List.
From Verif Require Import Base.
Open Scope R_scope.

(** The same outcome with the opposite number. *)
Definition opposite (a b : outcome R) : Prop :=
  match a, b with
  | Ok x, Ok y => y = - x
  | Throw e, Throw e' => e = e'
  | UB, UB => True
  | OutOfFuel, OutOfFuel => True
  | _, _ => False
  end.

(** A density that vanishes far in front of a wall. *)
Definition vanishes_ahead (n : R -> R) : Prop :=
  forall eps, 0 < eps -> exists Z, forall z, Z <= z -> Rabs (n z) < eps.

(** A density that is only carried along and diffuses, in the frame of a wall
    that moves with [vw] towards positive positions: the flux [- D n' - vw n] is
    constant. *)
Definition free_flow (vw D : R) (n n1 : R -> R) : Prop :=
  forall z, derivable_pt_lim n z (n1 z) /\ derivable_pt_lim (fun y => - D * n1 y - vw * n y) z 0.
