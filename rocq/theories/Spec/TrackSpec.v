(** Specifications for phase tracking (C13, C14, C62). *)
From Verif.Model Require Import Base Track.
Open Scope Q_scope.

(** [x] lies between [a] and [b], in either order *)
Definition between (a x b : Q) : Prop := (a <= x /\ x <= b) \/ (b <= x /\ x <= a).

(** the list proceeds from [a] towards [b]: each entry is between its predecessor and [b] *)
Fixpoint towards (a b : Q) (l : list Q) : Prop :=
  match l with
  | [] => True
  | x :: r => between a x b /\ towards x b r
  end.

(** distances are norms; the bisection for the zero of the smallest eigenvalue between
    the previous temperature T - dT and T returns a point in between or a non-positive
    value (theorem C62) *)
Definition sane (oracle : nat -> Q -> Q -> probe) : Prop :=
  forall k T d, 0 <= dist (oracle k T d) /\
    (zero_T (oracle k T d) <= 0 \/ between (T - d) (zero_T (oracle k T d)) T).

(** the local minimiser follows the phase at temperature [T]: no jump, no NaN *)
Definition followed (th : Q) (p : probe) : Prop :=
  grad_big p = false /\ has_nan p = false /\ dist p <= th.
