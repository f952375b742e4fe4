(** What is expected of the calls of the minimisation libraries. *)
From Coq Require Import Reals List.
Import ListNotations.
Open Scope R_scope.

(** a box of intervals contains a point *)
Definition contains (b : list (R * R)) (x : list R) : Prop := length b = length x /\ forall i l u, nth_error b i = Some (l, u) -> l <= nth i x 0 <= u.
(** points that differ in signs of their components *)
Definition same_moduli (x y : list R) : Prop := length x = length y /\ forall i, Rabs (nth i x 0) = Rabs (nth i y 0).
(** what is left of a list without one entry *)
Definition without {A} (k : nat) (l : list A) : list A := firstn k l ++ skipn (S k) l.
(** the first number below a bound with a property *)
Definition first_such (P : nat -> bool) (k : nat) : Prop := P k = true /\ forall j, (j < k)%nat -> P j = false.
