(** Specification of the vector and matrix helpers (C10). *)
From Coq Require Import List.
Import ListNotations.

(** [f 0 + f 1 + ... + f (n-1)], added from the left to zero *)
Fixpoint sum {T} (add : T -> T -> T) (zero : T) (f : nat -> T) (n : nat) : T :=
  match n with O => zero | S k => add (sum add zero f k) (f k) end.

(** an m x n matrix *)
Definition rectangular {T} (m n : nat) (A : list (list T)) : Prop :=
  length A = m /\ Forall (fun r => length r = n) A.

(** entry i j of a matrix *)
Definition entry {T} (A : list (list T)) (i j : nat) : option T :=
  match nth_error A i with Some r => nth_error r j | None => None end.
