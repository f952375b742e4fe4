(** What the checks of a model are to find out. *)
From Coq Require Import Reals List Permutation.
Import ListNotations.
Local Open Scope R_scope.

(** entries of nested containers, None outside *)
Definition entry2 {A} (t : list (list A)) (i j : nat) : option A := nth_error (nth i t []) j.
Definition entry3 {A} (t : list (list (list A))) (i j k : nat) : option A := nth_error (nth j (nth i t []) []) k.
Definition entry4 {A} (t : list (list (list (list A)))) (i j k l : nat) : option A := nth_error (nth k (nth j (nth i t []) []) []) l.
(** both are the same number, not NaN (Some None) and not missing (None) *)
Definition same (x y : option (option R)) : Prop := exists r, x = Some (Some r) /\ y = Some (Some r).
Definition csame (x y : option (option R * option R)) : Prop := exists r s, x = Some (Some r, Some s) /\ y = Some (Some r, Some s).

(** containers of equal size n in all dimensions *)
Definition square {A} (n m : nat) (t : list (list A)) : Prop := length t = n /\ forall r, In r t -> length r = m.
Definition cube {A} (n m k : nat) (t : list (list (list A))) : Prop := length t = n /\ forall r, In r t -> square m k r.
Definition cube4 {A} (n m k l : nat) (t : list (list (list (list A)))) : Prop := length t = n /\ forall r, In r t -> cube m k l r.

(** tensors that do not change under any permutation of their indices *)
Definition symmetric2 (t : list (list (option R))) : Prop :=
  let n := length t in square n n t /\
  forall i j i' j', (i < n)%nat -> (j < n)%nat -> Permutation [i; j] [i'; j'] -> same (entry2 t i j) (entry2 t i' j').
Definition symmetric3 (t : list (list (list (option R)))) : Prop :=
  let n := length t in cube n n n t /\
  forall i j k i' j' k', (i < n)%nat -> (j < n)%nat -> (k < n)%nat -> Permutation [i; j; k] [i'; j'; k'] -> same (entry3 t i j k) (entry3 t i' j' k').
Definition symmetric4 (t : list (list (list (list (option R))))) : Prop :=
  let n := length t in cube4 n n n n t /\
  forall i j k l i' j' k' l', (i < n)%nat -> (j < n)%nat -> (k < n)%nat -> (l < n)%nat -> Permutation [i; j; k; l] [i'; j'; k'; l'] ->
    same (entry4 t i j k l) (entry4 t i' j' k' l').
(** couplings of two fermions, and of two fermions and a scalar, that are symmetric in the fermions *)
Definition fermions2 (t : list (list (option R * option R))) : Prop :=
  let n := length t in square n n t /\ forall i j, (i < n)%nat -> (j < n)%nat -> csame (entry2 t i j) (entry2 t j i).
Definition fermions3 (h : nat) (t : list (list (list (option R * option R)))) : Prop :=
  let n := length t in cube n n h t /\ forall i j k, (i < n)%nat -> (j < n)%nat -> (k < h)%nat -> csame (entry3 t i j k) (entry3 t j i k).
(** couplings of two gauge bosons and two scalars, symmetric in both pairs *)
Definition gauge4 (h : nat) (t : list (list (list (list (option R))))) : Prop :=
  let n := length t in cube4 n n h h t /\
  forall a b i j a' b' i' j', (a < n)%nat -> (b < n)%nat -> (i < h)%nat -> (j < h)%nat -> Permutation [a; b] [a'; b'] -> Permutation [i; j] [i'; j'] ->
    same (entry4 t a b i j) (entry4 t a' b' i' j').

(** two lists of numbers agree within a bound *)
Definition within (e : R) (calculated : list (option R)) (input : list R) : Prop :=
  length calculated = length input /\ forall i, (i < length input)%nat -> exists c, nth_error calculated i = Some (Some c) /\ Rabs (c - nth i input 0) <= e.
