(** Specification of the numerical derivatives (C11). *)
From Coq Require Import Reals List.
Import ListNotations.
Open Scope R_scope.

(** component of a vector, entry of a matrix (zero outside) *)
Definition comp (v : list R) (i : nat) : R := nth i v 0.
Definition entryR (m : list (list R)) (i j : nat) : R := nth j (nth i m []) 0.

(** the vector [v] moved by [s] along axis [i] *)
Definition moved (v : list R) (i : nat) (s : R) (w : list R) : Prop :=
  length w = length v /\ forall k, comp w k = comp v k + (if Nat.eq_dec k i then s else 0).

(** [w] is [v] moved by [s] along axis [i] and by [t] along axis [j] *)
Definition moved2 (v : list R) (i : nat) (s : R) (j : nat) (t : R) (w : list R) : Prop :=
  exists u, moved v i s u /\ moved u j t w.

(** sum of f 0 ... f (n-1) *)
Fixpoint sumR (n : nat) (f : nat -> R) : R :=
  match n with O => 0 | S k => sumR k f + f k end.

(** constant + linear form + quadratic form in n variables *)
Definition quadratic (n : nat) (c : R) (b : nat -> R) (A : nat -> nat -> R) (x : list R) : R :=
  c + sumR n (fun i => b i * comp x i) + sumR n (fun i => sumR n (fun j => A i j * comp x i * comp x j)).
