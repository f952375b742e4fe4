(** Spectral decompositions, eigenvalue branches and their derivatives. *)
From Coq Require Import Reals List.
From Coquelicot Require Import Coquelicot.
Import ListNotations.
Open Scope R_scope.

Definition totalC (n : nat) (f : nat -> C) : C := fold_right Cplus (RtoC 0) (map f (seq 0 n)).
Definition totalR (n : nat) (f : nat -> R) : R := fold_right Rplus 0 (map f (seq 0 n)).
Definition delta (i j : nat) : C := if Nat.eqb i j then RtoC 1 else RtoC 0.

Definition hermitian (n : nat) (M : nat -> nat -> C) : Prop :=
  forall a b, (a < n)%nat -> (b < n)%nat -> M a b = Cconj (M b a).

(** sorted eigenvalues and a unitary matrix of eigenvectors, as
    SelfAdjointEigenSolver returns them *)
Definition diagonalises (n : nat) (M : nat -> nat -> C) (dec : list R * (nat -> nat -> C)) : Prop :=
  let evs := fst dec in let V := snd dec in
  length evs = n /\
  (forall i j, (i <= j < n)%nat -> nth i evs 0 <= nth j evs 0) /\
  (forall a p, (a < n)%nat -> (p < n)%nat -> totalC n (fun b => Cmult (M a b) (V b p)) = Cmult (RtoC (nth p evs 0)) (V a p)) /\
  (forall p q, (p < n)%nat -> (q < n)%nat -> totalC n (fun a => Cmult (Cconj (V a p)) (V a q)) = delta p q) /\
  (forall a b, (a < n)%nat -> (b < n)%nat -> totalC n (fun p => Cmult (V a p) (Cconj (V b p))) = delta a b).

(** derivative of a complex function of a real variable *)
Definition has_derivative (f : R -> C) (t : R) (l : C) : Prop :=
  derivable_pt_lim (fun s => fst (f s)) t (fst l) /\ derivable_pt_lim (fun s => snd (f s)) t (snd l).

(** a differentiable branch of unit eigenvectors *)
Definition branch (n : nat) (M : R -> nat -> nat -> C) (lam : R -> R) (x : R -> nat -> C) (t lam' : R) (x' : nat -> C) : Prop :=
  derivable_pt_lim lam t lam' /\
  (forall a, (a < n)%nat -> has_derivative (fun s => x s a) t (x' a)) /\
  (forall s a, (a < n)%nat -> totalC n (fun b => Cmult (M s a b) (x s b)) = Cmult (RtoC (lam s)) (x s a)) /\
  (forall s, totalC n (fun a => Cmult (Cconj (x s a)) (x s a)) = RtoC 1).

(** [r] is [x], or 0 if [x] is below 1e-6 *)
Definition cut_of (x r : R) : Prop := (Rabs x < / 10 ^ 6 /\ r = 0) \/ (/ 10 ^ 6 <= Rabs x /\ r = x).

Definition entry_set (v : nat -> R) (k : nat) (t : R) : nat -> R := fun i => if Nat.eqb i k then t else v i.
