(** Third derivatives of a potential along directions; sectors of fields that mix among themselves. *)
From Coq Require Import Reals List Permutation.
From Coquelicot Require Import Coquelicot.
Import ListNotations.
Open Scope R_scope.

Fixpoint summation (n : nat) (f : nat -> R) : R := match n with O => 0 | S n => summation n f + f n end.
(** the potential of the tensors *)
Definition polynomial (n : nat) (L1 : nat -> R) (L2 : nat -> nat -> R) (L3 : nat -> nat -> nat -> R) (L4 : nat -> nat -> nat -> nat -> R) (x : nat -> R) : R :=
  summation n (fun i => L1 i * x i) + 1 / 2 * summation n (fun i => summation n (fun j => L2 i j * x i * x j)) +
  1 / 6 * summation n (fun i => summation n (fun j => summation n (fun k => L3 i j k * x i * x j * x k))) +
  1 / 24 * summation n (fun i => summation n (fun j => summation n (fun k => summation n (fun l => L4 i j k l * x i * x j * x k * x l)))).
(** symmetric tensors *)
Definition symmetric2 (n : nat) (L : nat -> nat -> R) : Prop := forall i j, (i < n)%nat -> (j < n)%nat -> L i j = L j i.
Definition symmetric3 (n : nat) (L : nat -> nat -> nat -> R) : Prop := forall i j k, (i < n)%nat -> (j < n)%nat -> (k < n)%nat -> L i j k = L j i k /\ L i j k = L i k j.
Definition symmetric4 (n : nat) (L : nat -> nat -> nat -> nat -> R) : Prop := forall i j k l, (i < n)%nat -> (j < n)%nat -> (k < n)%nat -> (l < n)%nat ->
  L i j k l = L j i k l /\ L i j k l = L i k j l /\ L i j k l = L i j l k.
(** the derivative with respect to the fields along a, b and c at v *)
Definition third (V : (nat -> R) -> R) (v a b c : nat -> R) : R :=
  Derive (fun s => Derive (fun t => Derive (fun u => V (fun i => v i + s * a i + t * b i + u * c i)) 0) 0) 0.

(** a row of the rotation matrix is unmixed: it has large components in one sector only *)
Definition unmixed {A : Type} (rows : list nat) (rot : nat -> nat -> R) (cols : A -> list nat) (sector : nat -> A) : Prop :=
  forall i, In i rows -> forall x, 1 / 10 ^ 5 < fold_right (fun c s => Rabs (rot i c) + s) 0 (cols x) <-> sector i = x.
(** the two charged components, the CP-odd and the CP-even neutral fields *)
Inductive sector := ChA | ChB | Odd | Even.
(** fields that do not mix (G+, G-, H+, H-, h, G0) and the neutral scalars that do *)
Inductive field := Gp | Gm | Hp | Hm | Hsm | G0 | Mix.
(** rotations that diagonalise a symmetric matrix, with ascending eigenvalues *)
Definition orthonormal (n : nat) (rot : nat -> nat -> R) : Prop := forall i j, (i < n)%nat -> (j < n)%nat ->
  summation n (fun k => rot i k * rot j k) = if Nat.eqb i j then 1 else 0.
Definition diagonalises (n : nat) (rot M : nat -> nat -> R) (m : nat -> R) : Prop :=
  (forall i j, (i < n)%nat -> (j < n)%nat -> summation n (fun k => M j k * rot i k) = m i * rot i j) /\
  forall i j, (i <= j)%nat -> (j < n)%nat -> m i <= m j.
(** the position of a name: the last of the rows with the property, or 0 *)
Definition last_or_zero (n : nat) (P : nat -> Prop) (r : nat) : Prop :=
  ((r < n)%nat /\ P r /\ forall i, (r < i < n)%nat -> ~ P i) \/ (r = 0%nat /\ forall i, (i < n)%nat -> ~ P i).
(** the first large column of a row is c *)
Definition first_column (big : list nat -> nat -> bool) (c i : nat) : Prop := big [c] i = true /\ forall d, (d < c)%nat -> big [d] i = false.
