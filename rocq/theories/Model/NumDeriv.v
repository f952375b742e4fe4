(** Numerical derivatives: src/utility/NumericalDerivatives.cpp 6-81.
    Doubles are modelled as real numbers: rounding is not modelled. *)
From Coq Require Import Reals List Arith Lia.
Import ListNotations.
Open Scope R_scope.

(** [v[i] += d] on a copy of the vector *)
Fixpoint shift (v : list R) (i : nat) (d : R) : list R :=
  match v, i with
  | [], _ => []
  | x :: r, O => (x + d) :: r
  | x :: r, S k => x :: shift r k d
  end.

(** NablaNumerical, NumericalDerivatives.cpp 6-26 *)
Definition NablaNumerical (phi : list R) (f : list R -> R) (eps : R) : list R :=
  map (fun i =>
    (- f (shift phi i (2 * eps)) + 8 * f (shift phi i eps) - 8 * f (shift phi i (- eps))
     + f (shift phi i (- (2 * eps)))) / (12 * eps))
  (seq 0 (length phi)).

(** result[i][j] = x on the square matrix, seen as a function of the indices *)
Definition upd2 (m : nat -> nat -> R) (i j : nat) (x : R) : nat -> nat -> R :=
  fun a b => if ((a =? i) && (b =? j))%nat%bool then x else m a b.

(** the diagonal stencil, 33-46 *)
Definition hess_diag (phi : list R) (V : list R -> R) (eps : R) (i : nat) : R :=
  (0 + V (shift phi i (2 * eps)) - 2 * V phi + V (shift phi i (- (2 * eps)))) / (4 * eps * eps).
(** the mixed stencil, 49-75 *)
Definition hess_mixed (phi : list R) (V : list R -> R) (eps : R) (i j : nat) : R :=
  (0 + V (shift (shift phi i eps) j eps) - V (shift (shift phi i eps) j (- eps))
   - V (shift (shift phi i (- eps)) j eps) + V (shift (shift phi i (- eps)) j (- eps))) / (4 * eps * eps).

(** body of the outer loop, 35-78: diagonal entry, then the entries (i,j) and (j,i) for j>i *)
Definition hess_row (phi : list R) (V : list R -> R) (eps : R) (m : nat -> nat -> R) (i : nat) : nat -> nat -> R :=
  fold_left (fun m j => upd2 (upd2 m i j (hess_mixed phi V eps i j)) j i (hess_mixed phi V eps i j))
    (seq (S i) (length phi - S i)) (upd2 m i i (hess_diag phi V eps i)).
(** HessianNumerical, 28-81 *)
Definition HessianNumerical (phi : list R) (V : list R -> R) (eps : R) : list (list R) :=
  let m := fold_left (hess_row phi V eps) (seq 0 (length phi)) (fun _ _ => 0) in
  map (fun i => map (m i) (seq 0 (length phi))) (seq 0 (length phi)).
