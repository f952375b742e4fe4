(** Second derivatives of eigenvalues: SecondDerivativeOfEigenvaluesNonRepeated, src/models/ClassPotentialOrigin.cpp 886-960.
    Doubles are real numbers, arithmetic is exact.  Eigen's SelfAdjointEigenSolver and colPivHouseholderQr().solve are arguments. *)
From Coq Require Import Reals List.
Import ListNotations.
Open Scope R_scope.

(** vectors and matrices of size nSize: only indices below it are used *)
Definition vect := nat -> R.
Definition matr := nat -> nat -> R.
Fixpoint total (n : nat) (f : nat -> R) : R := match n with O => 0 | S n => total n f + f n end.
Definition mult_vec (n : nat) (A : matr) (x : vect) : vect := fun i => total n (fun j => A i j * x j).
Definition mult_tr (n : nat) (A B : matr) : matr := fun i j => total n (fun k => A k i * B k j).
(** v.transpose() * A * w *)
Definition sandwich (n : nat) (v : vect) (A : matr) (w : vect) : R := total n (fun i => v i * mult_vec n A w i).
(** A - s * Identity *)
Definition shifted (A : matr) (s : R) : matr := fun i j => A i j - s * (if Nat.eqb i j then 1 else 0).

Section Deriv.
  Variable n : nat.
  Variable solve : matr -> vect -> vect.
  Variables M MDiffX MDiffY MDiffXY : matr.
  (** 931-950: Deriv[i][0..3] for one eigenvalue and its eigenvector *)
  Definition deriv (lam : R) (v : vect) : R * R * R * R :=
    let d1 := sandwich n v MDiffX v in
    let d2 := sandwich n v MDiffY v in
    let B := shifted M lam in
    let C := fun i j => mult_tr n B B i j + v i * v j in
    let EX := mult_tr n B (shifted MDiffX d1) in
    let vDiffX := solve C (fun i => - mult_vec n EX v i) in
    let EY := mult_tr n B (shifted MDiffY d2) in
    let vDiffY := solve C (fun i => - mult_vec n EY v i) in
    (lam, d1, d2, sandwich n v MDiffXY v + sandwich n v (shifted MDiffX d1) vDiffY + sandwich n v (shifted MDiffY d2) vDiffX).
End Deriv.

(** EVThres, 898: std::pow(10, -6) converted to std::size_t *)
Definition EVThres : nat := 0.
(** Throws: 900-904.  Undefined: for an empty matrix nSize - 1 in 915 is the largest std::size_t and Eigenvalues is read out of
    range.  Returned: whether an error was logged (917-920), and the result. *)
Inductive outcome := Throws | Undefined | Returned (logged : bool) (res : list R).
Section Second.
  (** the eigenvalues in increasing order and the eigenvectors *)
  Variable eigen : nat -> matr -> (nat -> R) * (nat -> vect).
  Variable solve : nat -> matr -> vect -> vect.
  Definition SecondDerivative (rows cols : nat) (M MDiffX MDiffY MDiffXY : matr) : outcome :=
    if Nat.eqb cols rows then
      match rows with
      | O => Undefined
      | S m =>
          let ev := fst (eigen rows M) in
          let logged := existsb (fun i => if Rlt_dec (Rabs (ev i - ev (S i))) (INR EVThres) then true else false) (seq 0 m) in
          Returned logged
            (map ev (seq 0 rows) ++
             flat_map (fun i => let '(d0, d1, d2, d3) := deriv rows (solve rows) M MDiffX MDiffY MDiffXY (ev i) (snd (eigen rows M) i) in
                                [d0; d1; d2; d3]) (seq 0 rows))
      end
    else Throws.
End Second.
