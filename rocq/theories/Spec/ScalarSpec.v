(** The scalar potentials as written in the literature, in terms of electroweak doublets and singlets. *)
From Coq Require Import Reals ZArith List.
From Coquelicot Require Import Complex.
From Verif.Spec Require Import PotentialSpec.
Import ListNotations.
Open Scope R_scope.

(** real and imaginary parts, normalised by 1/sqrt 2 *)
Definition cfield (a b : R) : C := (a / sqrt 2, b / sqrt 2).
Definition doublet : Type := (C * C)%type.
Definition mkdoublet (a b c d : R) : doublet := (cfield a b, cfield c d).
(** x^dagger y *)
Definition inner (x y : doublet) : C := (Cconj (fst x) * fst y + Cconj (snd x) * snd y)%C.
Definition norm2 (x : doublet) : R := Re (inner x x).
Definition abs2 (z : C) : R := Re (Cconj z * z)%C.

(** one doublet *)
Definition V_doublet (musq lam : R) (Phi : doublet) : R := musq * norm2 Phi + lam * norm2 Phi ^ 2.
(** one doublet and a complex singlet *)
Definition V_complex_singlet (msq lam delta2 b2 d2 : R) (b1 a1 : C) (H : doublet) (S : C) : R :=
  msq / 2 * norm2 H + lam / 4 * norm2 H ^ 2 + delta2 / 2 * norm2 H * abs2 S + b2 / 2 * abs2 S + d2 / 4 * abs2 S ^ 2
  + Re (b1 / 2 * S * S)%C + 2 * Re (a1 * S)%C.
(** two doublets; the terms with complex couplings stand for the term plus its conjugate *)
Definition V_two_doublets (m11 m22 : R) (m12 : C) (l1 l2 l3 l4 : R) (l5 l6 : C) (P1 P2 : doublet) : R :=
  m11 * norm2 P1 + m22 * norm2 P2 - 2 * Re (m12 * inner P1 P2)%C
  + l1 / 2 * norm2 P1 ^ 2 + l2 / 2 * norm2 P2 ^ 2 + l3 * norm2 P1 * norm2 P2 + l4 * abs2 (inner P1 P2)
  + Re (l5 * inner P1 P2 * inner P1 P2)%C + 2 * norm2 P1 * Re (l6 * inner P1 P2)%C.
(** real singlet coupled to two doublets; A is the trilinear coupling *)
Definition V_singlet (ms l6 l7 l8 : R) (A : C) (P1 P2 : doublet) (s : R) : R :=
  ms / 2 * s ^ 2 + l6 / 8 * s ^ 4 + l7 / 2 * norm2 P1 * s ^ 2 + l8 / 2 * norm2 P2 * s ^ 2 + 2 * s * Re (A * inner P1 P2)%C.

(** 2x2 unitary matrices acting on doublets: every SU(2) x U(1) transformation acts on a doublet by one of them *)
Definition matrix22 : Type := ((C * C) * (C * C))%type.
Definition apply22 (U : matrix22) (x : doublet) : doublet :=
  let '((a, b), (c, d)) := U in (a * fst x + b * snd x, c * fst x + d * snd x)%C.
Definition unitary (U : matrix22) : Prop :=
  let '((a, b), (c, d)) := U in
  (Cconj a * a + Cconj c * c = 1)%C /\ (Cconj b * b + Cconj d * d = 1)%C /\ (Cconj a * b + Cconj c * d = 0)%C.

(** which component of the field vector sits where *)
Definition sm_doublet (v : list R) : doublet := mkdoublet (nth 0 v 0) (nth 1 v 0) (nth 2 v 0) (nth 3 v 0).
Definition cxsm_doublet (v : list R) : doublet := mkdoublet (nth 0 v 0) (nth 1 v 0) (nth 3 v 0) (nth 2 v 0).
Definition cxsm_singlet (v : list R) : C := cfield (nth 4 v 0) (nth 5 v 0).
Definition first_doublet (v : list R) : doublet := mkdoublet (nth 0 v 0) (nth 1 v 0) (nth 4 v 0) (nth 5 v 0).
Definition second_doublet (v : list R) : doublet := mkdoublet (nth 2 v 0) (nth 3 v 0) (nth 6 v 0) (nth 7 v 0).
Definition n2hdm_first (v : list R) : doublet := mkdoublet (nth 0 v 0) (nth 2 v 0) (nth 6 v 0) (nth 4 v 0).
Definition n2hdm_second (v : list R) : doublet := mkdoublet (nth 1 v 0) (nth 3 v 0) (nth 7 v 0) (nth 5 v 0).
(** sum of t_i v_i over the listed pairs (field, tadpole) *)
Definition tadpoles (l : list (nat * R)) (v : list R) : R := fold_right (fun e a => nth (fst e) v 0 * snd e + a) 0 l.

(** [f v 0] is a differentiable function of n fields and [f v (i+1)] its derivative with respect to field i;
    [h v] is the symmetric matrix of its second derivatives *)
Definition first_derivatives {E} (ok : R -> E) (n : nat) (f : list R -> Z -> E) : Prop :=
  forall v i, length v = n -> (i < n)%nat ->
    exists d, f v (Z.of_nat (S i)) = ok d /\ partial_derivative ok (fun w => f w 0%Z) v i d.
Definition second_derivatives {E M} (ok : R -> E) (okm : (nat -> nat -> R) -> M) (n : nat) (f : list R -> Z -> E) (h : list R -> M) : Prop :=
  forall v, length v = n -> exists m, h v = okm m /\
    forall i j, (i < n)%nat -> (j < n)%nat -> m i j = m j i /\ partial_derivative ok (fun w => f w (Z.of_nat (S i))) v j (m i j).
