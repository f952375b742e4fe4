(** Consequences of the shape of the coupling tables shared by all models. *)
From Coq Require Import Reals Lra Lia ZArith List Permutation.
From Coquelicot Require Import Complex.
From Verif.Model Require Import Base Potential Tables.
From Verif.Spec Require Import NumDerivSpec PotentialSpec ScalarSpec.
From Verif.Proofs Require VevProofs.
From Verif.Proofs Require Import Contract Contract2 TabTac ScalarProofs.
Import ListNotations.
Local Open Scope R_scope.

Lemma tree_derivatives n c t1 t2 t3 t4 : good n c t1 t2 t3 t4 -> first_derivatives Ok n (tree n c).
Proof.
  intros [_ _ _ _ S2 S3 S4] v i L I. apply VevProofs.tree_gradient; [now apply sym2_at|now apply sym3_at|now apply sym4_at|exact L|exact I].
Qed.
Lemma tree_second n c t1 t2 t3 t4 : good n c t1 t2 t3 t4 -> second_derivatives Ok Ok n (tree n c) (mass_matrix n c).
Proof.
  intros [_ _ _ _ S2 S3 S4] v L. apply VevProofs.mass_is_hessian; [now apply sym2_at|now apply sym3_at|now apply sym4_at|exact L].
Qed.
Lemma ct_derivatives n c t1 t2 t3 t4 : good n c t1 t2 t3 t4 -> first_derivatives Ok n (counterterm n c).
Proof.
  intros [_ _ _ _ S2 S3 S4] v i L I. apply VevProofs.ct_gradient; [now apply sym2_at|now apply sym3_at|now apply sym4_at|exact L|exact I].
Qed.
Lemma ct_second n c t1 t2 t3 t4 : good n c t1 t2 t3 t4 -> second_derivatives Ok Ok n (counterterm n c) (hessian_ct n c).
Proof.
  intros [_ _ _ _ S2 S3 S4] v L. apply VevProofs.hessian_ct; [now apply sym2_at|now apply sym3_at|now apply sym4_at|exact L].
Qed.

Lemma V_doublet_inv musq lam U P : unitary U -> V_doublet musq lam (apply22 U P) = V_doublet musq lam P.
Proof. intro H. unfold V_doublet. now rewrite norm2_unitary. Qed.
Lemma V_complex_singlet_inv a b c d e f g U P S : unitary U ->
  V_complex_singlet a b c d e f g (apply22 U P) S = V_complex_singlet a b c d e f g P S.
Proof. intro H. unfold V_complex_singlet. now rewrite norm2_unitary. Qed.
Lemma V_two_doublets_inv a b c d e f g h k U P Q : unitary U ->
  V_two_doublets a b c d e f g h k (apply22 U P) (apply22 U Q) = V_two_doublets a b c d e f g h k P Q.
Proof. intro H. unfold V_two_doublets. now rewrite !norm2_unitary, inner_unitary. Qed.
Lemma V_singlet_inv a b c d e U P Q s : unitary U ->
  V_singlet a b c d e (apply22 U P) (apply22 U Q) s = V_singlet a b c d e P Q s.
Proof. intro H. unfold V_singlet. now rewrite !norm2_unitary, inner_unitary. Qed.
