(** Textbook potentials in components; invariance under unitary matrices. *)
From Coq Require Import Reals Lra Lia ZArith List.
From Coquelicot Require Import Complex.
From Verif.Spec Require Import ScalarSpec.
Import ListNotations.
Open Scope R_scope.

Lemma half : / sqrt 2 * / sqrt 2 = / 2.
Proof. rewrite <- Rinv_mult. f_equal. apply sqrt_sqrt. lra. Qed.
Lemma inner_ok a b c d a' b' c' d' : inner (mkdoublet a b c d) (mkdoublet a' b' c' d') =
  ((a * a' + b * b' + c * c' + d * d') / 2, (a * b' - b * a' + c * d' - d * c') / 2).
Proof.
  unfold inner, mkdoublet, cfield, Cconj, Cmult, Cplus, Rdiv. cbn [fst snd]. f_equal.
  - replace (a * / sqrt 2 * (a' * / sqrt 2) - - (b * / sqrt 2) * (b' * / sqrt 2) + (c * / sqrt 2 * (c' * / sqrt 2) - - (d * / sqrt 2) * (d' * / sqrt 2)))
      with ((a * a' + b * b' + c * c' + d * d') * (/ sqrt 2 * / sqrt 2)) by ring. now rewrite half.
  - replace (a * / sqrt 2 * (b' * / sqrt 2) + - (b * / sqrt 2) * (a' * / sqrt 2) + (c * / sqrt 2 * (d' * / sqrt 2) + - (d * / sqrt 2) * (c' * / sqrt 2)))
      with ((a * b' - b * a' + c * d' - d * c') * (/ sqrt 2 * / sqrt 2)) by ring. now rewrite half.
Qed.
Lemma norm2_ok a b c d : norm2 (mkdoublet a b c d) = (a * a + b * b + c * c + d * d) / 2.
Proof. unfold norm2. rewrite inner_ok. reflexivity. Qed.
Lemma abs2_pair x y : abs2 (x, y) = x * x + y * y.
Proof. unfold abs2, Re, Cconj, Cmult. cbn [fst snd]. ring. Qed.
Lemma abs2_field a b : abs2 (cfield a b) = (a * a + b * b) / 2.
Proof.
  unfold cfield. rewrite abs2_pair. unfold Rdiv.
  replace (a * / sqrt 2 * (a * / sqrt 2) + b * / sqrt 2 * (b * / sqrt 2)) with ((a * a + b * b) * (/ sqrt 2 * / sqrt 2)) by ring. now rewrite half.
Qed.
Lemma Re_mult2 x y a b : Re ((x, y) * (a, b))%C = x * a - y * b.
Proof. reflexivity. Qed.
Lemma Re_mult3 x y a b : Re ((x, y) * (a, b) * (a, b))%C = x * (a * a - b * b) - y * (2 * a * b).
Proof. unfold Re, Cmult. cbn [fst snd]. ring. Qed.
Lemma Re_half_S x y a b : Re ((x, y) / 2 * cfield a b * cfield a b)%C = (x * (a * a - b * b) - 2 * y * a * b) / 4.
Proof.
  replace ((x, y) / 2)%C with (x / 2, y / 2).
  - unfold cfield. rewrite Re_mult3. unfold Rdiv.
    transitivity ((x * (a * a - b * b) - 2 * y * a * b) * / 2 * (/ sqrt 2 * / sqrt 2)); [ring|]. rewrite half. field.
  - unfold Cdiv, Cinv, Cmult, RtoC. cbn [fst snd]. f_equal; field.
Qed.
Lemma Re_S x y a b : Re ((x, y) * cfield a b)%C = (x * a - y * b) / sqrt 2.
Proof. unfold Re, Cmult, cfield, Rdiv. cbn [fst snd]. ring. Qed.
Lemma two_over_sqrt2 x : 2 * (x / sqrt 2) = x * sqrt 2.
Proof. assert (S : sqrt 2 * sqrt 2 = 2) by (apply sqrt_sqrt; lra). assert (sqrt 2 <> 0) by (apply Rgt_not_eq, sqrt_lt_R0; lra). rewrite <- S at 1. field. assumption. Qed.

Lemma Cplus_conj x y : Cconj (x + y)%C = (Cconj x + Cconj y)%C.
Proof. apply injective_projections; cbn; ring. Qed.
Lemma Cmult_conj x y : Cconj (x * y)%C = (Cconj x * Cconj y)%C.
Proof. apply injective_projections; cbn; ring. Qed.
Lemma Cconj_conj x : Cconj (Cconj x) = x.
Proof. apply injective_projections; cbn; ring. Qed.
Lemma inner_unitary U x y : unitary U -> inner (apply22 U x) (apply22 U y) = inner x y.
Proof.
  destruct U as [[a b] [c d]]. intros (H1 & H2 & H3). unfold inner, apply22. cbn [fst snd].
  rewrite !Cplus_conj, !Cmult_conj.
  assert (H3' : (Cconj b * a + Cconj d * c = 0)%C).
  { apply (f_equal Cconj) in H3. rewrite Cplus_conj, !Cmult_conj, !Cconj_conj in H3. rewrite <- (Cmult_comm a), <- (Cmult_comm c), H3.
    unfold Cconj. cbn. unfold RtoC. f_equal. ring. }
  transitivity ((Cconj a * a + Cconj c * c) * (Cconj (fst x) * fst y) + (Cconj b * b + Cconj d * d) * (Cconj (snd x) * snd y)
    + (Cconj a * b + Cconj c * d) * (Cconj (fst x) * snd y) + (Cconj b * a + Cconj d * c) * (Cconj (snd x) * fst y))%C; [ring|].
  rewrite H1, H2, H3, H3'. ring.
Qed.
Lemma norm2_unitary U x : unitary U -> norm2 (apply22 U x) = norm2 x.
Proof. intro H. unfold norm2. now rewrite inner_unitary. Qed.
