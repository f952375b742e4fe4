(** The branches of the four-point loop function and their symmetry. *)
From Coq Require Import Reals Lra Lia ZArith List Bool Permutation.
From Verif.Model Require Import Base Loop LoopFour.
From Verif.Spec Require Import LoopSpec LoopFourSpec.
From Verif.Proofs Require Import DerivLib ThermalProofs LoopProofs.
Import ListNotations.
Open Scope R_scope.

Lemma Thres4_pos : 0 < Thres4.
Proof. unfold Thres4. lra. Qed.
Lemma eqb_sym x y : eqb x y = eqb y x.
Proof. unfold eqb. destruct (Req_EM_T x y), (Req_EM_T y x); congruence. Qed.
Lemma eqb_case x y : (x = y /\ eqb x y = true) \/ (x <> y /\ eqb x y = false).
Proof. unfold eqb. destruct (Req_EM_T x y); auto. Qed.
Lemma is0_case x : (x = 0 /\ is0 x = true) \/ (x <> 0 /\ is0 x = false).
Proof. unfold is0. destruct (Req_EM_T x 0); auto. Qed.
Section Four.
  Variable scale : R.
  Notation br := (four_branch scale).
  (** the program with its comparisons as arguments *)
  Definition four_bools (za zb zc zd eab eac ead ebc ebd ecd : bool) (a b c d : R) : option R :=
    pick [
      (za && zb && zc && zd, (* 1 *) Some (0));
      (negb za && zb && zc && zd, (* 2 *) obind (LogM scale a) (fun LA => Some (LA / (a * a))));
      (za && negb zb && zc && zd, (* 3 *) obind (LogM scale b) (fun LB => Some (LB / (b * b))));
      (za && zb && negb zc && zd, (* 4 *) obind (LogM scale c) (fun LC => Some (LC / (c * c))));
      (za && zb && zc && negb zd, (* 5 *) obind (LogM scale d) (fun LD => Some (LD / (d * d))));
      (eab && negb za && zc && zd, (* 6 *) obind (LogM scale a) (fun LA => Some ((2 - LA) / (a * a))));
      (eac && negb za && zb && zd, (* 7 *) obind (LogM scale a) (fun LA => Some ((2 - LA) / (a * a))));
      (ead && negb za && zb && zc, (* 8 *) obind (LogM scale a) (fun LA => Some ((2 - LA) / (a * a))));
      (ebc && negb zb && za && zd, (* 9 *) obind (LogM scale b) (fun LB => Some ((2 - LB) / (b * b))));
      (ebd && negb zb && za && zc, (* 10 *) obind (LogM scale b) (fun LB => Some ((2 - LB) / (b * b))));
      (ecd && negb zc && za && zb, (* 11 *) obind (LogM scale c) (fun LC => Some ((2 - LC) / (c * c))));
      (negb za && negb zb && negb eab && zc && zd, (* 12 *) obind (LogM scale a) (fun LA => obind (LogM scale b) (fun LB => Some (1 / (a * b) + (b * LA - a * LB) / (a * b * (a - b))))));
      (negb za && negb zc && negb eac && zb && zd, (* 13 *) obind (LogM scale a) (fun LA => obind (LogM scale c) (fun LC => Some (1 / (a * c) + (c * LA - a * LC) / (a * c * (a - c))))));
      (negb za && negb zd && negb ead && zb && zc, (* 14 *) obind (LogM scale a) (fun LA => obind (LogM scale d) (fun LD => Some (1 / (a * d) + (d * LA - a * LD) / (a * d * (a - d))))));
      (negb zb && negb zc && negb ebc && za && zd, (* 15 *) obind (LogM scale b) (fun LB => obind (LogM scale c) (fun LC => Some (1 / (b * c) + (c * LB - b * LC) / (b * c * (b - c))))));
      (negb zb && negb zd && negb ebd && za && zc, (* 16 *) obind (LogM scale b) (fun LB => obind (LogM scale d) (fun LD => Some (1 / (b * d) + (d * LB - b * LD) / (b * d * (b - d))))));
      (negb zc && negb zd && negb ecd && za && zb, (* 17 *) obind (LogM scale c) (fun LC => obind (LogM scale d) (fun LD => Some (1 / (c * d) + (d * LC - c * LD) / (c * d * (c - d))))));
      (za && ebc && ebd && negb zb, (* 18 *) Some (- 1 / (2 * b * b)));
      (zb && eac && ead && negb za, (* 19 *) Some (- 1 / (2 * a * a)));
      (zc && eab && ead && negb za, (* 20 *) Some (- 1 / (2 * a * a)));
      (zd && eab && eac && negb za, (* 21 *) Some (- 1 / (2 * a * a)));
      (za && negb zb && negb zc && negb zd, pick [
        (ebc && negb ebd, (* 22 *) obind (LogM scale b) (fun LB => obind (LogM scale d) (fun LD => Some ((b - d + b * LD - b * LB) / (b * (b - d) * (b - d))))));
        (ebd && negb ebc, (* 23 *) obind (LogM scale b) (fun LB => obind (LogM scale c) (fun LC => Some ((b - c + b * LC - b * LB) / (b * (b - c) * (b - c))))));
        (ecd && negb ebc, (* 24 *) obind (LogM scale b) (fun LB => obind (LogM scale c) (fun LC => Some ((c - b + c * LB - c * LC) / (c * (b - c) * (b - c))))))
        ] (Some 0));
      (negb za && zb && negb zc && negb zd, pick [
        (eac && negb ead, (* 25 *) obind (LogM scale a) (fun LA => obind (LogM scale d) (fun LD => Some ((a - d + a * LD - a * LA) / (a * (a - d) * (a - d))))));
        (ead && negb eac, (* 26 *) obind (LogM scale a) (fun LA => obind (LogM scale c) (fun LC => Some ((a - c + a * LC - a * LA) / (a * (a - c) * (a - c))))));
        (ecd && negb eac, (* 27 *) obind (LogM scale a) (fun LA => obind (LogM scale c) (fun LC => Some ((c - a + c * LA - c * LC) / (c * (c - a) * (c - a))))))
        ] (Some 0));
      (negb za && negb zb && zc && negb zd, pick [
        (eab && negb ead, (* 28 *) obind (LogM scale a) (fun LA => obind (LogM scale d) (fun LD => Some ((a - d + a * LD - a * LA) / (a * (a - d) * (a - d))))));
        (ead && negb eab, (* 29 *) obind (LogM scale a) (fun LA => obind (LogM scale b) (fun LB => Some ((a - b + a * LB - a * LA) / (a * (a - b) * (a - b))))));
        (ebd && negb eab, (* 30 *) obind (LogM scale a) (fun LA => obind (LogM scale b) (fun LB => Some ((b - a + b * LA - b * LB) / (b * (a - b) * (a - b))))))
        ] (Some 0));
      (negb za && negb zb && negb zc && zd, pick [
        (eab && negb eac, (* 31 *) obind (LogM scale a) (fun LA => obind (LogM scale c) (fun LC => Some ((a - c + a * LC - a * LA) / (a * (a - c) * (a - c))))));
        (eac && negb eab, (* 32 *) obind (LogM scale a) (fun LA => obind (LogM scale b) (fun LB => Some ((a - b + a * LB - a * LA) / (a * (a - b) * (a - b))))));
        (ebc && negb eab, (* 33 *) obind (LogM scale a) (fun LA => obind (LogM scale b) (fun LB => Some ((b - a + b * LA - b * LB) / (b * (a - b) * (a - b))))))
        ] (Some 0));
      (za && negb ebc && negb ebd && negb ecd && negb zb && negb zc && negb zd, (* 34 *) obind (LogM scale b) (fun LB => obind (LogM scale c) (fun LC => obind (LogM scale d) (fun LD => Some (LB / (b - c) / (b - d) + LC / (c - b) / (c - d) + LD / (d - b) / (d - c))))));
      (zb && negb eac && negb ead && negb ecd && negb za && negb zc && negb zd, (* 35 *) obind (LogM scale a) (fun LA => obind (LogM scale c) (fun LC => obind (LogM scale d) (fun LD => Some (LA / (a - c) / (a - d) + LC / (c - a) / (c - d) + LD / (d - a) / (d - c))))));
      (zc && negb eab && negb ead && negb ebd && negb za && negb zb && negb zd, (* 36 *) obind (LogM scale a) (fun LA => obind (LogM scale b) (fun LB => obind (LogM scale d) (fun LD => Some (LA / (a - b) / (a - d) + LB / (b - a) / (b - d) + LD / (d - a) / (d - b))))));
      (zd && negb eab && negb eac && negb ebc && negb za && negb zb && negb zc, (* 37 *) obind (LogM scale a) (fun LA => obind (LogM scale b) (fun LB => obind (LogM scale c) (fun LC => Some (LA / (a - b) / (a - c) + LB / (b - a) / (b - c) + LC / (c - a) / (c - b))))));
      (eab && ebc && ecd && negb za, (* 38 *) Some (- 1 / (6 * a * a)));
      (eab && negb ecd && negb eac && negb ead && negb za && negb zc && negb zd, (* 39 *) obind (LogM scale a) (fun LA => obind (LogM scale c) (fun LC => obind (LogM scale d) (fun LD => Some ((c * (a - d) * (a - d) * LC - d * (a - c) * (a - c) * LD + (c - d) * ((a - c) * (a - d) + (- a * a + c * d) * LA)) / ((a - c) * (a - c) * (a - d) * (a - d) * (c - d)))))));
      (eac && negb ebd && negb eab && negb ead && negb za && negb zb && negb zd, (* 40 *) obind (LogM scale a) (fun LA => obind (LogM scale b) (fun LB => obind (LogM scale d) (fun LD => Some ((b * (a - d) * (a - d) * LB - d * (a - b) * (a - b) * LD + (b - d) * ((a - b) * (a - d) + (- a * a + b * d) * LA)) / ((a - b) * (a - b) * (a - d) * (a - d) * (b - d)))))));
      (ead && negb ebc && negb eab && negb eac && negb za && negb zb && negb zc, (* 41 *) obind (LogM scale a) (fun LA => obind (LogM scale b) (fun LB => obind (LogM scale c) (fun LC => Some ((b * (a - c) * (a - c) * LB - c * (a - b) * (a - b) * LC + (b - c) * ((a - b) * (a - c) + (- a * a + b * c) * LA)) / ((a - b) * (a - b) * (a - c) * (a - c) * (b - c)))))));
      (ebc && negb ead && negb eab && negb ebd && negb zb && negb za && negb zd, (* 42 *) obind (LogM scale a) (fun LA => obind (LogM scale b) (fun LB => obind (LogM scale d) (fun LD => Some ((a * (b - d) * (b - d) * LA - d * (a - b) * (a - b) * LD + (a - d) * (- (a - b) * (b - d) + (- b * b + a * d) * LB)) / ((a - b) * (a - b) * (b - d) * (b - d) * (a - d)))))));
      (ebd && negb eac && negb eab && negb ebc && negb zb && negb za && negb zc, (* 43 *) obind (LogM scale a) (fun LA => obind (LogM scale b) (fun LB => obind (LogM scale c) (fun LC => Some ((a * (b - c) * (b - c) * LA - c * (a - b) * (a - b) * LC + (a - c) * (- (a - b) * (b - c) + (- b * b + a * c) * LB)) / ((a - b) * (a - b) * (b - c) * (b - c) * (a - c)))))));
      (ecd && negb eab && negb eac && negb ebc && negb zc && negb zc && negb zd, (* 44 *) obind (LogM scale a) (fun LA => obind (LogM scale b) (fun LB => obind (LogM scale c) (fun LC => Some ((a * (b - c) * (b - c) * LA - b * (a - c) * (a - c) * LB + (a - b) * ((a - c) * (b - c) + (- c * c + a * b) * LC)) / ((a - c) * (a - c) * (b - c) * (b - c) * (a - b)))))));
      (eab && ecd && negb eac && negb za && negb zc, (* 45 *) obind (LogM scale a) (fun LA => obind (LogM scale c) (fun LC => Some ((2 * (a - c) + (a + c) * (LC - LA)) / ((a - c) * (a - c) * (a - c))))));
      (eac && ebd && negb eab && negb za && negb zb, (* 46 *) obind (LogM scale a) (fun LA => obind (LogM scale b) (fun LB => Some ((2 * (a - b) + (a + b) * (LB - LA)) / ((a - b) * (a - b) * (a - b))))));
      (ead && ebc && negb eab && negb za && negb zb, (* 47 *) obind (LogM scale a) (fun LA => obind (LogM scale b) (fun LB => Some ((2 * (a - b) + (a + b) * (LB - LA)) / ((a - b) * (a - b) * (a - b))))));
      (eab && eac && negb za && negb ead && negb zd, (* 48 *) obind (LogM scale a) (fun LA => obind (LogM scale d) (fun LD => Some ((- a * a + d * d + 2 * a * d * (LA - LD)) / (2 * a * (a - d) * (a - d) * (a - d))))));
      (eab && ead && negb za && negb eac && negb zc, (* 49 *) obind (LogM scale a) (fun LA => obind (LogM scale c) (fun LC => Some ((- a * a + c * c + 2 * a * c * (LA - LC)) / (2 * a * (a - c) * (a - c) * (a - c))))));
      (eac && ead && negb za && negb eab && negb zb, (* 50 *) obind (LogM scale a) (fun LA => obind (LogM scale b) (fun LB => Some ((- a * a + b * b + 2 * a * b * (LA - LB)) / (2 * a * (a - b) * (a - b) * (a - b))))));
      (ebc && ebd && negb zb && negb eab && negb za, (* 51 *) obind (LogM scale a) (fun LA => obind (LogM scale b) (fun LB => Some ((- b * b + a * a + 2 * b * a * (LB - LA)) / (2 * b * (b - a) * (b - a) * (b - a))))))
      ] ((* 52 *) obind (LogM scale a) (fun LA => obind (LogM scale b) (fun LB => obind (LogM scale c) (fun LC => obind (LogM scale d) (fun LD => Some (a * LA / ((a - b) * (a - c) * (a - d)) + b * LB / ((b - a) * (b - c) * (b - d)) + c * LC / ((c - a) * (c - b) * (c - d)) + d * LD / ((d - a) * (d - b) * (d - c)))))))).

  Lemma branch_bools a b c d : br a b c d =
    four_bools (is0 a) (is0 b) (is0 c) (is0 d) (eqb a b) (eqb a c) (eqb a d) (eqb b c) (eqb b d) (eqb c d) a b c d.
  Proof.
    unfold four_branch, four_bools.
    rewrite (eqb_sym d b), (eqb_sym c b), (eqb_sym d a), (eqb_sym c a), (eqb_sym b a). reflexivity.
  Qed.
End Four.
Ltac one_case H :=
  destruct H as [(? & ?)|(? & ?)]; try (exfalso; congruence).
Ltac patterns a b c d :=
  one_case (is0_case a); one_case (is0_case b); one_case (is0_case c); one_case (is0_case d);
  one_case (eqb_case a b); one_case (eqb_case a c); one_case (eqb_case a d);
  one_case (eqb_case b c); one_case (eqb_case b d); one_case (eqb_case c d).
Ltac chase := repeat match goal with
  | H : is0 _ = _ |- _ => rewrite ?H; clear H
  | H : eqb _ _ = _ |- _ => rewrite ?H; clear H end;
  cbv beta iota delta [four_bools pick andb negb].
Ltac logs := repeat match goal with
    | |- context [LogM ?s ?x] => destruct (LogM s x) end;
    cbn [obind]; try reflexivity.
Ltac finish := subst; try reflexivity; logs; try (f_equal; field; repeat split; lra).
Section Sym.
  Variable scale : R.
  Notation br := (four_branch scale).
  Lemma branch_ab a b c d : br a b c d = br b a c d.
  Proof. rewrite !branch_bools, (eqb_sym b a). patterns a b c d; chase; finish. Qed.
  Lemma branch_bc a b c d : br a b c d = br a c b d.
  Proof. rewrite !branch_bools, (eqb_sym c b). patterns a b c d; chase; finish. Qed.
  Lemma branch_cd a b c d : br a b c d = br a b d c.
  Proof. rewrite !branch_bools, (eqb_sym d c). patterns a b c d; chase; finish. Qed.

End Sym.
