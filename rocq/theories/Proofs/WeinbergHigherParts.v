(** The third and fourth derivatives along a line on which the squared mass matrices stay diagonal. *)
From Coq Require Import Reals List Lra Lia.
From Coquelicot Require Import Coquelicot.
From Verif Require Import Model.Base Model.Loop Model.LoopFour Model.EigenDeriv Model.Weinberg Model.WeinbergHigher Spec.WeinbergHigherSpec.
From Verif Require Import Proofs.EigenProofs Proofs.EigenBranch Proofs.WeinbergProofs Proofs.WeinbergHigherProofs.
Import ListNotations.
Open Scope R_scope.
Local Notation value := WeinbergHigher.value.
Local Notation tri := WeinbergHigher.tri.
Local Notation four := WeinbergHigher.four.

Lemma csum_single : forall n k f, (k < n)%nat -> (forall i, (i < n)%nat -> i <> k -> f i = RtoC 0) -> csum n f = f k.
Proof.
  induction n as [|n IH]; intros k f K H; [lia|]. cbn [csum]. destruct (Nat.eq_dec k n) as [-> |D].
  - rewrite (csum_ext n _ (fun _ => RtoC 0)) by (intros i I; apply H; lia). rewrite csum_zero. apply Cplus_0_l.
  - rewrite (IH k) by (try lia; intros; apply H; lia). rewrite (H n) by lia. apply Cplus_0_r.
Qed.
Section Line.
  Variable N : nat.
  Variable O : nat -> nat -> R.
  Variable u : nat -> R.
  Variable scale : R.
  Hypothesis ortho : orthonormal N O.
  Notation w := (turn N O u).
  Notation cc := (ccon N w).
  Lemma con_back k : (k < N)%nat -> con N w (fun i => O i k) = u k.
  Proof.
    intros K. unfold con, turn. rewrite (rsum_ext N _ (fun i => rsum N (fun l => u l * (O i l * O i k)))).
    2:{ intros i I. rewrite <- rsum_scal_r. apply rsum_ext. intros. ring. }
    rewrite rsum_swap. rewrite (rsum_ext N _ (fun l => u l * kron l k)).
    2:{ intros l L. rewrite rsum_scal, ortho by assumption. unfold kron. destruct (Nat.eqb_spec l k), (Nat.eq_dec l k); try lia; reflexivity. }
    apply rsum_kron. exact K.
  Qed.
  Lemma ccon_back z k x : (k < N)%nat -> cc (fun i => Cmult (RtoC (z * O i k)) x) = Cmult (RtoC z) (Cmult (RtoC (u k)) x).
  Proof.
    intros K. rewrite (ccon_ext N w _ (fun i => Cmult (Cmult (RtoC z) (RtoC (O i k))) x)) by (intros; rewrite <- RtoC_mult; reflexivity).
    rewrite ccon_r, ccon_l. rewrite <- Cmult_assoc. f_equal. f_equal. unfold ccon. rewrite (csum_ext N _ (fun i => RtoC (w i * O i k))) by (intros; rewrite RtoC_mult; reflexivity).
    rewrite csum_RtoC. f_equal. exact (con_back k K).
  Qed.
  Lemma coup3_con s a b : cc (fun i => coup3 N O s a b i) = csum (size s) (fun a' => csum (size s) (fun b' => Cmult (RtoC (rot s a a' * rot s b b')) (slope N u s a' b'))).
  Proof.
    unfold coup3. rewrite ccon_csum. apply csum_ext; intros a' A. rewrite ccon_csum. apply csum_ext; intros b' B. rewrite ccon_csum. unfold slope. rewrite <- csum_scal.
    apply csum_ext; intros i' I. apply ccon_back. exact I.
  Qed.
  Lemma coup4_con s a b : cc (fun i => cc (fun j => coup4 N O s a b i j)) = csum (size s) (fun a' => csum (size s) (fun b' => Cmult (RtoC (rot s a a' * rot s b b')) (curve N u s a' b'))).
  Proof.
    unfold coup4. rewrite (ccon_ext N w _ (fun i => csum (size s) (fun a' => csum (size s) (fun b' => csum N (fun i' => csum N (fun j' =>
      Cmult (RtoC (rot s a a' * rot s b b' * O i i')) (Cmult (RtoC (u j')) (lambda4 s a' b' i' j')))))))).
    2:{ intros i I. rewrite ccon_csum. apply csum_ext; intros a' A. rewrite ccon_csum. apply csum_ext; intros b' B. rewrite ccon_csum. apply csum_ext; intros i' I'. rewrite ccon_csum. apply csum_ext; intros j' J'. apply ccon_back. exact J'. }
    rewrite ccon_csum. apply csum_ext; intros a' A. rewrite ccon_csum. apply csum_ext; intros b' B. rewrite ccon_csum. unfold curve. rewrite <- csum_scal. apply csum_ext; intros i' I'.
    rewrite ccon_csum. rewrite <- csum_scal. apply csum_ext; intros j' J'. rewrite ccon_back by exact I'. rewrite (RtoC_mult (u i') (u j')), !Cmult_assoc. reflexivity.
  Qed.
  Section Sector.
    Variable s : sector.
    Variables d e : nat -> R.
    Hypothesis Dd : diagonal s (slope N u s) d.
    Hypothesis De : diagonal s (curve N u s) e.
    Notation X a b := (RtoC (if Nat.eqb a b then d a else 0)).
    Notation Y a b := (RtoC (if Nat.eqb a b then e a else 0)).
    Lemma x_con a b : (a < size s)%nat -> (b < size s)%nat -> cc (fun i => coup3 N O s a b i) = X a b.
    Proof. intros A B. rewrite coup3_con. apply Dd; assumption. Qed.
    Lemma y_con a b : (a < size s)%nat -> (b < size s)%nat -> cc (fun i => cc (fun j => coup4 N O s a b i j)) = Y a b.
    Proof. intros A B. rewrite coup4_con. apply De; assumption. Qed.
    Lemma off (f : nat -> R) a b : a <> b -> RtoC (if Nat.eqb a b then f a else 0) = RtoC 0.
    Proof. intros H. destruct (Nat.eqb_spec a b); [contradiction|reflexivity]. Qed.
    Lemma on (f : nat -> R) a : RtoC (if Nat.eqb a a then f a else 0) = RtoC (f a).
    Proof. rewrite Nat.eqb_refl. reflexivity. Qed.

    Lemma third_con : con3 N w (fun i j k => Re (third_part N O scale s i j k)) =
      rsum (size s) (fun a => 2 * value (tri scale s a a a) * d a ^ 3 + 3 * e a * d a * bracket scale s a a).
    Proof.
      assert (E : cc (fun i => cc (fun j => cc (fun k => third_part N O scale s i j k))) =
        csum (size s) (fun a => csum (size s) (fun b => Cplus
          (csum (size s) (fun c => Cmult (Cmult (Cmult (RtoC (2 * value (tri scale s a b c))) (X a b)) (X b c)) (X c a)))
          (Cmult (Cmult (Cmult (RtoC 3) (Y a b)) (X b a)) (RtoC (bracket scale s a b)))))).
      { unfold third_part.
        transitivity (cc (fun i => cc (fun j => csum (size s) (fun a => csum (size s) (fun b => Cplus
          (csum (size s) (fun c => Cmult (Cmult (Cmult (RtoC (2 * value (tri scale s a b c))) (coup3 N O s a b i)) (coup3 N O s b c j)) (X c a)))
          (Cmult (Cmult (Cmult (RtoC 3) (coup4 N O s a b i j)) (X b a)) (RtoC (bracket scale s a b)))))))).
        { apply ccon_ext; intros i I. apply ccon_ext; intros j J. rewrite ccon_csum. apply csum_ext; intros a A. rewrite ccon_csum. apply csum_ext; intros b B. rewrite ccon_plus. f_equal.
          - rewrite ccon_csum. apply csum_ext; intros c Cc. rewrite ccon_l. rewrite x_con by assumption. reflexivity.
          - rewrite ccon_r, ccon_l, x_con by assumption. reflexivity. }
        transitivity (cc (fun i => csum (size s) (fun a => csum (size s) (fun b => Cplus
          (csum (size s) (fun c => Cmult (Cmult (Cmult (RtoC (2 * value (tri scale s a b c))) (coup3 N O s a b i)) (X b c)) (X c a)))
          (Cmult (Cmult (Cmult (RtoC 3) (cc (fun j => coup4 N O s a b i j))) (X b a)) (RtoC (bracket scale s a b))))))).
        { apply ccon_ext; intros i I. rewrite ccon_csum. apply csum_ext; intros a A. rewrite ccon_csum. apply csum_ext; intros b B. rewrite ccon_plus. f_equal.
          - rewrite ccon_csum. apply csum_ext; intros c Cc. rewrite ccon_r, ccon_l. rewrite x_con by assumption. reflexivity.
          - rewrite !ccon_r, ccon_l. reflexivity. }
        rewrite ccon_csum. apply csum_ext; intros a A. rewrite ccon_csum. apply csum_ext; intros b B. rewrite ccon_plus. f_equal.
        - rewrite ccon_csum. apply csum_ext; intros c Cc. rewrite !ccon_r, ccon_l. rewrite x_con by assumption. reflexivity.
        - rewrite !ccon_r, ccon_l, y_con by assumption. reflexivity. }
      transitivity (Re (cc (fun i => cc (fun j => cc (fun k => third_part N O scale s i j k))))).
      { unfold con3. rewrite ccon_Re. apply con_ext; intros i I. rewrite ccon_Re. apply con_ext; intros j J. rewrite ccon_Re. reflexivity. }
      rewrite E. unfold Re. rewrite csum_re. apply rsum_ext; intros a A.
      rewrite (csum_single _ a) by (try exact A; intros b B D; rewrite (csum_ext _ _ (fun _ => RtoC 0)) by (intros c Cc; rewrite (off d a b) by congruence; rewrite Cmult_0_r, !Cmult_0_l; reflexivity);
        rewrite csum_zero, (off e a b) by congruence; rewrite Cmult_0_r, !Cmult_0_l; apply Cplus_0_l).
      rewrite (csum_single _ a) by (try exact A; intros c Cc D; rewrite (off d c a) by exact D; apply Cmult_0_r).
      rewrite !on, <- !RtoC_mult, <- RtoC_plus. cbn [fst RtoC]. ring.
    Qed.

    Lemma fourth_con : con4 N w (fun i j k l => Re (fourth_part N O scale s i j k l)) =
      rsum (size s) (fun a => e a ^ 2 * bracket scale s a a + 2 * value (four scale s a a a a) * d a ^ 4 + 4 * value (tri scale s a a a) * d a ^ 2 * e a).
    Proof.
      assert (E : cc (fun i => cc (fun j => cc (fun k => cc (fun l => fourth_part N O scale s i j k l)))) =
        csum (size s) (fun a => csum (size s) (fun b => Cplus
          (Cmult (Cmult (Y a b) (Y b a)) (RtoC (bracket scale s a b)))
          (csum (size s) (fun c => Cplus
             (csum (size s) (fun f => Cmult (Cmult (Cmult (Cmult (RtoC (2 * value (four scale s a b c f))) (X a b)) (X b c)) (X c f)) (X f a)))
             (Cmult (Cmult (Cmult (RtoC (4 * value (tri scale s a b c))) (X a b)) (Y b c)) (X c a))))))).
      { unfold fourth_part.
        transitivity (cc (fun i => cc (fun j => cc (fun k => csum (size s) (fun a => csum (size s) (fun b => Cplus
          (Cmult (Cmult (cc (fun l => coup4 N O s a b i l)) (coup4 N O s b a j k)) (RtoC (bracket scale s a b)))
          (csum (size s) (fun c => Cplus
             (csum (size s) (fun f => Cmult (Cmult (Cmult (Cmult (RtoC (2 * value (four scale s a b c f))) (X a b)) (coup3 N O s b c i)) (coup3 N O s c f j)) (coup3 N O s f a k)))
             (Cmult (Cmult (Cmult (RtoC (4 * value (tri scale s a b c))) (X a b)) (coup4 N O s b c i j)) (coup3 N O s c a k)))))))))).
        { apply ccon_ext; intros i I. apply ccon_ext; intros j J. apply ccon_ext; intros k K. rewrite ccon_csum. apply csum_ext; intros a A. rewrite ccon_csum. apply csum_ext; intros b B. rewrite ccon_plus. f_equal.
          - rewrite !ccon_r. reflexivity.
          - rewrite ccon_csum. apply csum_ext; intros c Cc. rewrite ccon_plus. f_equal.
            + rewrite ccon_csum. apply csum_ext; intros f F. rewrite !ccon_r, ccon_l, x_con by assumption. reflexivity.
            + rewrite !ccon_r, ccon_l, x_con by assumption. reflexivity. }
        transitivity (cc (fun i => cc (fun j => csum (size s) (fun a => csum (size s) (fun b => Cplus
          (Cmult (Cmult (cc (fun l => coup4 N O s a b i l)) (cc (fun k => coup4 N O s b a j k))) (RtoC (bracket scale s a b)))
          (csum (size s) (fun c => Cplus
             (csum (size s) (fun f => Cmult (Cmult (Cmult (Cmult (RtoC (2 * value (four scale s a b c f))) (X a b)) (coup3 N O s b c i)) (coup3 N O s c f j)) (X f a)))
             (Cmult (Cmult (Cmult (RtoC (4 * value (tri scale s a b c))) (X a b)) (coup4 N O s b c i j)) (X c a))))))))).
        { apply ccon_ext; intros i I. apply ccon_ext; intros j J. rewrite ccon_csum. apply csum_ext; intros a A. rewrite ccon_csum. apply csum_ext; intros b B. rewrite ccon_plus. f_equal.
          - rewrite ccon_r, ccon_l. reflexivity.
          - rewrite ccon_csum. apply csum_ext; intros c Cc. rewrite ccon_plus. f_equal.
            + rewrite ccon_csum. apply csum_ext; intros f F. rewrite ccon_l, x_con by assumption. reflexivity.
            + rewrite ccon_l, x_con by assumption. reflexivity. }
        transitivity (cc (fun i => csum (size s) (fun a => csum (size s) (fun b => Cplus
          (Cmult (Cmult (cc (fun l => coup4 N O s a b i l)) (Y b a)) (RtoC (bracket scale s a b)))
          (csum (size s) (fun c => Cplus
             (csum (size s) (fun f => Cmult (Cmult (Cmult (Cmult (RtoC (2 * value (four scale s a b c f))) (X a b)) (coup3 N O s b c i)) (X c f)) (X f a)))
             (Cmult (Cmult (Cmult (RtoC (4 * value (tri scale s a b c))) (X a b)) (cc (fun j => coup4 N O s b c i j))) (X c a)))))))).
        { apply ccon_ext; intros i I. rewrite ccon_csum. apply csum_ext; intros a A. rewrite ccon_csum. apply csum_ext; intros b B. rewrite ccon_plus. f_equal.
          - rewrite ccon_r, ccon_l, y_con by assumption. reflexivity.
          - rewrite ccon_csum. apply csum_ext; intros c Cc. rewrite ccon_plus. f_equal.
            + rewrite ccon_csum. apply csum_ext; intros f F. rewrite ccon_r, ccon_l, x_con by assumption. reflexivity.
            + rewrite ccon_r, ccon_l. reflexivity. }
        rewrite ccon_csum. apply csum_ext; intros a A. rewrite ccon_csum. apply csum_ext; intros b B. rewrite ccon_plus. f_equal.
        - rewrite !ccon_r, y_con by assumption. reflexivity.
        - rewrite ccon_csum. apply csum_ext; intros c Cc. rewrite ccon_plus. f_equal.
          + rewrite ccon_csum. apply csum_ext; intros f F. rewrite !ccon_r, ccon_l, x_con by assumption. reflexivity.
          + rewrite !ccon_r, ccon_l, y_con by assumption. reflexivity. }
      transitivity (Re (cc (fun i => cc (fun j => cc (fun k => cc (fun l => fourth_part N O scale s i j k l)))))).
      { unfold con4, con3. rewrite ccon_Re. apply con_ext; intros i I. rewrite ccon_Re. apply con_ext; intros j J. rewrite ccon_Re. apply con_ext; intros k K. rewrite ccon_Re. reflexivity. }
      rewrite E. unfold Re. rewrite csum_re. apply rsum_ext; intros a A.
      rewrite (csum_single _ a).
      2: exact A.
      2:{ intros b B D. rewrite (off e a b) by congruence. rewrite !Cmult_0_l, Cplus_0_l. rewrite (csum_ext _ _ (fun _ => RtoC 0)); [apply csum_zero|]. intros c Cc.
        rewrite (off d a b) by congruence. rewrite (csum_ext _ _ (fun _ => RtoC 0)) by (intros f F; rewrite Cmult_0_r, !Cmult_0_l; reflexivity). rewrite csum_zero, Cmult_0_r, !Cmult_0_l. apply Cplus_0_l. }
      rewrite (csum_single _ a).
      2: exact A.
      2:{ intros c Cc D. rewrite (off d c a) by exact D. rewrite Cmult_0_r, Cplus_0_r. rewrite (csum_ext _ _ (fun _ => RtoC 0)); [apply csum_zero|]. intros f F.
        rewrite (off d a c) by congruence. rewrite Cmult_0_r, !Cmult_0_l. reflexivity. }
      rewrite (csum_single _ a).
      2: exact A.
      2:{ intros f F D. rewrite (off d f a) by exact D. apply Cmult_0_r. }
      rewrite !on, <- !RtoC_mult, <- !RtoC_plus. cbn [fst RtoC]. ring.
    Qed.
  End Sector.
End Line.
