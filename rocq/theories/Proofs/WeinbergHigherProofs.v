(** Contractions of the third and fourth derivatives with a direction. *)
From Coq Require Import Reals List Lra Lia.
From Coquelicot Require Import Coquelicot.
From Verif Require Import Model.Base Model.Loop Model.LoopFour Model.EigenDeriv Model.Weinberg Model.WeinbergHigher Spec.WeinbergHigherSpec.
From Verif Require Import Proofs.EigenProofs Proofs.EigenBranch Proofs.WeinbergProofs.
Import ListNotations.
Open Scope R_scope.

Section Con.
  Variable N : nat.
  Definition con (w f : nat -> R) : R := rsum N (fun i => w i * f i).
  Lemma con_ext w f g : (forall i, (i < N)%nat -> f i = g i) -> con w f = con w g.
  Proof. intros H. apply rsum_ext. intros i I. rewrite H by exact I. reflexivity. Qed.
  Lemma con_scal w z f : con w (fun i => z * f i) = z * con w f.
  Proof. unfold con. rewrite <- rsum_scal. apply rsum_ext. intros. ring. Qed.
  Lemma con_plus w f g : con w (fun i => f i + g i) = con w f + con w g.
  Proof. unfold con. rewrite <- rsum_plus. apply rsum_ext. intros. ring. Qed.
  Lemma con_rsum w M f : con w (fun n => rsum M (fun i => f i n)) = rsum M (fun i => con w (fun n => f i n)).
  Proof. unfold con. rewrite <- rsum_swap. apply rsum_ext. intros n I. rewrite <- rsum_scal. reflexivity. Qed.
  Lemma con_swap w f : con w (fun i => con w (fun j => f i j)) = con w (fun j => con w (fun i => f i j)).
  Proof. unfold con at 2. rewrite con_rsum. unfold con at 2. apply rsum_ext. intros j I. rewrite con_scal. reflexivity. Qed.
  Lemma con_parts w l f : con w (fun i => parts l (fun s => f s i)) = parts l (fun s => con w (f s)).
  Proof. unfold con. rewrite parts_rsum. reflexivity. Qed.
  Definition con3 w (P : nat -> nat -> nat -> R) := con w (fun i => con w (fun j => con w (fun k => P i j k))).
  Definition con4 w (P : nat -> nat -> nat -> nat -> R) := con w (fun i => con3 w (P i)).
  Lemma con3_ext w P Q : (forall i j k, (i < N)%nat -> (j < N)%nat -> (k < N)%nat -> P i j k = Q i j k) -> con3 w P = con3 w Q.
  Proof. intros H. apply con_ext; intros i I. apply con_ext; intros j J. apply con_ext; intros k K. apply H; assumption. Qed.
  Lemma con3_plus w P Q : con3 w (fun i j k => P i j k + Q i j k) = con3 w P + con3 w Q.
  Proof.
    unfold con3. rewrite <- con_plus. apply con_ext; intros i I. rewrite <- con_plus. apply con_ext; intros j J. rewrite con_plus. reflexivity.
  Qed.
  Lemma con3_scal w z P : con3 w (fun i j k => z * P i j k) = z * con3 w P.
  Proof.
    unfold con3. rewrite <- con_scal. apply con_ext; intros i I. rewrite <- con_scal. apply con_ext; intros j J. rewrite con_scal. reflexivity.
  Qed.
  Lemma con3_12 w P : con3 w (fun i j k => P j i k) = con3 w P.
  Proof. unfold con3. rewrite con_swap. reflexivity. Qed.
  Lemma con3_23 w P : con3 w (fun i j k => P i k j) = con3 w P.
  Proof. unfold con3. apply con_ext. intros i I. rewrite con_swap. reflexivity. Qed.
  Lemma con3_sym w P : con3 w (sym3 P) = con3 w P.
  Proof.
    unfold sym3. rewrite (con3_ext w _ (fun i j k => (1 / 6) * (P i j k + P i k j + (P j i k + P j k i) + (P k i j + P k j i)))) by (intros; ring).
    rewrite con3_scal, !con3_plus.
    rewrite (con3_23 w P), (con3_12 w P).
    replace (con3 w (fun i j k => P j k i)) with (con3 w P).
    2:{ rewrite <- (con3_23 w P). symmetry. exact (con3_12 w (fun i j k => P i k j)). }
    replace (con3 w (fun i j k => P k i j)) with (con3 w P).
    2:{ rewrite <- (con3_12 w P). symmetry. exact (con3_23 w (fun i j k => P j i k)). }
    replace (con3 w (fun i j k => P k j i)) with (con3 w P).
    2:{ rewrite <- (con3_12 w P), <- (con3_23 w (fun i j k => P j i k)). symmetry. exact (con3_12 w (fun i j k => P k i j)). }
    field.
  Qed.
  Lemma con4_ext w P Q : (forall i j k l, (i < N)%nat -> (j < N)%nat -> (k < N)%nat -> (l < N)%nat -> P i j k l = Q i j k l) -> con4 w P = con4 w Q.
  Proof. intros H. apply con_ext; intros i I. apply con3_ext. intros. apply H; assumption. Qed.
  Lemma con4_plus w P Q : con4 w (fun i j k l => P i j k l + Q i j k l) = con4 w P + con4 w Q.
  Proof. unfold con4. rewrite <- con_plus. apply con_ext; intros i I. rewrite con3_plus. reflexivity. Qed.
  Lemma con4_scal w z P : con4 w (fun i j k l => z * P i j k l) = z * con4 w P.
  Proof. unfold con4. rewrite <- con_scal. apply con_ext; intros i I. rewrite con3_scal. reflexivity. Qed.
  Lemma con4_12 w P : con4 w (fun i j k l => P j i k l) = con4 w P.
  Proof. unfold con4, con3. rewrite con_swap. reflexivity. Qed.
  Lemma con4_23 w P : con4 w (fun i j k l => P i k j l) = con4 w P.
  Proof. unfold con4. apply con_ext. intros i I. exact (con3_12 w (P i)). Qed.
  Lemma con4_34 w P : con4 w (fun i j k l => P i j l k) = con4 w P.
  Proof. unfold con4. apply con_ext. intros i I. exact (con3_23 w (P i)). Qed.
  (** every permutation gives the same contraction *)
  Lemma con4_sym w P : con4 w (sym4 P) = con4 w P.
  Proof.
    unfold sym4.
    set (S6 := fun Q : nat -> nat -> nat -> nat -> R => fun i j k l => Q i j k l + Q i j l k + Q i k j l + Q i k l j + Q i l j k + Q i l k j).
    assert (H6 : forall Q, con4 w (S6 Q) = 6 * con4 w Q).
    { intros Q. unfold S6. rewrite !con4_plus. rewrite (con4_34 w Q), (con4_23 w Q).
      replace (con4 w (fun i j k l => Q i k l j)) with (con4 w Q) by (rewrite <- (con4_34 w Q); symmetry; exact (con4_23 w (fun i j k l => Q i j l k))).
      replace (con4 w (fun i j k l => Q i l j k)) with (con4 w Q) by (rewrite <- (con4_23 w Q); symmetry; exact (con4_34 w (fun i j k l => Q i k j l))).
      replace (con4 w (fun i j k l => Q i l k j)) with (con4 w Q)
        by (rewrite <- (con4_23 w Q), <- (con4_34 w (fun i j k l => Q i k j l)); symmetry; exact (con4_23 w (fun i j k l => Q i l j k))).
      ring. }
    rewrite (con4_ext w _ (fun i j k l => 1 / 24 * (S6 P i j k l + S6 P j i k l + S6 P k i j l + S6 P l i j k))) by (intros; unfold S6; ring).
    rewrite con4_scal, !con4_plus. rewrite (con4_12 w (S6 P)).
    replace (con4 w (fun i j k l => S6 P k i j l)) with (con4 w (S6 P)) by (rewrite <- (con4_12 w (S6 P)); symmetry; exact (con4_23 w (fun i j k l => S6 P j i k l))).
    replace (con4 w (fun i j k l => S6 P l i j k)) with (con4 w (S6 P))
      by (rewrite <- (con4_12 w (S6 P)), <- (con4_23 w (fun i j k l => S6 P j i k l)); symmetry; exact (con4_34 w (fun i j k l => S6 P k i j l))).
    rewrite H6. field.
  Qed.
  Lemma con3_parts w l F : con3 w (fun i j k => parts l (fun s => F s i j k)) = parts l (fun s => con3 w (F s)).
  Proof.
    unfold con3. rewrite <- con_parts. apply con_ext; intros i I. rewrite <- con_parts. apply con_ext; intros j J. rewrite con_parts. reflexivity.
  Qed.
  Lemma con4_parts w l F : con4 w (fun i j k m => parts l (fun s => F s i j k m)) = parts l (fun s => con4 w (F s)).
  Proof. unfold con4. rewrite <- con_parts. apply con_ext; intros i I. rewrite con3_parts. reflexivity. Qed.

  Variable O : nat -> nat -> R.
  Variable u : nat -> R.
  Definition turn (i : nat) : R := rsum N (fun l => O i l * u l).
  Lemma con_turn f : con u (fun l => rsum N (fun i => O i l * f i)) = con turn f.
  Proof.
    rewrite con_rsum. unfold con at 2. apply rsum_ext. intros i I. unfold turn, con. rewrite <- rsum_scal_r. apply rsum_ext. intros. ring.
  Qed.
  Lemma con3_turn T : con3 u (fun l m n => rsum N (fun i => rsum N (fun j => rsum N (fun k => O i l * O j m * O k n * T i j k)))) = con3 turn T.
  Proof.
    rewrite (con3_ext u _ (fun l m n => rsum N (fun i => O i l * rsum N (fun j => O j m * rsum N (fun k => O k n * T i j k))))).
    2:{ intros l m n _ _ _. apply rsum_ext; intros i I. rewrite <- rsum_scal. apply rsum_ext; intros j J. rewrite <- !rsum_scal. apply rsum_ext; intros k K. ring. }
    unfold con3. rewrite <- con_turn. apply con_ext; intros l L. rewrite (con_ext u _ (fun m => rsum N (fun i => O i l * con u (fun n => rsum N (fun j => O j m * rsum N (fun k => O k n * T i j k)))))).
    2:{ intros m M. rewrite con_rsum. apply rsum_ext; intros i I. rewrite con_scal. reflexivity. }
    rewrite con_rsum. apply rsum_ext; intros i I. rewrite con_scal. f_equal. rewrite <- con_turn. apply con_ext; intros m M. rewrite con_rsum. apply rsum_ext; intros j J.
    rewrite con_scal. f_equal. apply con_turn.
  Qed.
  Lemma con4_turn T : con4 u (fun a l m n => rsum N (fun h => rsum N (fun i => rsum N (fun j => rsum N (fun k => O h a * O i l * O j m * O k n * T h i j k))))) = con4 turn T.
  Proof.
    unfold con4. rewrite <- con_turn. apply con_ext; intros a A.
    rewrite (con3_ext u _ (fun l m n => rsum N (fun h => O h a * rsum N (fun i => rsum N (fun j => rsum N (fun k => O i l * O j m * O k n * T h i j k)))))).
    2:{ intros l m n _ _ _. apply rsum_ext; intros h H. rewrite <- rsum_scal. apply rsum_ext; intros i I. rewrite <- rsum_scal. apply rsum_ext; intros j J. rewrite <- rsum_scal. apply rsum_ext; intros k K. ring. }
    assert (G : forall F, con3 u (fun l m n => rsum N (fun h => F h l m n)) = rsum N (fun h => con3 u (F h))).
    { intros F. unfold con3. rewrite <- con_rsum. apply con_ext; intros i I. rewrite <- con_rsum. apply con_ext; intros j J. rewrite con_rsum. reflexivity. }
    rewrite G. apply rsum_ext; intros h H. rewrite con3_scal. f_equal. apply con3_turn.
  Qed.
  (** numerical cuts *)
  Definition total : R := rsum N (fun l => Rabs (u l)).
  Lemma con_bound f g b : 0 <= b -> (forall i, (i < N)%nat -> Rabs (f i - g i) <= b) -> Rabs (con u f - con u g) <= total * b.
  Proof.
    intros B. unfold con, total. induction N as [|M IH]; intros H; cbn [rsum].
    - rewrite Rminus_0_r, Rabs_R0. lra.
    - replace (rsum M (fun i => u i * f i) + u M * f M - (rsum M (fun i => u i * g i) + u M * g M))
        with ((rsum M (fun i => u i * f i) - rsum M (fun i => u i * g i)) + u M * (f M - g M)) by ring.
      eapply Rle_trans; [apply Rabs_triang|]. rewrite Rmult_plus_distr_r. apply Rplus_le_compat.
      + apply IH. intros i I. apply H. lia.
      + rewrite Rabs_mult. apply Rmult_le_compat_l; [apply Rabs_pos|]. apply H. lia.
  Qed.
  Lemma total_pos : 0 <= total.
  Proof. unfold total. induction N as [|n IH]; cbn [rsum]; [lra|]. pose proof (Rabs_pos (u n)). lra. Qed.
  Lemma con3_bound P Q b : 0 <= b -> (forall i j k, (i < N)%nat -> (j < N)%nat -> (k < N)%nat -> Rabs (P i j k - Q i j k) <= b) -> Rabs (con3 u P - con3 u Q) <= total ^ 3 * b.
  Proof.
    intros B H. pose proof total_pos. replace (total ^ 3 * b) with (total * (total * (total * b))) by ring. assert (0 <= total * b) by (apply Rmult_le_pos; lra).
    apply con_bound; [apply Rmult_le_pos; lra|]. intros i I. apply con_bound; [lra|]. intros j J. apply con_bound; [lra|]. intros k K. apply H; assumption.
  Qed.
  Lemma con4_bound P Q b : 0 <= b -> (forall i j k l, (i < N)%nat -> (j < N)%nat -> (k < N)%nat -> (l < N)%nat -> Rabs (P i j k l - Q i j k l) <= b) -> Rabs (con4 u P - con4 u Q) <= total ^ 4 * b.
  Proof.
    intros B H. pose proof total_pos. replace (total ^ 4 * b) with (total * (total ^ 3 * b)) by ring.
    apply con_bound; [apply Rmult_le_pos; [apply pow_le|]; lra|]. intros i I. apply con3_bound; [lra|]. intros. apply H; assumption.
  Qed.

  (** complex contractions *)
  Variable w : nat -> R.
  Definition ccon (f : nat -> C) : C := csum N (fun i => Cmult (RtoC (w i)) (f i)).
  Lemma ccon_ext f g : (forall i, (i < N)%nat -> f i = g i) -> ccon f = ccon g.
  Proof. intros H. apply csum_ext. intros i I. rewrite H by exact I. reflexivity. Qed.
  Lemma ccon_l z f : ccon (fun i => Cmult z (f i)) = Cmult z (ccon f).
  Proof. unfold ccon. rewrite <- csum_scal. apply csum_ext. intros. rewrite !Cmult_assoc, (Cmult_comm z). reflexivity. Qed.
  Lemma ccon_r z f : ccon (fun i => Cmult (f i) z) = Cmult (ccon f) z.
  Proof. unfold ccon. rewrite <- csum_scal_r. apply csum_ext. intros. rewrite !Cmult_assoc. reflexivity. Qed.
  Lemma ccon_plus f g : ccon (fun i => Cplus (f i) (g i)) = Cplus (ccon f) (ccon g).
  Proof. unfold ccon. rewrite <- csum_plus. apply csum_ext. intros. apply Cmult_plus_distr_l. Qed.
  Lemma ccon_csum M f : ccon (fun i => csum M (fun a => f i a)) = csum M (fun a => ccon (fun i => f i a)).
  Proof. unfold ccon. rewrite <- csum_swap. apply csum_ext. intros i I. rewrite csum_scal. reflexivity. Qed.
  Lemma ccon_swap f : ccon (fun i => ccon (fun j => f i j)) = ccon (fun j => ccon (fun i => f i j)).
  Proof. unfold ccon at 2. rewrite ccon_csum. unfold ccon at 2. apply csum_ext. intros j I. rewrite ccon_l. reflexivity. Qed.
  Lemma ccon_Re f : Re (ccon f) = con w (fun i => Re (f i)).
  Proof. unfold ccon, con, Re. rewrite csum_re. apply rsum_ext. intros i I. unfold Cmult, RtoC. cbn. ring. Qed.
End Con.
