(** The power series of the Bessel functions. *)
From Coq Require Import Reals Lra Lia.
From Coquelicot Require Import Coquelicot.
From Verif Require Import Model.BounceStart.
Open Scope R_scope.

Definition bc (n m : nat) : R := / (INR (fact (m + n)) * INR (fact m)).
Definition B (n : nat) (z : R) : R := PSeries (bc n) z.

Lemma fpos : forall n, 0 < INR (fact n).
Proof. intros; apply lt_0_INR, lt_O_fact. Qed.
Lemma fS : forall n, INR (fact (S n)) = (INR n + 1) * INR (fact n).
Proof. intros; rewrite fact_simpl, mult_INR, S_INR; reflexivity. Qed.
Lemma bc_pos : forall n m, 0 < bc n m.
Proof. intros; apply Rinv_0_lt_compat, Rmult_lt_0_compat; apply fpos. Qed.

Lemma bc_radius : forall n, CV_radius (bc n) = p_infty.
Proof.
  intros n; apply CV_radius_infinite_DAlembert.
  - intros m; apply Rgt_not_eq, bc_pos.
  - apply (is_lim_seq_le_le (fun _ => 0) _ (fun m => / (INR m + 1))).
    + intros m; split; [apply Rabs_pos|].
      rewrite Rabs_pos_eq by (apply Rlt_le, Rdiv_lt_0_compat; apply bc_pos).
      unfold bc; rewrite Nat.add_succ_l, !fS, plus_INR.
      pose proof (fpos (m + n)); pose proof (fpos m); pose proof (pos_INR m); pose proof (pos_INR n).
      match goal with |- ?a <= ?b => replace a with (/ (INR m + 1) * / (INR m + INR n + 1)) by (field; lra) end.
      rewrite <- (Rmult_1_r (/ (INR m + 1))) at 2.
      apply Rmult_le_compat_l; [apply Rlt_le, Rinv_0_lt_compat; lra|].
      rewrite <- Rinv_1; apply Rinv_le_contravar; lra.
    + apply is_lim_seq_const.
    + apply (is_lim_seq_ext (fun m => / INR (S m))); [intros m; rewrite S_INR; reflexivity|].
      apply (is_lim_seq_incr_1 (fun m => / INR m)).
      replace (Finite 0) with (Rbar_inv p_infty) by reflexivity.
      apply is_lim_seq_inv; [apply is_lim_seq_INR|discriminate].
Qed.
Lemma bc_ex : forall n z, ex_pseries (bc n) z.
Proof. intros; apply CV_radius_inside; rewrite bc_radius; exact I. Qed.

Lemma B_derive : forall n z, derivable_pt_lim (B n) z (B (S n) z).
Proof.
  intros n z; apply is_derive_Reals; unfold B.
  replace (PSeries (bc (S n)) z) with (PSeries (PS_derive (bc n)) z).
  - apply is_derive_PSeries; rewrite bc_radius; exact I.
  - apply PSeries_ext; intros m; unfold PS_derive, bc.
    rewrite Nat.add_succ_l, Nat.add_succ_r, fS, (fS m), S_INR.
    pose proof (fpos (m + n)); pose proof (fpos m); pose proof (pos_INR m); pose proof (pos_INR (m + n)).
    field; lra.
Qed.

(** a function equals c plus z times another one when the coefficients say so *)
Lemma B_step : forall (a b : nat -> R) z, (forall w, ex_pseries a w) -> (forall m, a (S m) = b m) ->
  PSeries a z = a 0%nat + z * PSeries b z.
Proof.
  intros a b z E H; rewrite (PSeries_decr_1 a z (E z)); f_equal; f_equal.
  apply PSeries_ext; intros m; unfold PS_decr_1; apply H.
Qed.

Lemma bc_equation : forall n m, match m with O => 0 | S k => bc (S (S n)) k end + INR (S n) * bc (S n) m = bc n m.
Proof.
  intros n m; rewrite S_INR; destruct m as [|m]; unfold bc.
  - cbn [Nat.add]; rewrite fS; change (INR (fact 0)) with 1.
    pose proof (fpos n); pose proof (pos_INR n); field; lra.
  - rewrite !Nat.add_succ_l, !Nat.add_succ_r, !fS, !S_INR, plus_INR.
    pose proof (fpos (m + n)); pose proof (fpos m); pose proof (pos_INR m); pose proof (pos_INR n).
    field; lra.
Qed.
Lemma B_equation : forall n z, z * B (S (S n)) z + INR (S n) * B (S n) z = B n z.
Proof.
  intros n z; unfold B.
  rewrite <- PSeries_incr_1, <- PSeries_scal, <- PSeries_plus.
  - apply PSeries_ext; intros m; rewrite <- bc_equation; destruct m; reflexivity.
  - apply ex_pseries_incr_1, bc_ex.
  - apply ex_pseries_scal; [apply Rmult_comm|apply bc_ex].
Qed.

Lemma exp_series : forall x, PSeries (fun n => / INR (fact n)) x = exp x.
Proof. intros; apply is_pseries_unique, is_exp_Reals. Qed.
Lemma B_bound : forall n z, Rabs (B n z) <= exp (Rabs z).
Proof.
  intros n z; unfold B, PSeries.
  assert (Cm : forall m, Rabs (bc n m * z ^ m) <= / INR (fact m) * Rabs z ^ m).
  { intros m; rewrite Rabs_mult, <- RPow_abs; apply Rmult_le_compat_r; [apply pow_le, Rabs_pos|].
    rewrite Rabs_pos_eq by apply Rlt_le, bc_pos; unfold bc.
    apply Rinv_le_contravar; [apply fpos|].
    rewrite <- (Rmult_1_l (INR (fact m))) at 1; apply Rmult_le_compat_r; [apply Rlt_le, fpos|].
    change 1 with (INR 1); apply le_INR, lt_O_fact. }
  assert (E : ex_series (fun m => / INR (fact m) * Rabs z ^ m)).
  { pose proof (is_exp_Reals (Rabs z)) as X; apply is_pseries_R in X; exists (exp (Rabs z)); exact X. }
  apply Rle_trans with (Series (fun m => Rabs (bc n m * z ^ m))).
  - apply Series_Rabs; apply (@ex_series_le R_AbsRing R_CompleteNormedModule _ (fun m => / INR (fact m) * Rabs z ^ m)); [|exact E].
    intros m; unfold norm; cbn -[fact INR bc]; unfold abs; cbn -[fact INR bc]; rewrite Rabs_Rabsolu; apply Cm.
  - rewrite <- exp_series; unfold PSeries; apply Series_le; [|exact E].
    intros m; split; [apply Rabs_pos|apply Cm].
Qed.
Lemma B_at_0 : forall n, B n 0 = / INR (fact n).
Proof. intros; unfold B; rewrite PSeries_0; unfold bc; cbn -[fact INR]; change (INR (fact 0)) with 1; f_equal; lra. Qed.

(** F z - 1 = O(z) *)
Lemma exp_le3 : exp 1 <= 3. Proof. apply exp_le_3. Qed.
Lemma series_nonneg : forall (a : nat -> R) z, (forall w, ex_pseries a w) -> (forall m, 0 <= a m) -> 0 <= z -> 0 <= PSeries a z.
Proof.
  intros a z E P Z; unfold PSeries.
  replace 0 with (Series (fun m => 0 * (a m * z ^ m))) by (rewrite Series_scal_l; ring).
  apply Series_le; [intros m; split; [lra|]|].
  - rewrite Rmult_0_l; apply Rmult_le_pos; [apply P|apply pow_le, Z].
  - destruct (E z) as [l H]; exists l; apply is_pseries_R in H; exact H.
Qed.
Lemma B_nonneg : forall n z, 0 <= z -> 0 <= B n z.
Proof. intros n z Z; apply series_nonneg; [apply bc_ex|intros; apply Rlt_le, bc_pos|exact Z]. Qed.
