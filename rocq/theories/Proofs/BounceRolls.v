(** The closed forms solve the equation of motion. *)
From Coq Require Import Reals Lra Lia.
From Coquelicot Require Import Coquelicot.
From Verif Require Import Model.BounceStart Spec.BounceStartSpec Proofs.BesselSeries.
Open Scope R_scope.

Lemma rolls_ext : forall alpha fo l0 p p' q q', (forall r, 0 < r -> p r = q r) -> (forall r, 0 < r -> p' r = q' r) ->
  rolls alpha fo l0 p p' -> rolls alpha fo l0 q q'.
Proof.
  intros alpha fo l0 p p' q q' E E' [[p'' H] [N N']].
  assert (dext : forall f g r d, (forall x, 0 < x -> f x = g x) -> 0 < r -> derivable_pt_lim f r d -> derivable_pt_lim g r d).
  { intros f g r d X R D eps He; destruct (D eps He) as [de W].
    assert (P : 0 < Rmin de (r / 2)) by (apply Rmin_pos; [apply cond_pos|lra]).
    exists (mkposreal _ P); intros h Hh Hl; cbn in Hl.
    pose proof (Rmin_l de (r / 2)); pose proof (Rmin_r de (r / 2)).
    rewrite <- !X; [apply W; [exact Hh|lra]|lra|].
    assert (Rabs h < r / 2) by lra. apply Rabs_def2 in H2; lra. }
  split; [exists p''; intros r R; destruct (H r R) as (A & D & Q); split; [|split]|split].
  - rewrite <- E' by exact R; apply (dext p q r); [exact E|exact R|exact A].
  - apply (dext p' q' r); [exact E'|exact R|exact D].
  - rewrite <- E, <- E' by exact R; exact Q.
  - intros eps He; destruct (N eps He) as [d [Pd W]]; exists d; split; [exact Pd|]; intros r Hr; rewrite <- E by lra; apply W, Hr.
  - intros eps He; destruct (N' eps He) as [d [Pd W]]; exists d; split; [exact Pd|]; intros r Hr; rewrite <- E' by lra; apply W, Hr.
Qed.

(** a function squeezed between c - K r and c + K r *)
Lemma near_zero_lin : forall f c K d0, 0 < d0 -> 0 <= K -> (forall r, 0 < r < d0 -> Rabs (f r - c) <= K * r) -> near_zero f c.
Proof.
  intros f c K d0 D HK H eps He; exists (Rmin d0 (eps / (K + 1))).
  assert (0 < eps / (K + 1)) by (apply Rdiv_lt_0_compat; lra).
  split; [apply Rmin_pos; assumption|]; intros r Hr.
  pose proof (Rmin_l d0 (eps / (K + 1))); pose proof (Rmin_r d0 (eps / (K + 1))).
  apply Rle_lt_trans with (K * r); [apply H; lra|].
  assert (r * (K + 1) < eps).
  { apply Rlt_le_trans with (eps / (K + 1) * (K + 1)); [apply Rmult_lt_compat_r; lra|right; field; lra]. }
  lra.
Qed.

(** ** alpha = 3 *)
Section Three.
  Variables (l0 c d : R).
  Hypothesis D : d <> 0.
  Definition P3 (r : R) : R := l0 + c / d * (B 1 (d * r ^ 2 / 4) - 1).
  Definition Q3 (r : R) : R := c * r / 2 * B 2 (d * r ^ 2 / 4).
  Definition S3 (r : R) : R := c / 2 * B 2 (d * r ^ 2 / 4) + c * r / 2 * (B 3 (d * r ^ 2 / 4) * (d * r / 2)).
  Lemma arg_dl : forall r, derivable_pt_lim (fun r => d * r ^ 2 / 4) r (d * r / 2).
  Proof. intros r; apply is_derive_Reals; auto_derive; [exact I|field]. Qed.
  Lemma Bcomp : forall n r, derivable_pt_lim (fun r => B n (d * r ^ 2 / 4)) r (B (S n) (d * r ^ 2 / 4) * (d * r / 2)).
  Proof. intros n r; apply (derivable_pt_lim_comp (fun r => d * r ^ 2 / 4) (B n)); [apply arg_dl|apply B_derive]. Qed.
  Lemma P3_dl : forall r, derivable_pt_lim P3 r (Q3 r).
  Proof using D.
    intros r; unfold P3, Q3.
    apply is_derive_Reals; pose proof (Bcomp 1 r) as H; apply is_derive_Reals in H.
    evar_last; [apply (is_derive_plus (fun _ => l0) (fun r => c / d * (B 1 (d * r ^ 2 / 4) - 1)));
      [apply is_derive_const|apply (is_derive_scal (fun r => B 1 (d * r ^ 2 / 4) - 1)); apply (is_derive_minus _ (fun _ => 1)); [exact H|apply is_derive_const]]|].
    unfold plus, minus, opp, zero, plus; cbn -[B pow]; field; exact D.
  Qed.
  Lemma Q3_dl : forall r, derivable_pt_lim Q3 r (S3 r).
  Proof.
    intros r; unfold Q3, S3.
    apply (derivable_pt_lim_mult (fun r => c * r / 2) (fun r => B 2 (d * r ^ 2 / 4))); [|apply Bcomp].
    apply is_derive_Reals; auto_derive; [exact I|field].
  Qed.
  Lemma B_bound1 : forall n z, Rabs z <= 1 -> Rabs (B n z) <= 3.
  Proof.
    intros n z Z; eapply Rle_trans; [apply B_bound|]; apply Rle_trans with (exp 1); [|apply exp_le3].
    destruct Z as [Z|Z]; [left; apply exp_increasing, Z|right; rewrite Z; reflexivity].
  Qed.
  (** mean value theorem *)
  Lemma B_mvt : forall n z, exists x, Rabs x <= Rabs z /\ 0 <= x * z /\ B n z - B n 0 = z * B (S n) x.
  Proof.
    intros n z.
    destruct (MVT_gen (B n) 0 z (B (S n))) as [x [[H1 H2] H3]].
    - intros x _; apply is_derive_Reals, B_derive.
    - intros x _; apply derivable_continuous_pt; exists (B (S n) x); apply B_derive.
    - exists x; rewrite H3; split; [|split; [|ring]].
      + unfold Rmin, Rmax, Rabs in *; destruct (Rle_dec 0 z), (Rcase_abs x), (Rcase_abs z); lra.
      + unfold Rmin, Rmax in *; destruct (Rle_dec 0 z); nra.
  Qed.
  Lemma B1_0 : B 1 0 = 1. Proof. rewrite B_at_0; cbn; field. Qed.
  Lemma B2_0 : B 2 0 = / 2. Proof. rewrite B_at_0; cbn; field. Qed.
  Lemma B1_near : forall z, Rabs z <= 1 -> Rabs (B 1 z - 1) <= 3 * Rabs z.
  Proof.
    intros z Z; rewrite <- B1_0; destruct (B_mvt 1 z) as (x & X & _ & ->).
    rewrite Rabs_mult, Rmult_comm; apply Rmult_le_compat_r; [apply Rabs_pos|apply B_bound1; lra].
  Qed.
  Lemma B1_lower : forall z, 0 <= z -> 1 + z / 2 <= B 1 z.
  Proof.
    intros z Z; destruct (B_mvt 1 z) as (x & X & Xz & E); rewrite B1_0 in E.
    destruct (Req_dec z 0) as [->|N]; [rewrite B1_0; lra|].
    assert (x0 : 0 <= x) by nra.
    destruct (B_mvt 2 x) as (y & Y & Yx & E2); rewrite B2_0 in E2.
    assert (0 <= x * B 3 y).
    { destruct (Req_dec x 0) as [->|M]; [lra|]. apply Rmult_le_pos; [exact x0|apply B_nonneg; nra]. }
    nra.
  Qed.
  Lemma rolls3 : rolls 3 (fun l => c + (l - l0) * d) l0 P3 Q3.
  Proof using D.
    split; [exists S3; intros r R; split; [apply P3_dl|split; [apply Q3_dl|]]|].
    - unfold S3, Q3, P3; pose proof (B_equation 1 (d * r ^ 2 / 4)) as E; cbn [INR] in E.
      replace (INR 3) with 3 by (cbn; lra).
      set (z := d * r ^ 2 / 4) in *.
      transitivity (c * (z * B 3 z + (1 + 1) * B 2 z)); [unfold z; field; lra|rewrite E; field; exact D].
    - set (d0 := Rmin 1 (/ (Rabs d + 1))).
      assert (A : 0 < Rabs d) by (apply Rabs_pos_lt, D).
      assert (D0 : 0 < d0) by (apply Rmin_pos; [lra|apply Rinv_0_lt_compat; lra]).
      assert (Z : forall r, 0 < r < d0 -> Rabs (d * r ^ 2 / 4) <= r / 4 /\ r <= 1).
      { intros r Hr; pose proof (Rmin_l 1 (/ (Rabs d + 1))); pose proof (Rmin_r 1 (/ (Rabs d + 1))); fold d0 in H, H0.
        split; [|lra].
        replace (d * r ^ 2 / 4) with (d * (r * r / 4)) by field.
        rewrite Rabs_mult, (Rabs_pos_eq (r * r / 4)) by nra.
        assert (Rabs d * r <= 1).
        { apply Rle_trans with ((Rabs d + 1) * / (Rabs d + 1)); [apply Rmult_le_compat; lra|right; field; lra]. }
        nra. }
      split.
      + apply (near_zero_lin _ _ (Rabs (c / d)) d0 D0 (Rabs_pos _)); intros r Hr; destruct (Z r Hr) as [Zr R1].
        unfold P3; replace (l0 + c / d * (B 1 (d * r ^ 2 / 4) - 1) - l0) with (c / d * (B 1 (d * r ^ 2 / 4) - 1)) by ring.
        rewrite Rabs_mult; apply Rmult_le_compat_l; [apply Rabs_pos|].
        eapply Rle_trans; [apply B1_near; lra|lra].
      + apply (near_zero_lin _ _ (3 / 2 * Rabs c) d0 D0); [pose proof (Rabs_pos c); lra|]; intros r Hr; destruct (Z r Hr) as [Zr R1].
        unfold Q3; rewrite Rminus_0_r, Rabs_mult.
        replace (c * r / 2) with (c * (r / 2)) by field.
        rewrite Rabs_mult, (Rabs_pos_eq (r / 2)) by lra.
        pose proof (B_bound1 2 (d * r ^ 2 / 4) ltac:(lra)); pose proof (Rabs_pos c).
        apply Rle_trans with (Rabs c * (r / 2) * 3); [apply Rmult_le_compat_l; [nra|assumption]|right; field].
  Qed.
End Three.

(** ** Inequalities *)
Lemma mono0 : forall (f f' : R -> R) b, f 0 = 0 -> (forall x, derivable_pt_lim f x (f' x)) -> (forall x, 0 <= x <= b -> 0 <= f' x) ->
  forall x, 0 <= x <= b -> 0 <= f x.
Proof.
  intros f f' b Z D P x X.
  destruct (MVT_gen f 0 x f') as [y [[H1 H2] H3]].
  - intros y _; apply is_derive_Reals, D.
  - intros y _; apply derivable_continuous_pt; exists (f' y); apply D.
  - rewrite Rmin_left, Rmax_right in * by lra.
    rewrite Z in H3. pose proof (P y ltac:(lra)). nra.
Qed.
Ltac mono g g' b X :=
  apply (mono0 g g' b); [unfold sinh, cosh; repeat rewrite ?Rmult_0_l, ?Rmult_0_r, ?Ropp_0, ?exp_0, ?sin_0, ?cos_0; lra
    |intros; unfold sinh, cosh; apply is_derive_Reals; auto_derive; [exact I|field]| |exact X].
Lemma cosh_ge1 : forall x, 1 <= cosh x.
Proof.
  intros x; unfold cosh; pose proof (exp_pos x); pose proof (exp_pos (- x)).
  assert (exp x * exp (- x) = 1) by (rewrite <- exp_plus, Rplus_opp_r; apply exp_0).
  assert (0 <= (exp x - exp (- x)) ^ 2) by apply pow2_ge_0. nra.
Qed.
Lemma sinh_ge0 : forall x, 0 <= x -> x <= sinh x.
Proof.
  intros x X; enough (0 <= sinh x - x) by lra.
  mono (fun x => sinh x - x) (fun x => cosh x - 1) x (conj X (Rle_refl x)).
  intros y _; pose proof (cosh_ge1 y); lra.
Qed.
Lemma cosh_ge2 : forall x, 0 <= x -> 1 + x * x / 2 <= cosh x.
Proof.
  intros x X; enough (0 <= cosh x - 1 - x * x / 2) by lra.
  mono (fun x => cosh x - 1 - x * x / 2) (fun x => sinh x - x) x (conj X (Rle_refl x)).
  intros y Y; pose proof (sinh_ge0 y ltac:(lra)); lra.
Qed.
Lemma sinh_ge3 : forall x, 0 <= x -> x + x * x * x / 6 <= sinh x.
Proof.
  intros x X; enough (0 <= sinh x - x - x * x * x / 6) by lra.
  mono (fun x => sinh x - x - x * x * x / 6) (fun x => cosh x - 1 - x * x / 2) x (conj X (Rle_refl x)).
  intros y Y; pose proof (cosh_ge2 y ltac:(lra)); lra.
Qed.
Lemma cosh_up : forall x, 0 <= x <= 1 -> cosh x <= 2.
Proof.
  intros x X; unfold cosh.
  assert (exp x <= 3).
  { apply Rle_trans with (exp 1); [|apply exp_le3]. destruct (proj2 X) as [H|H]; [left; apply exp_increasing, H|right; rewrite H; reflexivity]. }
  assert (exp (- x) <= 1).
  { apply Rle_trans with (exp 0); [|right; apply exp_0]. destruct (proj1 X) as [H0|H0]; [left; apply exp_increasing; lra|right; rewrite <- H0, Ropp_0; reflexivity]. }
  lra.
Qed.
Lemma sinh_up : forall x, 0 <= x <= 1 -> sinh x <= 2 * x.
Proof.
  intros x X; enough (0 <= 2 * x - sinh x) by lra.
  mono (fun x => 2 * x - sinh x) (fun x => 2 - cosh x) 1 X.
  intros y Y; pose proof (cosh_up y Y); lra.
Qed.
Lemma cosh_up1 : forall x, 0 <= x -> cosh x - 1 <= x * sinh x.
Proof.
  intros x X; enough (0 <= x * sinh x - cosh x + 1) by lra.
  mono (fun x => x * sinh x - cosh x + 1) (fun x => x * cosh x) x (conj X (Rle_refl x)).
  intros y Y; pose proof (cosh_ge1 y); nra.
Qed.
Lemma sinh_up1 : forall x, 0 <= x -> sinh x <= x * cosh x.
Proof.
  intros x X; enough (0 <= x * cosh x - sinh x) by lra.
  mono (fun x => x * cosh x - sinh x) (fun x => x * sinh x) x (conj X (Rle_refl x)).
  intros y Y; pose proof (sinh_ge0 y ltac:(lra)); nra.
Qed.
Lemma sinh_near : forall x, 0 <= x <= 1 -> 0 <= sinh x - x <= 2 * (x * x * x) /\ 0 <= x * cosh x - sinh x <= 2 * (x * x * x).
Proof.
  intros x X; pose proof (sinh_ge0 x ltac:(lra)); pose proof (sinh_up x X); pose proof (cosh_up1 x ltac:(lra)); pose proof (sinh_up1 x ltac:(lra)).
  pose proof (cosh_ge1 x).
  assert (x * (cosh x - 1) <= x * (x * sinh x)) by (apply Rmult_le_compat_l; lra).
  assert (x * (x * sinh x) <= x * (x * (2 * x))) by (do 2 (apply Rmult_le_compat_l; [lra|]); assumption).
  repeat split; nra.
Qed.
Lemma cos_pos : forall x, 0 <= x <= 1 -> 0 <= cos x.
Proof. intros x X; pose proof PI2_1; apply cos_ge_0; lra. Qed.
Lemma sin_pos1 : forall x, 0 <= x <= 1 -> 0 <= sin x <= x.
Proof.
  intros x X; pose proof PI2_1; pose proof PI2_3_2; split.
  - apply sin_ge_0; lra.
  - enough (0 <= x - sin x) by lra.
    mono (fun x => x - sin x) (fun x => 1 - cos x) 1 X.
    intros y Y; pose proof (COS_bound y); lra.
Qed.
Lemma sin_near : forall x, 0 <= x <= 1 -> 0 <= x - sin x <= x * x * x /\ 0 <= sin x - x * cos x <= x * x * x.
Proof.
  intros x X; pose proof (sin_pos1 x X) as [S0 S1].
  assert (A : 0 <= x * sin x - 1 + cos x).
  { mono (fun x => x * sin x - 1 + cos x) (fun x => x * cos x) 1 X.
    intros y Y; apply Rmult_le_pos; [lra|apply cos_pos, Y]. }
  assert (D : 0 <= sin x - x * cos x).
  { mono (fun x => sin x - x * cos x) (fun x => x * sin x) 1 X.
    intros y Y; apply Rmult_le_pos; [lra|apply sin_pos1, Y]. }
  pose proof (COS_bound x).
  assert (x * (1 - cos x) <= x * (x * sin x)) by (apply Rmult_le_compat_l; lra).
  assert (x * (x * sin x) <= x * (x * x)) by (do 2 (apply Rmult_le_compat_l; [lra|]); assumption).
  repeat split; nra.
Qed.

(** ** alpha = 2 *)
Section Two.
  Variables (l0 c k : R).
  Hypothesis K : 0 < k.
  Definition Ph (r : R) : R := l0 - c / (k * k) + c * sinh (k * r) / (k * k * k * r).
  Definition Qh (r : R) : R := c * cosh (k * r) / (k * k * r) - c * sinh (k * r) / (k * k * k * r ^ 2).
  Definition Sh (r : R) : R := c * sinh (k * r) / (k * r) - 2 * c * cosh (k * r) / (k * k * r ^ 2) + 2 * c * sinh (k * r) / (k * k * k * r ^ 3).
  Definition Ps (r : R) : R := l0 + c / (k * k) - c * sin (k * r) / (k * k * k * r).
  Definition Qs (r : R) : R := - (c * cos (k * r) / (k * k * r)) + c * sin (k * r) / (k * k * k * r ^ 2).
  Definition Ss (r : R) : R := c * sin (k * r) / (k * r) + 2 * c * cos (k * r) / (k * k * r ^ 2) - 2 * c * sin (k * r) / (k * k * k * r ^ 3).
  Ltac nz := repeat split; try exact I; repeat (apply Rmult_integral_contrapositive_currified); lra.
  Lemma Ph_dl : forall r, 0 < r -> derivable_pt_lim Ph r (Qh r).
  Proof using K.
    intros r R; unfold Ph, Qh, sinh, cosh; apply is_derive_Reals; auto_derive; [nz|field; lra].
  Qed.
  Lemma Qh_dl : forall r, 0 < r -> derivable_pt_lim Qh r (Sh r).
  Proof using K.
    intros r R; unfold Qh, Sh, sinh, cosh; apply is_derive_Reals; auto_derive; [nz|field; lra].
  Qed.
  Lemma Ps_dl : forall r, 0 < r -> derivable_pt_lim Ps r (Qs r).
  Proof using K.
    intros r R; unfold Ps, Qs; apply is_derive_Reals; auto_derive; [nz|field; lra].
  Qed.
  Lemma Qs_dl : forall r, 0 < r -> derivable_pt_lim Qs r (Ss r).
  Proof using K.
    intros r R; unfold Qs, Ss; apply is_derive_Reals; auto_derive; [nz|field; lra].
  Qed.
  (** near the origin *)
  Lemma range : forall r, 0 < r < / k -> 0 <= k * r <= 1.
  Proof using K.
    intros r Hr; split; [nra|]. apply Rle_trans with (k * / k); [apply Rmult_le_compat_l; lra|right; field; lra].
  Qed.
  Lemma scaled : forall u b r, 0 < r -> 0 <= u <= b * (k * r * (k * r) * (k * r)) -> 0 <= b ->
    Rabs (c * u / (k * k * k * r)) <= b * Rabs c * r ^ 2 /\ Rabs (c * u / (k * k * k * r ^ 2)) <= b * Rabs c * r.
  Proof using K.
    intros u b r R U Bn.
    assert (W : 0 < k * k * k) by (do 2 (apply Rmult_lt_0_compat; [|exact K]); exact K).
    assert (X : forall q, 0 < q -> Rabs (c * u / (k * k * k * q)) <= b * Rabs c * (r * r * r / q)).
    { intros q Q; unfold Rdiv at 1; rewrite !Rabs_mult, (Rabs_pos_eq u) by lra.
      assert (0 < / (k * k * k * q)) by (apply Rinv_0_lt_compat, Rmult_lt_0_compat; assumption).
      rewrite (Rabs_pos_eq (/ _)) by lra.
      apply Rle_trans with (Rabs c * (b * (k * r * (k * r) * (k * r))) * / (k * k * k * q)).
      - apply Rmult_le_compat_r; [lra|]. apply Rmult_le_compat_l; [apply Rabs_pos|lra].
      - right; field; lra. }
    split; (eapply Rle_trans; [apply X|]); try nra; right; field; lra.
  Qed.
  Lemma Ph_near : forall r, 0 < r < / k -> Rabs (Ph r - l0) <= 2 * Rabs c * r ^ 2 /\ Rabs (Qh r) <= 2 * Rabs c * r.
  Proof using K.
    intros r Hr; destruct (sinh_near (k * r) (range r Hr)) as [U1 U2].
    destruct (scaled _ 2 r ltac:(lra) U1 ltac:(lra)) as [V1 _].
    destruct (scaled _ 2 r ltac:(lra) U2 ltac:(lra)) as [_ V2].
    split.
    - replace (Ph r - l0) with (c * (sinh (k * r) - k * r) / (k * k * k * r)) by (unfold Ph; field; lra). exact V1.
    - replace (Qh r) with (c * (k * r * cosh (k * r) - sinh (k * r)) / (k * k * k * r ^ 2)) by (unfold Qh; field; lra). exact V2.
  Qed.
  Lemma Ps_near : forall r, 0 < r < / k -> Rabs (Ps r - l0) <= 1 * Rabs c * r ^ 2 /\ Rabs (Qs r) <= 1 * Rabs c * r.
  Proof using K.
    intros r Hr; destruct (sin_near (k * r) (range r Hr)) as [U1 U2].
    rewrite <- (Rmult_1_l (k * r * (k * r) * (k * r))) in U1, U2.
    destruct (scaled _ 1 r ltac:(lra) U1 ltac:(lra)) as [V1 _].
    destruct (scaled _ 1 r ltac:(lra) U2 ltac:(lra)) as [_ V2].
    split.
    - replace (Ps r - l0) with (c * (k * r - sin (k * r)) / (k * k * k * r)) by (unfold Ps; field; lra). exact V1.
    - replace (Qs r) with (c * (sin (k * r) - k * r * cos (k * r)) / (k * k * k * r ^ 2)) by (unfold Qs; field; lra). exact V2.
  Qed.
  Lemma near2 : forall (P Q : R -> R) b, 0 <= b -> (forall r, 0 < r < / k -> Rabs (P r - l0) <= b * Rabs c * r ^ 2 /\ Rabs (Q r) <= b * Rabs c * r) ->
    near_zero P l0 /\ near_zero Q 0.
  Proof using K.
    intros P Q b Hb H.
    assert (I : 0 < / k) by apply Rinv_0_lt_compat, K.
    pose proof (Rabs_pos c) as Cp.
    assert (0 <= b * Rabs c) by (apply Rmult_le_pos; assumption).
    split.
    - apply (near_zero_lin _ _ (b * Rabs c) (Rmin 1 (/ k))); [apply Rmin_pos; lra|assumption|]; intros r Hr.
      pose proof (Rmin_l 1 (/ k)); pose proof (Rmin_r 1 (/ k)).
      eapply Rle_trans; [apply H; lra|]; apply Rmult_le_compat_l; [assumption|nra].
    - apply (near_zero_lin _ _ (b * Rabs c) (/ k)); [assumption|assumption|]; intros r Hr.
      rewrite Rminus_0_r; apply H, Hr.
  Qed.
  Lemma rolls_h : rolls 2 (fun l => c + (l - l0) * (k * k)) l0 Ph Qh.
  Proof using K.
    split; [exists Sh; intros r R; split; [apply Ph_dl, R|split; [apply Qh_dl, R|]]|apply (near2 _ _ 2); [lra|apply Ph_near]].
    unfold Sh, Qh, Ph; replace (INR 2) with 2 by (cbn; lra); field; lra.
  Qed.
  Lemma rolls_s : rolls 2 (fun l => c + (l - l0) * (- (k * k))) l0 Ps Qs.
  Proof using K.
    split; [exists Ss; intros r R; split; [apply Ps_dl, R|split; [apply Qs_dl, R|]]|apply (near2 _ _ 1); [lra|apply Ps_near]].
    unfold Ss, Qs, Ps; replace (INR 2) with 2 by (cbn; lra); field; lra.
  Qed.
  Lemma Ph_lower : forall r, 0 < r -> 0 <= c -> l0 + c * r ^ 2 / 6 <= Ph r.
  Proof using K.
    intros r R Cc; unfold Ph; pose proof (sinh_ge3 (k * r) ltac:(nra)) as H.
    assert (W : 0 < k * k * k * r) by (do 3 (apply Rmult_lt_0_compat; try assumption)).
    assert (c * (k * r + k * r * (k * r) * (k * r) / 6) / (k * k * k * r) <= c * sinh (k * r) / (k * k * k * r)).
    { apply Rmult_le_compat_r; [apply Rlt_le, Rinv_0_lt_compat, W|]. apply Rmult_le_compat_l; assumption. }
    replace (c * (k * r + k * r * (k * r) * (k * r) / 6) / (k * k * k * r)) with (c / (k * k) + c * r ^ 2 / 6) in H0 by (field; lra).
    lra.
  Qed.
End Two.
