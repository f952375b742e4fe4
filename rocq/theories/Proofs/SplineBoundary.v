(** Boundary conditions and monotonicity of splines. *)
From Coq Require Import Reals Lra Lia List Arith Bool.
From Verif.Model Require Import Spline.
From Verif.Spec Require Import NumDerivSpec SplineSpec.
From Verif.Proofs Require Import DerivLib BandProofs CsplineProofs SplineProofs.
Import ListNotations.
Local Open Scope R_scope.

Lemma seg_cubic s i : glued s -> (S i < sn s)%nat -> cubic_with_third (eval s) (sx s i) (sx s (S i)) (6 * sd s i).
Proof.
  intros G Hi. exists (sy s i - sb s i * sx s i + sc s i * sx s i ^ 2 - sd s i * sx s i ^ 3), (sb s i - 2 * sc s i * sx s i + 3 * sd s i * sx s i ^ 2),
      (sc s i - 3 * sd s i * sx s i).
  intros t Ht. rewrite (on_segment s G i t Hi Ht). unfold P0. field.
Qed.
Lemma third_same s i : glued s -> (S (S i) < sn s)%nat -> sd s i = sd s (S i) -> same_third_derivative (eval s) (sx s i) (sx s (S i)) (sx s (S (S i))).
Proof. intros G Hi D. exists (6 * sd s i). split; [apply seg_cubic; [exact G|lia]|rewrite D; apply seg_cubic; [exact G|lia]]. Qed.
Lemma first_at s i : glued s -> smooth s -> (i < sn s)%nat -> derivable_pt_lim (eval s) (sx s i) (sb s i).
Proof. intros G SM Hi. rewrite <- (deriv1_knot s G i Hi). now apply derivative. Qed.

Lemma cspline_left n x y left lv right rv : abscissae n x left right ->
  right <> not_a_knot \/ left = not_a_knot \/ (left = second_deriv /\ lv = 0) ->
  exists s, set_points n x y cspline left lv right rv = Some s /\ left_condition (eval s) x left lv.
Proof.
  intros Ab Hc. destruct n as [|[|[|m]]]; try (destruct Ab; lia).
  destruct (cspline_ok m x y left lv right rv Ab) as (s & c & E & Ec & Ec0 & Ed & Eb & Ebl & Hin & HL & HR).
  exists s. assert (E' : set_points (S (S (S m))) x y cspline left lv right rv = Some s) by (unfold set_points; now rewrite (proj2 (points_ok_iff _ _ _ _) Ab)).
  split; [exact E'|]. destruct (cspline_glued m x y left lv right rv s Ab E) as (G & SM & S2).
  destruct (set_points_frame _ _ _ _ _ _ _ _ _ E') as (F1 & F2 & F3 & F4 & F5 & _). destruct Ab as (A & B & C).
  pose proof (C 0%nat ltac:(lia)) as I0. pose proof (C 1%nat ltac:(lia)) as I1.
  assert (HL' : left_entry x left 0 * c 0%nat + left_entry x left 1 * c 1%nat + left_entry x left 2 * c 2%nat = left_rhs x y left lv).
  { rewrite HL. destruct Hc as [Hc|[->|(-> & ->)]]; [now destruct right|cbn; now destruct (is_nak right)|cbn; now destruct (is_nak right)]. }
  assert (C0 : sc s 0%nat = c 0%nat) by (rewrite Ec; destruct (is_first right); reflexivity).
  destruct left; cbn [left_condition].
  - rewrite <- F2. replace lv with (sb s 0%nat); [apply first_at; auto; lia|]. rewrite Eb by lia. unfold cspline_b. cbn [Nat.add]. cbn [left_entry left_rhs] in HL'.
    apply Rmult_eq_reg_l with 3; [|lra]. 
    replace (3 * ((y 1%nat - y 0%nat) / (x 1%nat - x 0%nat) - 1 / 3 * (2 * c 0%nat + c 1%nat) * (x 1%nat - x 0%nat))) with
      (3 * ((y 1%nat - y 0%nat) / (x 1%nat - x 0%nat)) - (2 * c 0%nat + c 1%nat) * (x 1%nat - x 0%nat)) by (field; lra). lra.
  - cbn [left_entry left_rhs] in HL'. replace lv with (2 * sc s 0%nat) by (rewrite C0; lra). rewrite <- F2. apply second_at; auto; [lia|].
    apply left_curv_ok; auto. now rewrite Ec0, C0.
  - cbn [left_entry left_rhs] in HL'. rewrite <- F2. assert (4 <= S (S (S m)))%nat by (apply B; auto). apply (third_same s 0); auto; [lia|].
    rewrite Ed. unfold updf. destruct (Nat.eqb_spec 0 (S (S m))); [lia|]. destruct (Nat.eqb_spec 1 (S (S m))); [lia|]. unfold cspline_d. cbn [Nat.add].
    apply Rmult_eq_reg_r with (3 * (x 1%nat - x 0%nat) * (x 2%nat - x 1%nat)); [|nra]. field_simplify; lra.
Qed.
Lemma cspline_left_lost n x y lv rv : abscissae n x second_deriv not_a_knot ->
  exists s, set_points n x y cspline second_deriv lv not_a_knot rv = Some s /\ left_condition (eval s) x second_deriv 0.
Proof.
  intros Ab. destruct n as [|[|[|m]]]; try (destruct Ab; lia).
  destruct (cspline_ok m x y second_deriv lv not_a_knot rv Ab) as (s & c & E & Ec & Ec0 & Ed & Eb & Ebl & Hin & HL & HR).
  exists s. assert (E' : set_points (S (S (S m))) x y cspline second_deriv lv not_a_knot rv = Some s) by (unfold set_points; now rewrite (proj2 (points_ok_iff _ _ _ _) Ab)).
  split; [exact E'|]. destruct (cspline_glued m x y _ lv _ rv s Ab E) as (G & SM & S2).
  destruct (set_points_frame _ _ _ _ _ _ _ _ _ E') as (F1 & F2 & F3 & F4 & F5 & _). cbn [left_condition]. cbn in HL, Ec, Ec0.
  replace 0 with (2 * sc s 0%nat) by (rewrite Ec; lra). rewrite <- F2. apply second_at; auto; [lia|]. apply left_curv_ok; auto. now rewrite Ec0, Ec.
Qed.
Lemma cspline_right n x y left lv right rv : abscissae n x left right ->
  exists s, set_points n x y cspline left lv right rv = Some s /\ right_condition (eval s) n x right rv.
Proof.
  intros Ab. destruct n as [|[|[|m]]]; try (destruct Ab; lia).
  destruct (cspline_ok m x y left lv right rv Ab) as (s & c & E & Ec & Ec0 & Ed & Eb & Ebl & Hin & HL & HR).
  exists s. assert (E' : set_points (S (S (S m))) x y cspline left lv right rv = Some s) by (unfold set_points; now rewrite (proj2 (points_ok_iff _ _ _ _) Ab)).
  split; [exact E'|]. destruct (cspline_glued m x y left lv right rv s Ab E) as (G & SM & S2).
  destruct (set_points_frame _ _ _ _ _ _ _ _ _ E') as (F1 & F2 & F3 & F4 & F5 & _). destruct Ab as (A & B & C).
  pose proof (C m ltac:(lia)) as I0. pose proof (C (S m) ltac:(lia)) as I1.
  unfold right_entry in HR. rewrite !Nat.eqb_refl in HR. destruct (Nat.eqb_spec (S m) m); [lia|]. destruct (Nat.eqb_spec (S (S m)) m); [lia|]. destruct (Nat.eqb_spec (S (S m)) (S m)); [lia|].
  destruct right; cbn [right_condition right_rhs is_first] in *;
    replace (S (S (S m)) - 1)%nat with (S (S m)) by lia.
  - rewrite <- F2. replace rv with (sb s (S (S m))); [apply first_at; auto; lia|]. rewrite Ebl. cbn zeta. unfold cspline_b, cspline_d. replace (S m + 1)%nat with (S (S m)) by lia.
    apply Rmult_eq_reg_l with 3; [|lra].
    transitivity (3 * ((y (S (S m)) - y (S m)) / (x (S (S m)) - x (S m))) + (c (S m) + 2 * c (S (S m))) * (x (S (S m)) - x (S m))); [field; lra|]. lra.
  - replace rv with (2 * sc s (S (S m))) by (rewrite Ec; lra). rewrite <- F2. apply second_at; auto; [lia|].
    apply right_curv_ok; auto; [lia|]. apply S2; [lia|right; congruence].
  - assert (4 <= S (S (S m)))%nat by (apply B; auto). replace (S (S (S m)) - 3)%nat with m by lia. replace (S (S (S m)) - 2)%nat with (S m) by lia. rewrite <- F2.
    apply third_same; auto; [lia|]. rewrite Ed. unfold updf. destruct (Nat.eqb_spec m (S (S m))); [lia|]. destruct (Nat.eqb_spec (S m) (S (S m))); [lia|].
    unfold cspline_d. replace (m + 1)%nat with (S m) by lia. replace (S m + 1)%nat with (S (S m)) by lia.
    apply Rmult_eq_reg_r with (3 * (x (S m) - x m) * (x (S (S m)) - x (S m))); [|nra]. field_simplify; lra.
Qed.

Lemma hermite_conditions n x y left lv right rv : abscissae n x left right ->
  exists s, set_points n x y cspline_hermite left lv right rv = Some s /\ left_condition (eval s) x left lv /\ right_condition (eval s) n x right rv.
Proof.
  intro Ab. destruct (set_points_glued n x y cspline_hermite left lv right rv Ab) as (s & E & F2 & F3 & F1 & F4 & F5 & G & SM & _).
  specialize (SM ltac:(discriminate)). exists s. split; [exact E|].
  unfold set_points in E. rewrite (proj2 (points_ok_iff _ _ _ _) Ab) in E. injection E as Es.
  destruct (hermite_form n x y left lv right rv) as (b & ce & Hf & Hb0 & Hbi & Hbe). rewrite Hf in Es.
  destruct Ab as (A & B & C). destruct n as [|[|[|m]]]; try lia.
  replace (S (S (S m)) - 1)%nat with (S (S m)) in * by lia. cbn [Nat.eqb] in Hb0.
  assert (Sb : sb s = b) by (rewrite <- Es; reflexivity).
  assert (Sc : forall i, (i < S (S m))%nat -> sc s i = (3 * (y (S i) - y i) / (x (S i) - x i) - (2 * b i + b (S i))) / (x (S i) - x i)).
  { intros i Hi. rewrite <- Es. cbn. unfold c_from_b. replace (S (S (S m)) - 1)%nat with (S (S m)) by lia. destruct (Nat.ltb_spec i (S (S m))); [|lia]. now replace (i + 1)%nat with (S i) by lia. }
  assert (Sd : forall i, (i < S (S m))%nat -> sd s i = ((b (S i) - b i) / (3 * (x (S i) - x i)) - 2 / 3 * sc s i) / (x (S i) - x i)).
  { intros i Hi. rewrite (Sc i Hi). rewrite <- Es. cbn. unfold d_from_b, c_from_b. replace (S (S (S m)) - 1)%nat with (S (S m)) by lia. destruct (Nat.ltb_spec i (S (S m))); [|lia]. now replace (i + 1)%nat with (S i) by lia. }
  assert (Sce : sc s (S (S m)) = ce).
  { rewrite <- Es. cbn. unfold c_from_b. replace (S (S (S m)) - 1)%nat with (S (S m)) by lia. destruct (Nat.ltb_spec (S (S m)) (S (S m))); [lia|]. unfold updf. now rewrite Nat.eqb_refl. }
  assert (Sc0 : sc0 s = if is_first left then 0 else sc s 0%nat) by (rewrite <- Es; reflexivity).
  split.
  - pose proof (C 0%nat ltac:(lia)) as I0. pose proof (C 1%nat ltac:(lia)) as I1. destruct left; cbn [left_condition].
    + replace lv with (sb s 0%nat) by (rewrite Sb, Hb0; reflexivity). rewrite <- F2. apply first_at; auto; lia.
    + replace lv with (2 * sc s 0%nat).
      * rewrite <- F2. apply second_at; auto; [lia|]. apply left_curv_ok; auto.
      * rewrite Sc by lia. rewrite Hb0. cbn [hermite_left]. rewrite (Hbi 1%nat) by lia. replace 0.5 with (1 / 2) by lra. field. lra.
    + assert (4 <= S (S (S m)))%nat by (apply B; auto). rewrite <- F2. apply (third_same s 0); auto; [lia|].
      rewrite !Sd, !Sc by lia. rewrite Hb0. cbn [hermite_left]. rewrite (Hbi 1%nat), (Hbi 2%nat) by lia. field. lra.
  - pose proof (C m ltac:(lia)) as I0. pose proof (C (S m) ltac:(lia)) as I1.
    assert (Ub : forall i, (i < S (S m))%nat -> updf (hermite_slope x y) 0 (hermite_left x y (hermite_slope x y) left lv) i = b i).
    { intros i Hi. unfold updf. destruct (Nat.eqb_spec i 0) as [->|N]; [now rewrite Hb0|]. now rewrite Hbi by lia. }
    unfold hermite_right in Hbe. replace (S (S (S m)) - 1)%nat with (S (S m)) in * by lia.
    replace (S (S (S m)) - 2)%nat with (S m) in * by lia. replace (S (S (S m)) - 3)%nat with m in * by lia.
    destruct right; cbn [right_condition]; replace (S (S (S m)) - 1)%nat with (S (S m)) by lia.
    + replace lv with lv by reflexivity. injection Hbe as Hbe _. replace rv with (sb s (S (S m))) by (rewrite Sb, Hbe; reflexivity). rewrite <- F2. apply first_at; auto; lia.
    + injection Hbe as Hbe Hce. replace rv with (2 * sc s (S (S m))) by (rewrite Sce, Hce; lra). rewrite <- F2. apply second_at; auto; [lia|].
      apply right_curv_ok; auto; [lia|]. unfold P2. rewrite F2, Sce, Sd, Sc by lia. rewrite Hce, Hbe, Ub by lia. replace 0.5 with (1 / 2) by lra. field. lra.
    + assert (4 <= S (S (S m)))%nat by (apply B; auto). injection Hbe as Hbe Hce.
      replace (S (S (S m)) - 2)%nat with (S m) by lia. replace (S (S (S m)) - 3)%nat with m by lia. rewrite <- F2. apply third_same; auto; [lia|].
      rewrite !Sd, !Sc by lia. rewrite Hbe, !Ub by lia. field. lra.
Qed.

Lemma hermite_slopes n x y left lv right rv : abscissae n x left right ->
  exists s, set_points n x y cspline_hermite left lv right rv = Some s /\
    forall i, (S (S i) < n)%nat -> exists m, derivable_pt_lim (eval s) (x (S i)) m /\
      parabola_slope (x i) (y i) (x (S i)) (y (S i)) (x (S (S i))) (y (S (S i))) m.
Proof.
  intro Ab. destruct (set_points_glued n x y cspline_hermite left lv right rv Ab) as (s & E & F2 & F3 & F1 & F4 & F5 & G & SM & _).
  specialize (SM ltac:(discriminate)). exists s. split; [exact E|].
  unfold set_points in E. rewrite (proj2 (points_ok_iff _ _ _ _) Ab) in E. injection E as Es.
  destruct (hermite_form n x y left lv right rv) as (b & ce & Hf & _ & Hbi & _). rewrite Hf in Es.
  destruct Ab as (A & B & C). intros i Hi. exists (sb s (S i)). split; [rewrite <- F2; apply first_at; auto; lia|].
  replace (sb s (S i)) with (b (S i)) by (rewrite <- Es; reflexivity). rewrite Hbi by lia. unfold hermite_slope.
  replace (S i + 1)%nat with (S (S i)) by lia. replace (S i - 1)%nat with i by lia.
  pose proof (C i ltac:(lia)) as I0. pose proof (C (S i) ltac:(lia)) as I1.
  set (a := x i) in *. set (bb := x (S i)) in *. set (c := x (S (S i))) in *. set (u := y i). set (v := y (S i)). set (w := y (S (S i))).
  set (d1 := (v - u) / (bb - a)). set (r := ((w - v) / (c - bb) - d1) / (c - a)).
  exists (u - d1 * a + r * a * bb), (d1 - r * (a + bb)), r. unfold r, d1. repeat split; field; lra.
Qed.

Lemma cspline_one_cubic_left n x y lv right rv : abscissae n x not_a_knot right ->
  exists s, set_points n x y cspline not_a_knot lv right rv = Some s /\ one_cubic (eval s) (x 0%nat) (x 2%nat).
Proof.
  intro Ab. destruct (cspline_left n x y not_a_knot lv right rv Ab ltac:(auto)) as (s & E & _). exists s. split; [exact E|].
  destruct n as [|[|[|m]]]; try (destruct Ab; lia).
  destruct (cspline_ok m x y not_a_knot lv right rv Ab) as (s' & c & E1 & Ec & Ec0 & Ed & Eb & Ebl & Hin & HL & HR).
  assert (s' = s). { unfold set_points in E. rewrite (proj2 (points_ok_iff _ _ _ _) Ab) in E. congruence. } subst s'.
  destruct (cspline_glued m x y _ lv right rv s Ab E1) as (G & SM & S2). destruct (set_points_frame _ _ _ _ _ _ _ _ _ E) as (F1 & F2 & F3 & F4 & F5 & _).
  destruct Ab as (A & B & C). pose proof (C 0%nat ltac:(lia)) as I0. pose proof (C 1%nat ltac:(lia)) as I1.
  assert (4 <= S (S (S m)))%nat by (apply B; auto). rewrite <- F2. apply (same_cubic s G SM 0); [lia| |apply S2; [lia|left; lia]].
  cbn in HL. rewrite Ed. unfold updf. destruct (Nat.eqb_spec 0 (S (S m))); [lia|]. destruct (Nat.eqb_spec 1 (S (S m))); [lia|]. unfold cspline_d. cbn [Nat.add].
  assert (HL' : - (x 2%nat - x 1%nat) * c 0%nat + (x 2%nat - x 0%nat) * c 1%nat + - (x 1%nat - x 0%nat) * c 2%nat = 0) by (rewrite HL; now destruct (is_nak right)).
  apply Rmult_eq_reg_r with (3 * (x 1%nat - x 0%nat) * (x 2%nat - x 1%nat)); [|nra]. field_simplify; lra.
Qed.
Lemma cspline_one_cubic_right n x y left lv rv : abscissae n x left not_a_knot ->
  exists s, set_points n x y cspline left lv not_a_knot rv = Some s /\ one_cubic (eval s) (x (n - 3)%nat) (x (n - 1)%nat).
Proof.
  intro Ab. destruct (cspline_right n x y left lv not_a_knot rv Ab) as (s & E & _). exists s. split; [exact E|].
  destruct n as [|[|[|m]]]; try (destruct Ab; lia).
  destruct (cspline_ok m x y left lv not_a_knot rv Ab) as (s' & c & E1 & Ec & Ec0 & Ed & Eb & Ebl & Hin & HL & HR).
  assert (s' = s). { unfold set_points in E. rewrite (proj2 (points_ok_iff _ _ _ _) Ab) in E. congruence. } subst s'.
  destruct (cspline_glued m x y left lv _ rv s Ab E1) as (G & SM & S2). destruct (set_points_frame _ _ _ _ _ _ _ _ _ E) as (F1 & F2 & F3 & F4 & F5 & _).
  destruct Ab as (A & B & C). pose proof (C m ltac:(lia)) as I0. pose proof (C (S m) ltac:(lia)) as I1.
  assert (4 <= S (S (S m)))%nat by (apply B; auto). replace (S (S (S m)) - 3)%nat with m by lia. replace (S (S (S m)) - 1)%nat with (S (S m)) by lia. rewrite <- F2.
  apply (same_cubic s G SM m); [lia| |apply S2; [lia|left; lia]].
  unfold right_entry in HR. rewrite !Nat.eqb_refl in HR. destruct (Nat.eqb_spec (S m) m); [lia|]. destruct (Nat.eqb_spec (S (S m)) m); [lia|]. destruct (Nat.eqb_spec (S (S m)) (S m)); [lia|].
  cbn [right_rhs] in HR. rewrite Ed. unfold updf. destruct (Nat.eqb_spec m (S (S m))); [lia|]. destruct (Nat.eqb_spec (S m) (S (S m))); [lia|].
  unfold cspline_d. replace (m + 1)%nat with (S m) by lia. replace (S m + 1)%nat with (S (S m)) by lia.
  apply Rmult_eq_reg_r with (3 * (x (S m) - x m) * (x (S (S m)) - x (S m))); [|nra]. field_simplify; lra.
Qed.

Lemma second_unique g t v w : second_derivative_at g t v -> second_derivative_at g t w -> v = w.
Proof.
  intros (g1 & A1 & B1) (g2 & A2 & B2). assert (E : forall u, g1 u = g2 u) by (intro u; exact (uniqueness_limite g u _ _ (A1 u) (A2 u))).
  apply (uniqueness_limite g1 t); [exact B1|]. apply (dl_ext g2 g1); [intro; now rewrite E|exact B2].
Qed.

(** ** make_monotonic *)
Lemma Rle_b_true a b : Rle_b a b = true <-> a <= b.
Proof. unfold Rle_b. destruct (Rle_dec a b); split; congruence || tauto || lra. Qed.
Lemma Rlt_b_true a b : Rlt_b a b = true <-> a < b.
Proof. unfold Rlt_b. destruct (Rlt_dec a b); split; congruence || tauto || lra. Qed.
Lemma Req_b_true a b : Req_b a b = true <-> a = b.
Proof. unfold Req_b. destruct (Req_EM_T a b); split; congruence || tauto || lra. Qed.
Lemma for_pure_inv {St} (body : nat -> St -> St) (P : nat -> St -> Prop) a cnt s :
  P a s -> (forall i s, (a <= i < a + cnt)%nat -> P i s -> P (S i) (body i s)) -> P (a + cnt)%nat (for_pure body a cnt s).
Proof.
  revert a s. induction cnt as [|cnt IH]; intros a s H0 H; cbn [for_pure]; [now rewrite Nat.add_0_r|].
  replace (a + S cnt)%nat with (S a + cnt)%nat by lia. apply IH; [apply H; [lia|exact H0]|intros i s' Hi; apply H; lia].
Qed.

Lemma div_nonneg a b : 0 <= a -> 0 < b -> 0 <= a / b.
Proof. intros A B. unfold Rdiv. apply Rmult_le_pos; [exact A|]. left. now apply Rinv_0_lt_compat. Qed.
Section Mono.
  Variables (n : nat) (x y b0 : nat -> R).
  (** slopes after the first loop *)
  Let st1 := for_pure (mono_sign n y) 0 n (false, b0).
  Let b1 := snd st1.
  Definition up_at i := y (i - 1)%nat <= y i /\ y i <= y (Nat.min (i + 1) (n - 1)).
  Definition down_at i := y i <= y (i - 1)%nat /\ y (Nat.min (i + 1) (n - 1)) <= y i.
  Lemma first_loop : (fst st1 = false -> forall i, b1 i = b0 i) /\
    forall i, (i < n)%nat -> (up_at i -> 0 <= b1 i) /\ (down_at i -> b1 i <= 0).
  Proof.
    assert (H : (fst st1 = false -> forall i, b1 i = b0 i) /\ (forall i, (i < 0 + n)%nat -> (up_at i -> 0 <= b1 i) /\ (down_at i -> b1 i <= 0))).
    { unfold b1, st1. apply (for_pure_inv (mono_sign n y) (fun k st => (fst st = false -> forall i, snd st i = b0 i) /\
        forall i, (i < k)%nat -> (up_at i -> 0 <= snd st i) /\ (down_at i -> snd st i <= 0))); [split; [auto|lia]|].
      intros k (md & b) Hk (A & B). cbn [fst snd] in *. unfold mono_sign.
      destruct (_ || _) eqn:T; cbn [fst snd].
      - split; [discriminate|]. intros i Hi. unfold updf. destruct (Nat.eqb_spec i k) as [->|N]; [lra|]. apply B. lia.
      - split; [exact A|]. intros i Hi. destruct (Nat.eq_dec i k) as [->|N]; [|apply B; lia].
        apply orb_false_iff in T as (T1 & T2). split.
        + intros (U1 & U2). apply Rnot_lt_le. intro L. rewrite (proj2 (Rle_b_true _ _) U1), (proj2 (Rle_b_true _ _) U2) in T1. cbn in T1.
          apply Rlt_b_true in L. congruence.
        + intros (U1 & U2). apply Rnot_lt_le. intro L. rewrite (proj2 (Rle_b_true _ _) U1), (proj2 (Rle_b_true _ _) U2) in T2. cbn in T2.
          apply Rlt_b_true in L. congruence. }
    destruct H as (A & B). split; [exact A|]. intros i Hi. apply B. lia.
  Qed.

  Definition avg i := (y (i + 1)%nat - y i) / (x (i + 1)%nat - x i).
  Definition limited (b : nat -> R) i : Prop :=
    (avg i = 0 -> b i = 0 /\ b (i + 1)%nat = 0) /\
    (0 < avg i -> 0 <= b1 i -> 0 <= b1 (i + 1)%nat -> b i ^ 2 + b (i + 1)%nat ^ 2 <= 9 * avg i ^ 2) /\
    (avg i < 0 -> b1 i <= 0 -> b1 (i + 1)%nat <= 0 -> b i ^ 2 + b (i + 1)%nat ^ 2 <= 9 * avg i ^ 2).
  Definition shrunk (b : nat -> R) : Prop := forall j, exists l, 0 <= l <= 1 /\ b j = l * b1 j.
  Lemma shrunk_sign b j : shrunk b -> (0 <= b1 j -> 0 <= b j) /\ (b1 j <= 0 -> b j <= 0).
  Proof. intro S. destruct (S j) as (l & L & ->). split; nra. Qed.
  Lemma upd2 b k u v j : updf (updf b k u) (k + 1) v j = if Nat.eqb j (k + 1) then v else if Nat.eqb j k then u else b j.
  Proof. reflexivity. Qed.
  Lemma limited_scaled b b' l k i : 0 <= l <= 1 -> (i < k)%nat -> b' k = l * b k -> (forall j, (j < k)%nat -> b' j = b j) -> limited b i -> limited b' i.
  Proof.
    intros L Hi Ek Ej (A & B & C).
    assert (E1 : b' i = b i) by (apply Ej; exact Hi).
    assert (E2 : exists q, 0 <= q <= 1 /\ b' (i + 1)%nat = q * b (i + 1)%nat).
    { destruct (Nat.eq_dec (i + 1) k) as [->|N]; [exists l; auto|]. exists 1. split; [lra|]. rewrite Ej by lia. ring. }
    destruct E2 as (q & Q & E2). unfold limited. rewrite E1, E2.
    assert (S : (q * b (i + 1)%nat) ^ 2 <= b (i + 1)%nat ^ 2).
    { replace ((q * b (i + 1)%nat) ^ 2) with (q ^ 2 * b (i + 1)%nat ^ 2) by ring. pose proof (pow2_ge_0 (b (i + 1)%nat)). assert (q ^ 2 <= 1) by nra.
      rewrite <- (Rmult_1_l (b (i + 1)%nat ^ 2)) at 2. now apply Rmult_le_compat_r. }
    split; [|split].
    - intro Z. destruct (A Z) as (-> & ->). lra.
    - intros P X Y. specialize (B P X Y). lra.
    - intros P X Y. specialize (C P X Y). lra.
  Qed.

  Lemma second_loop (INC : forall i, (S i < n)%nat -> x i < x (S i)) : let st2 := for_pure (mono_limit x y) 0 (n - 1) st1 in
    (fst st2 = false -> fst st1 = false /\ forall i, snd st2 i = b1 i) /\ shrunk (snd st2) /\ forall i, (i < n - 1)%nat -> limited (snd st2) i.
  Proof.
    cbn zeta.
    assert (H : let st2 := for_pure (mono_limit x y) 0 (n - 1) st1 in
      (fst st2 = false -> fst st1 = false /\ forall i, snd st2 i = b1 i) /\ shrunk (snd st2) /\ forall i, (i < 0 + (n - 1))%nat -> limited (snd st2) i).
    2:{ cbn zeta in H. destruct H as (A & B & C). split; [exact A|]. split; [exact B|]. intros i Hi. apply C. lia. }
    cbn zeta. apply (for_pure_inv (mono_limit x y) (fun k st => (fst st = false -> fst st1 = false /\ forall i, snd st i = b1 i) /\ shrunk (snd st) /\
      forall i, (i < k)%nat -> limited (snd st) i)).
    - split; [intro E; split; [exact E|reflexivity]|]. split; [intro j; exists 1; split; [lra|unfold b1; ring]|lia].
    - intros k (md & b) Hk (A & Sh & B). cbn [fst snd] in *. unfold mono_limit. fold (avg k).
      destruct (Req_b (avg k) 0 && (negb (Req_b (b k) 0) || negb (Req_b (b (k + 1)%nat) 0))) eqn:T1; cbn [fst snd].
      + apply andb_prop in T1 as (T1 & _). apply Req_b_true in T1. split; [discriminate|]. split.
        * intro j. rewrite upd2. destruct (Nat.eqb_spec j (k + 1)); [exists 0; split; [lra|ring]|]. destruct (Nat.eqb_spec j k); [exists 0; split; [lra|ring]|]. apply Sh.
        * intros i Hi. destruct (Nat.eq_dec i k) as [->|N].
          -- unfold limited. rewrite T1, !upd2, !Nat.eqb_refl. destruct (Nat.eqb_spec k (k + 1)); [lia|]. repeat split; lra.
          -- apply (limited_scaled b _ 0 k i); [lra|lia| | |apply B; lia].
             ++ rewrite upd2. destruct (Nat.eqb_spec k (k + 1)); [lia|]. rewrite Nat.eqb_refl. ring.
             ++ intros j Hj. rewrite upd2. destruct (Nat.eqb_spec j (k + 1)); [lia|]. destruct (Nat.eqb_spec j k); [lia|]. reflexivity.
      + assert (Z : avg k = 0 -> b k = 0 /\ b (k + 1)%nat = 0).
        { intro Z. rewrite (proj2 (Req_b_true _ _) Z) in T1. cbn in T1. apply orb_false_iff in T1 as (X & Y). apply negb_false_iff in X, Y. now apply Req_b_true in X, Y. }
        destruct ((Rle_b 0 (b k) && Rle_b 0 (b (k + 1)%nat) && Rlt_b 0 (avg k)) || (Rle_b (b k) 0 && Rle_b (b (k + 1)%nat) 0 && Rlt_b (avg k) 0)) eqn:T2.
        * assert (NZ : avg k <> 0).
          { apply orb_prop in T2 as [T|T]; apply andb_prop in T as (_ & T); apply Rlt_b_true in T; lra. }
          set (q := b k * b k + b (k + 1)%nat * b (k + 1)%nat). set (r := sqrt q / Rabs (avg k)).
          assert (Q : 0 <= q) by (unfold q; nra). pose proof (Rabs_pos_lt _ NZ) as Pa.
          assert (Er : r ^ 2 * avg k ^ 2 = q).
          { unfold r. replace ((sqrt q / Rabs (avg k)) ^ 2) with (sqrt q ^ 2 / Rabs (avg k) ^ 2) by (field; lra). rewrite pow2_sqrt by exact Q.
            rewrite <- (pow2_abs (avg k)). field. lra. }
          assert (Rp : 0 <= r) by (unfold r; apply div_nonneg; [apply sqrt_pos|exact Pa]).
          destruct (Rlt_b 3 r) eqn:T3; cbn [fst snd].
          -- apply Rlt_b_true in T3. assert (L : 0 <= 3 / r <= 1).
             { split; [apply div_nonneg; lra|]. apply Rmult_le_reg_r with r; [lra|]. unfold Rdiv. rewrite Rmult_assoc, Rinv_l by lra. lra. }
             assert (Ev : forall j, updf (updf b k (b k * (3 / r))) (k + 1) (updf b k (b k * (3 / r)) (k + 1)%nat * (3 / r)) j =
                 if Nat.eqb j (k + 1) then 3 / r * b j else if Nat.eqb j k then 3 / r * b j else b j).
             { intro j. rewrite upd2. unfold updf. destruct (Nat.eqb_spec (k + 1) k); [lia|]. destruct (Nat.eqb_spec j (k + 1)) as [->|]; [ring|]. destruct (Nat.eqb_spec j k) as [->|]; [ring|reflexivity]. }
             split; [discriminate|]. split.
             ++ intro j. rewrite Ev. destruct (Sh j) as (l & Ll & El). destruct (Nat.eqb j (k + 1)), (Nat.eqb j k); rewrite El; first [exists (3 / r * l); split; [nra|ring] | exists l; split; [exact Ll|ring]].
             ++ intros i Hi. destruct (Nat.eq_dec i k) as [->|N].
                ** assert (V : (3 / r * b k) ^ 2 + (3 / r * b (k + 1)%nat) ^ 2 <= 9 * avg k ^ 2).
                   { apply Req_le. transitivity ((3 / r) ^ 2 * q); [unfold q; ring|]. rewrite <- Er. field. lra. }
                   unfold limited. rewrite !Ev, !Nat.eqb_refl. destruct (Nat.eqb_spec k (k + 1)); [lia|]. split; [intro; contradiction|]. split; intros; exact V.
                ** apply (limited_scaled b _ (3 / r) k i); [exact L|lia| | |apply B; lia].
                   --- rewrite Ev. rewrite Nat.eqb_refl. now destruct (Nat.eqb_spec k (k + 1)).
                   --- intros j Hj. rewrite Ev. destruct (Nat.eqb_spec j (k + 1)); [lia|]. destruct (Nat.eqb_spec j k); [lia|]. reflexivity.
          -- split; [exact A|]. split; [exact Sh|]. intros i Hi. destruct (Nat.eq_dec i k) as [->|N]; [|apply B; lia].
             assert (r <= 3). { apply Rnot_lt_le. intro X. apply Rlt_b_true in X. congruence. }
             assert (V : b k ^ 2 + b (k + 1)%nat ^ 2 <= 9 * avg k ^ 2).
             { replace (b k ^ 2 + b (k + 1)%nat ^ 2) with q by (unfold q; ring). rewrite <- Er. pose proof (pow2_ge_0 (avg k)). apply Rmult_le_compat_r; [assumption|]. replace 9 with (3 ^ 2) by lra. apply pow_incr. now split. }
             split; [exact Z|]. split; intros; exact V.
        * cbn [fst snd]. split; [exact A|]. split; [exact Sh|]. intros i Hi. destruct (Nat.eq_dec i k) as [->|N]; [|apply B; lia].
          apply orb_false_iff in T2 as (T2 & T3). destruct (shrunk_sign b k Sh) as (S1 & S2). destruct (shrunk_sign b (k + 1) Sh) as (S3 & S4).
          split; [exact Z|]. split.
          -- intros P X Y. rewrite (proj2 (Rle_b_true _ _) (S1 X)), (proj2 (Rle_b_true _ _) (S3 Y)), (proj2 (Rlt_b_true _ _) P) in T2. discriminate T2.
          -- intros P X Y. rewrite (proj2 (Rle_b_true _ _) (S2 X)), (proj2 (Rle_b_true _ _) (S4 Y)), (proj2 (Rlt_b_true _ _) P) in T3. discriminate T3.
  Qed.
End Mono.

(** the criterion *)
Lemma mono_poly a b g s : 0 <= s <= 1 -> 0 <= a -> 0 <= b -> 0 <= g -> a ^ 2 + b ^ 2 <= 9 * g ^ 2 ->
  0 <= a * ((1 - s) * (1 - 3 * s)) + b * (s * (3 * s - 2)) + 6 * g * (s * (1 - s)).
Proof.
  intros S A B G H. assert (A3 : a <= 3 * g) by (apply Rsqr_incr_0; unfold Rsqr; nra). assert (B3 : b <= 3 * g) by (apply Rsqr_incr_0; unfold Rsqr; nra).
  destruct (Rle_lt_dec s (1 / 3)) as [L|L].
  - assert (0 <= a * ((1 - s) * (1 - 3 * s))) by (apply Rmult_le_pos; [lra|apply Rmult_le_pos; lra]).
    assert (3 * g * (s * (3 * s - 2)) <= b * (s * (3 * s - 2))). { assert (s * (3 * s - 2) <= 0) by nra. nra. }
    assert (0 <= g * s ^ 2) by (apply Rmult_le_pos; [lra|apply pow2_ge_0]). nra.
  - destruct (Rle_lt_dec (2 / 3) s) as [L2|L2].
    + assert (0 <= b * (s * (3 * s - 2))) by (apply Rmult_le_pos; [lra|apply Rmult_le_pos; lra]).
      assert (3 * g * ((1 - s) * (1 - 3 * s)) <= a * ((1 - s) * (1 - 3 * s))). { assert ((1 - s) * (1 - 3 * s) <= 0) by nra. nra. }
      assert (0 <= g * (1 - s) ^ 2) by (apply Rmult_le_pos; [lra|apply pow2_ge_0]). nra.
    + set (p := (1 - s) * (3 * s - 1)). set (q := s * (2 - 3 * s)).
      assert (P : 0 <= p) by (unfold p; apply Rmult_le_pos; lra). assert (Q : 0 <= q) by (unfold q; apply Rmult_le_pos; lra).
      assert (PQ : p ^ 2 + q ^ 2 <= 4 * (s * (1 - s)) ^ 2).
      { unfold p, q. set (u := s - 1 / 2). assert (U : - (1 / 6) < u < 1 / 6) by (unfold u; lra). replace s with (u + 1 / 2) by (unfold u; ring).
        assert (U2 : u ^ 2 <= 1 / 36) by nra. assert (U4 : u ^ 2 * u ^ 2 <= 1 / 36 * (1 / 36)) by (pose proof (pow2_ge_0 u); nra).
        match goal with |- ?l <= ?r => assert (E : r - l = 1 / 8 - u ^ 2 - 14 * (u ^ 2 * u ^ 2)) by field end. lra. }
      assert (K : a * p + b * q <= 6 * g * (s * (1 - s))).
      { apply Rsqr_incr_0.
        - unfold Rsqr. apply Rle_trans with ((a ^ 2 + b ^ 2) * (p ^ 2 + q ^ 2)).
          + pose proof (pow2_ge_0 (a * q - b * p)). nra.
          + apply Rle_trans with (9 * g ^ 2 * (4 * (s * (1 - s)) ^ 2)); [|apply Req_le; ring].
            apply Rmult_le_compat; try assumption; pose proof (pow2_ge_0 a); pose proof (pow2_ge_0 b); pose proof (pow2_ge_0 p); pose proof (pow2_ge_0 q); lra.
        - assert (0 <= a * p) by (now apply Rmult_le_pos). assert (0 <= b * q) by (now apply Rmult_le_pos). lra.
        - assert (0 <= s * (1 - s)) by (apply Rmult_le_pos; lra). nra. }
      replace (a * ((1 - s) * (1 - 3 * s))) with (- (a * p)) by (unfold p; ring). replace (b * (s * (3 * s - 2))) with (- (b * q)) by (unfold q; ring). lra.
Qed.

Lemma mono_form s : glued s -> smooth s -> let s' := snd (make_monotonic s) in
  glued s' /\ smooth s' /\ sn s' = sn s /\ sx s' = sx s /\ sy s' = sy s /\
  (forall i, (i < sn s)%nat -> (up_at (sn s) (sy s) i -> 0 <= sb s' i) /\ (down_at (sn s) (sy s) i -> sb s' i <= 0)) /\
  (forall i, (S i < sn s)%nat -> avg (sx s) (sy s) i = 0 -> sb s' i = 0 /\ sb s' (S i) = 0) /\
  (forall i, (S i < sn s)%nat -> 0 < avg (sx s) (sy s) i -> up_at (sn s) (sy s) i -> up_at (sn s) (sy s) (S i) -> sb s' i ^ 2 + sb s' (S i) ^ 2 <= 9 * avg (sx s) (sy s) i ^ 2) /\
  (forall i, (S i < sn s)%nat -> avg (sx s) (sy s) i < 0 -> down_at (sn s) (sy s) i -> down_at (sn s) (sy s) (S i) -> sb s' i ^ 2 + sb s' (S i) ^ 2 <= 9 * avg (sx s) (sy s) i ^ 2).
Proof.
  intros G SM. cbn zeta. unfold make_monotonic.
  destruct (first_loop (sn s) (sy s) (sb s)) as (A1 & A2). destruct (second_loop (sn s) (sx s) (sy s) (sb s) (g_inc s G)) as (B1 & B2 & B3).
  set (st1 := for_pure (mono_sign (sn s) (sy s)) 0 (sn s) (false, sb s)) in *.
  destruct (for_pure (mono_limit (sx s) (sy s)) 0 (sn s - 1) st1) as (md & b) eqn:E2. cbn [fst snd] in *.
  set (s0 := mkSpline _ _ _ _ _ _ _ _ _).
  assert (K : exists s', snd (if md then (true, set_coeffs_from_b s0) else (false, s0)) = s' /\ glued s' /\ smooth s' /\ sn s' = sn s /\ sx s' = sx s /\ sy s' = sy s /\ sb s' = b).
  { destruct md; cbn [snd]; eexists; (split; [reflexivity|]).
    - destruct (from_b_glued s0) as (X & Y); [exact (g_n s G)|exact (g_inc s G)|exact (g_d s G)|]. split; [exact X|]. split; [exact Y|]. repeat split.
    - destruct (B1 eq_refl) as (F & Eb). specialize (A1 F). assert (Eq : forall i, b i = sb s i) by (intro i; now rewrite Eb, A1).
      split; [|split; [|repeat split]].
      + constructor; cbn; [exact (g_n s G)|exact (g_inc s G)|exact (g_d s G)|]. intros i Hi. rewrite Eq. exact (g_0 s G i Hi).
      + intros i Hi. cbn in *. rewrite !Eq. exact (SM i Hi). }
  destruct K as (s' & -> & K1 & K2 & K3 & K4 & K5 & ->). do 5 (split; [assumption|]). split; [|split; [|split]].
  - intros i Hi. destruct (A2 i Hi) as (U & D). destruct (shrunk_sign (sn s) (sy s) (sb s) b i B2) as (S1 & S2). auto.
  - intros i Hi Z. destruct (B3 i ltac:(lia)) as (L & _). rewrite Nat.add_1_r in L. now apply L.
  - intros i Hi P U1 U2. destruct (B3 i ltac:(lia)) as (_ & L & _). rewrite Nat.add_1_r in L. apply L; [exact P|apply A2; [lia|exact U1]|apply A2; [lia|exact U2]].
  - intros i Hi P U1 U2. destruct (B3 i ltac:(lia)) as (_ & _ & L). rewrite Nat.add_1_r in L. apply L; [exact P|apply A2; [lia|exact U1]|apply A2; [lia|exact U2]].
Qed.

Lemma slope_poly s i t : glued s -> smooth s -> (S i < sn s)%nat ->
  let h := sx s (S i) - sx s i in let g := avg (sx s) (sy s) i in let w := (t - sx s i) / h in
  P1 s (S i) t = sb s i * ((1 - w) * (1 - 3 * w)) + sb s (S i) * (w * (3 * w - 2)) + 6 * g * (w * (1 - w)).
Proof.
  intros G SM Hi h g w. pose proof (g_inc s G i Hi) as I. assert (Ph : 0 < h) by (unfold h; lra).
  pose proof (g_0 s G i Hi) as E0. pose proof (SM i Hi) as E1. cbn [P0 P1] in *. fold h in E0, E1.
  assert (Et : t - sx s i = w * h) by (unfold w; field; lra). rewrite Et.
  assert (Eg : g * h = sy s (S i) - sy s i). { unfold g, avg, h. rewrite Nat.add_1_r. field. lra. }
  assert (X0 : sd s i * h * h + sc s i * h + sb s i = g). { apply Rmult_eq_reg_r with h; [|lra]. rewrite Eg, <- E0. ring. }
  assert (X1 : 3 * (sd s i * h * h) + 2 * (sc s i * h) + sb s i = sb s (S i)) by (rewrite <- E1; ring).
  replace ((3 * sd s i * (w * h) + 2 * sc s i) * (w * h) + sb s i) with (3 * (sd s i * h * h) * (w * w) + 2 * (sc s i * h) * w + sb s i) by ring.
  replace (sd s i * h * h) with (sb s i + sb s (S i) - 2 * g) by lra. replace (sc s i * h) with (3 * g - 2 * sb s i - sb s (S i)) by lra. ring.
Qed.

Lemma mvt_up (P P' : R -> R) a b : (forall u, dl P u (P' u)) -> (forall u, a <= u <= b -> 0 <= P' u) -> forall u v, a <= u -> u <= v -> v <= b -> P u <= P v.
Proof.
  intros D N u v Hu Huv Hv. destruct (Req_dec u v) as [->|Ne]; [lra|]. destruct (MVT_cor2 P P' u v ltac:(lra) (fun c _ => D c)) as (c & Ec & Hc).
  specialize (N c ltac:(lra)). assert (0 <= P' c * (v - u)) by (apply Rmult_le_pos; lra). lra.
Qed.

Lemma avg_sign x y i : x i < x (S i) -> (y i <= y (S i) -> 0 <= avg x y i) /\ (y (S i) <= y i -> avg x y i <= 0).
Proof.
  intro I. unfold avg. rewrite Nat.add_1_r. split; intro H; [apply div_nonneg; lra|].
  apply Ropp_le_cancel. rewrite Ropp_0. replace (- ((y (S i) - y i) / (x (S i) - x i))) with ((y i - y (S i)) / (x (S i) - x i)) by (field; lra). apply div_nonneg; lra.
Qed.

Lemma mono_interval s i : glued s -> smooth s -> (S i < sn s)%nat ->
  (up_at (sn s) (sy s) i -> up_at (sn s) (sy s) (S i) -> nondecreasing_on (eval (snd (make_monotonic s))) (sx s i) (sx s (S i))) /\
  (down_at (sn s) (sy s) i -> down_at (sn s) (sy s) (S i) -> nonincreasing_on (eval (snd (make_monotonic s))) (sx s i) (sx s (S i))).
Proof.
  intros G SM Hi. destruct (mono_form s G SM) as (G' & SM' & En & Ex & Ey & HS & HZ & HU & HD). set (s' := snd (make_monotonic s)) in *.
  pose proof (g_inc s G i Hi) as I. assert (Hi' : (S i < sn s')%nat) by now rewrite En.
  destruct (avg_sign (sx s) (sy s) i I) as (SG1 & SG2).
  assert (W : forall t, sx s i <= t <= sx s (S i) -> 0 <= (t - sx s i) / (sx s (S i) - sx s i) <= 1).
  { intros t Ht. split; [apply div_nonneg; lra|]. apply Rmult_le_reg_r with (sx s (S i) - sx s i); [lra|]. unfold Rdiv. rewrite Rmult_assoc, Rinv_l by lra. lra. }
  split.
  - intros U1 U2 u v Hu Huv Hv. rewrite <- Ex in *. rewrite !(on_segment s' G' i) by (auto; lra).
    apply (mvt_up (P0 s' (S i)) (P1 s' (S i)) (sx s' i) (sx s' (S i)) (P01 s' (S i))); auto.
    intros t Ht. rewrite slope_poly by auto. rewrite Ex, Ey in *. apply mono_poly.
    + now apply W. + apply HS; [lia|exact U1]. + apply HS; [lia|exact U2].
    + apply SG1. destruct U2 as (U2 & _). cbn [Nat.sub] in U2. now rewrite Nat.sub_0_r in U2.
    + destruct (Rle_lt_or_eq_dec 0 (avg (sx s) (sy s) i)) as [L|L]; [apply SG1; destruct U2 as (U2 & _); cbn [Nat.sub] in U2; now rewrite Nat.sub_0_r in U2|now apply HU|].
      destruct (HZ i Hi (eq_sym L)) as (-> & ->). rewrite <- L. lra.
  - intros U1 U2 u v Hu Huv Hv. rewrite <- Ex in *. rewrite !(on_segment s' G' i) by (auto; lra).
    apply Ropp_le_cancel. apply (mvt_up (fun t => - P0 s' (S i) t) (fun t => - P1 s' (S i) t) (sx s' i) (sx s' (S i))); auto.
    { intro t. apply (dl_opp _ _ _ (P01 s' (S i) t)). }
    intros t Ht. rewrite slope_poly by auto. rewrite Ex, Ey in *.
    assert (SGn : avg (sx s) (sy s) i <= 0). { apply SG2. destruct U2 as (U2 & _). cbn [Nat.sub] in U2. now rewrite Nat.sub_0_r in U2. }
    pose proof (mono_poly (- sb s' i) (- sb s' (S i)) (- avg (sx s) (sy s) i) ((t - sx s i) / (sx s (S i) - sx s i)) (W t Ht)) as M.
    assert (N1 : sb s' i <= 0) by (apply HS; [lia|exact U1]). assert (N2 : sb s' (S i) <= 0) by (apply HS; [lia|exact U2]).
    assert (Q : (- sb s' i) ^ 2 + (- sb s' (S i)) ^ 2 <= 9 * (- avg (sx s) (sy s) i) ^ 2).
    { replace ((- sb s' i) ^ 2) with (sb s' i ^ 2) by ring. replace ((- sb s' (S i)) ^ 2) with (sb s' (S i) ^ 2) by ring. replace ((- avg (sx s) (sy s) i) ^ 2) with (avg (sx s) (sy s) i ^ 2) by ring.
      destruct (Rle_lt_or_eq_dec _ _ SGn) as [L|L]; [now apply HD|]. destruct (HZ i Hi L) as (-> & ->). rewrite L. lra. }
    specialize (M ltac:(lra) ltac:(lra) ltac:(lra) Q). cbv beta zeta in M |- *. lra.
Qed.

Lemma mono_all s : glued s -> smooth s -> (forall i, (S i < sn s)%nat -> sy s i <= sy s (S i)) ->
  nondecreasing_on (eval (snd (make_monotonic s))) (sx s 0%nat) (sx s (sn s - 1)%nat).
Proof.
  intros G SM Y. assert (U : forall i, (i < sn s)%nat -> up_at (sn s) (sy s) i).
  { intros i Hi. split.
    - destruct i as [|i]; [cbn; lra|]. replace (S i - 1)%nat with i by lia. apply Y. exact Hi.
    - destruct (Nat.eq_dec i (sn s - 1)) as [L|L]; [replace (Nat.min (i + 1) (sn s - 1)) with i by lia; lra|].
      replace (Nat.min (i + 1) (sn s - 1)) with (S i) by lia. apply Y. lia. }
  assert (K : forall k, (k < sn s)%nat -> nondecreasing_on (eval (snd (make_monotonic s))) (sx s 0%nat) (sx s k)).
  { induction k as [|k IH]; intros Hk u v Hu Huv Hv; [replace v with u by lra; lra|].
    pose proof (g_inc s G k Hk) as I. destruct (mono_interval s k G SM Hk) as (M & _). specialize (M (U k ltac:(lia)) (U (S k) Hk)).
    specialize (IH ltac:(lia)). destruct (Rle_lt_dec v (sx s k)) as [L|L]; [now apply IH|].
    destruct (Rle_lt_dec (sx s k) u) as [L2|L2]; [now apply M|].
    apply Rle_trans with (eval (snd (make_monotonic s)) (sx s k)); [apply IH; lra|apply M; lra]. }
  apply K. pose proof (g_n s G). lia.
Qed.
Lemma mono_all_down s : glued s -> smooth s -> (forall i, (S i < sn s)%nat -> sy s (S i) <= sy s i) ->
  nonincreasing_on (eval (snd (make_monotonic s))) (sx s 0%nat) (sx s (sn s - 1)%nat).
Proof.
  intros G SM Y. assert (U : forall i, (i < sn s)%nat -> down_at (sn s) (sy s) i).
  { intros i Hi. split.
    - destruct i as [|i]; [cbn; lra|]. replace (S i - 1)%nat with i by lia. apply Y. exact Hi.
    - destruct (Nat.eq_dec i (sn s - 1)) as [L|L]; [replace (Nat.min (i + 1) (sn s - 1)) with i by lia; lra|].
      replace (Nat.min (i + 1) (sn s - 1)) with (S i) by lia. apply Y. lia. }
  assert (K : forall k, (k < sn s)%nat -> nonincreasing_on (eval (snd (make_monotonic s))) (sx s 0%nat) (sx s k)).
  { induction k as [|k IH]; intros Hk u v Hu Huv Hv; [replace v with u by lra; lra|].
    pose proof (g_inc s G k Hk) as I. destruct (mono_interval s k G SM Hk) as (_ & M). specialize (M (U k ltac:(lia)) (U (S k) Hk)).
    specialize (IH ltac:(lia)). destruct (Rle_lt_dec v (sx s k)) as [L|L]; [now apply IH|].
    destruct (Rle_lt_dec (sx s k) u) as [L2|L2]; [now apply M|].
    apply Rle_trans with (eval (snd (make_monotonic s)) (sx s k)); [apply M; lra|apply IH; lra]. }
  apply K. pose proof (g_n s G). lia.
Qed.

Lemma cspline_left_lost1 n x y lv rv : abscissae n x first_deriv not_a_knot ->
  exists s, set_points n x y cspline first_deriv lv not_a_knot rv = Some s /\ left_condition (eval s) x first_deriv ((y 1%nat - y 0%nat) / (x 1%nat - x 0%nat)).
Proof.
  intros Ab. destruct n as [|[|[|m]]]; try (destruct Ab; lia).
  destruct (cspline_ok m x y first_deriv lv not_a_knot rv Ab) as (s & c & E & Ec & Ec0 & Ed & Eb & Ebl & Hin & HL & HR).
  exists s. assert (E' : set_points (S (S (S m))) x y cspline first_deriv lv not_a_knot rv = Some s) by (unfold set_points; now rewrite (proj2 (points_ok_iff _ _ _ _) Ab)).
  split; [exact E'|]. destruct (cspline_glued m x y _ lv _ rv s Ab E) as (G & SM & S2).
  destruct (set_points_frame _ _ _ _ _ _ _ _ _ E') as (F1 & F2 & F3 & F4 & F5 & _). cbn [left_condition]. cbn [left_entry is_nak] in HL.
  destruct Ab as (A & B & C). pose proof (C 0%nat ltac:(lia)) as I0.
  rewrite <- F2. replace ((y 1%nat - y 0%nat) / (sx s 1%nat - sx s 0%nat)) with (sb s 0%nat); [apply first_at; auto; lia|].
  rewrite F2, Eb by lia. unfold cspline_b. cbn [Nat.add].
  assert (K : (2 * c 0%nat + c 1%nat) * (x 1%nat - x 0%nat) = 0) by lra.
  replace (1 / 3 * (2 * c 0%nat + c 1%nat) * (x 1%nat - x 0%nat)) with (1 / 3 * ((2 * c 0%nat + c 1%nat) * (x 1%nat - x 0%nat))) by ring. rewrite K. ring.
Qed.

Lemma cspline_c2 n x y left lv right rv : abscissae n x left right ->
  exists s, set_points n x y cspline left lv right rv = Some s /\
    forall t, (left = first_deriv -> t <> x 0%nat) -> (right = first_deriv -> t <> x (n - 1)%nat) ->
      derivable_pt_lim (deriv s 1) t (deriv s 2 t) /\ continuity_pt (deriv s 2) t.
Proof.
  intro Ab. destruct n as [|[|[|m]]]; try (destruct Ab; lia).
  destruct (cspline_ok m x y left lv right rv Ab) as (s & c & E & Ec & Ec0 & _).
  exists s. assert (E' : set_points (S (S (S m))) x y cspline left lv right rv = Some s) by (unfold set_points; now rewrite (proj2 (points_ok_iff _ _ _ _) Ab)).
  split; [exact E'|]. destruct (cspline_glued m x y _ lv _ rv s Ab E) as (G & SM & S2).
  destruct (set_points_frame _ _ _ _ _ _ _ _ _ E') as (F1 & F2 & F3 & F4 & F5 & _).
  intros t Hl Hr. assert (C : curv_ok s t).
  { apply smooth2_curv; auto.
    - rewrite Ec0, F4, Ec. destruct (is_first left); [reflexivity|]. destruct (is_first right); reflexivity.
    - rewrite F4, F2. exact Hl.
    - rewrite F5, F2, F1. exact Hr. }
  split; [now apply derivative2|now apply derivative2_continuous].
Qed.

(** an overshooting data set *)
Definition ex_x (i : nat) : R := INR i.
Definition ex_y (i : nat) : R := match i with 0%nat => 0 | 1%nat => 2 | _ => 1 end.
Lemma mono_sign_id n y i m b : ~ (y (i - 1)%nat <= y i <= y (Nat.min (i + 1) (n - 1)) /\ b i < 0) ->
  ~ (y i <= y (i - 1)%nat /\ y (Nat.min (i + 1) (n - 1)) <= y i /\ 0 < b i) -> mono_sign n y i (m, b) = (m, b).
Proof.
  intros A B. unfold mono_sign. destruct (_ || _) eqn:T; [|reflexivity]. exfalso.
  apply orb_prop in T as [T|T]; apply andb_prop in T as (T & T3); apply andb_prop in T as (T1 & T2); apply Rle_b_true in T1, T2; apply Rlt_b_true in T3; [apply A|apply B]; auto.
Qed.
Lemma mono_limit_id x y i m b : avg x y i <> 0 ->
  (0 <= b i -> 0 <= b (i + 1)%nat -> 0 < avg x y i -> b i ^ 2 + b (i + 1)%nat ^ 2 <= 9 * avg x y i ^ 2) ->
  (b i <= 0 -> b (i + 1)%nat <= 0 -> avg x y i < 0 -> b i ^ 2 + b (i + 1)%nat ^ 2 <= 9 * avg x y i ^ 2) -> mono_limit x y i (m, b) = (m, b).
Proof.
  intros NZ A B. unfold mono_limit. fold (avg x y i). destruct (Req_b (avg x y i) 0) eqn:Z; [apply Req_b_true in Z; contradiction|]. cbn [andb].
  destruct (_ || _) eqn:T; [|reflexivity].
  assert (V : b i ^ 2 + b (i + 1)%nat ^ 2 <= 9 * avg x y i ^ 2).
  { apply orb_prop in T as [T|T]; apply andb_prop in T as (T & T3); apply andb_prop in T as (T1 & T2); apply Rle_b_true in T1, T2; apply Rlt_b_true in T3; auto. }
  destruct (Rlt_b 3 _) eqn:T3; [|reflexivity]. apply Rlt_b_true in T3. exfalso. pose proof (Rabs_pos_lt _ NZ) as P.
  assert (Q : sqrt (b i * b i + b (i + 1)%nat * b (i + 1)%nat) <= 3 * Rabs (avg x y i)).
  { rewrite <- (sqrt_square (3 * Rabs (avg x y i))) by lra. apply sqrt_le_1_alt.
    replace (3 * Rabs (avg x y i) * (3 * Rabs (avg x y i))) with (9 * Rabs (avg x y i) ^ 2) by ring. rewrite pow2_abs. lra. }
  apply (Rmult_lt_compat_r (Rabs (avg x y i))) in T3; [|exact P]. unfold Rdiv in T3. rewrite Rmult_assoc, Rinv_l in T3 by lra. lra.
Qed.
Lemma overshoot : exists s, set_points 3 ex_x ex_y cspline_hermite second_deriv 0 second_deriv 0 = Some s /\
  ex_y 2%nat <= ex_y 1%nat /\ ~ nonincreasing_on (eval (snd (make_monotonic s))) (ex_x 1%nat) (ex_x 2%nat).
Proof.
  assert (Ab : abscissae 3 ex_x second_deriv second_deriv).
  { split; [lia|]. split; [intros [H|H]; discriminate|]. intros i Hi. unfold ex_x. apply lt_INR. lia. }
  destruct (set_points_glued 3 ex_x ex_y cspline_hermite second_deriv 0 second_deriv 0 Ab) as (s & E & Fx & Fy & Fn & _ & _ & G & SM & _).
  specialize (SM ltac:(discriminate)). exists s. split; [exact E|]. split; [cbn; lra|].
  assert (X0 : ex_x 0 = 0) by reflexivity. assert (X1 : ex_x 1 = 1) by reflexivity. assert (X2 : ex_x 2 = 2) by (unfold ex_x; cbn; lra).
  assert (Y0 : ex_y 0 = 0) by reflexivity. assert (Y1 : ex_y 1 = 2) by reflexivity. assert (Y2 : ex_y 2 = 1) by reflexivity.
  assert (Bs : sb s 0%nat = 11 / 4 /\ sb s 1%nat = 1 / 2 /\ sb s 2%nat = - (7 / 4)).
  { unfold set_points in E. rewrite (proj2 (points_ok_iff _ _ _ _) Ab) in E. injection E as <-.
    destruct (hermite_form 3 ex_x ex_y second_deriv 0 second_deriv 0) as (b & ce & Hf & Hb0 & Hbi & Hbe). rewrite Hf. cbn [sb set_coeffs_from_b].
    assert (S1 : hermite_slope ex_x ex_y 1 = 1 / 2) by (unfold hermite_slope; cbn [Nat.add Nat.sub]; rewrite X0, X1, X2, Y0, Y1, Y2; field).
    assert (B1 : b 1%nat = 1 / 2) by (rewrite (Hbi 1%nat) by lia; exact S1). split; [|split; [exact B1|]].
    - rewrite Hb0. cbn [Nat.sub Nat.eqb hermite_left]. rewrite S1, X0, X1, Y0, Y1. lra.
    - unfold hermite_right in Hbe. cbn [Nat.sub] in Hbe. apply (f_equal fst) in Hbe. cbn [fst] in Hbe. rewrite Hbe. unfold updf. cbn [Nat.eqb]. rewrite S1, X1, X2, Y1, Y2. lra. }
  destruct Bs as (B0 & B1 & B2).
  assert (M : make_monotonic s = (false, s)).
  { unfold make_monotonic. rewrite Fn, Fx, Fy. cbn [Nat.sub for_pure].
    rewrite (mono_sign_id 3 ex_y 0) by (intros H; rewrite B0 in H; cbn [Nat.sub Nat.add Nat.min] in H; rewrite ?Y0, ?Y1 in H; lra).
    rewrite (mono_sign_id 3 ex_y 1) by (intros H; rewrite B1 in H; cbn [Nat.sub Nat.add Nat.min] in H; rewrite ?Y0, ?Y1, ?Y2 in H; lra).
    rewrite (mono_sign_id 3 ex_y 2) by (intros H; rewrite B2 in H; cbn [Nat.sub Nat.add Nat.min] in H; rewrite ?Y0, ?Y1, ?Y2 in H; lra).
    assert (V0 : avg ex_x ex_y 0 = 2) by (unfold avg; cbn [Nat.add]; rewrite X0, X1, Y0, Y1; field).
    assert (V1 : avg ex_x ex_y 1 = - (1)) by (unfold avg; cbn [Nat.add]; rewrite X1, X2, Y1, Y2; field).
    rewrite (mono_limit_id ex_x ex_y 0) by (rewrite ?V0; cbn [Nat.add]; rewrite ?B0, ?B1; intros; lra).
    rewrite (mono_limit_id ex_x ex_y 1) by (rewrite ?V1; cbn [Nat.add]; rewrite ?B1, ?B2; intros; lra).
    destruct s; cbn in Fn, Fx, Fy |- *; subst; reflexivity. }
  rewrite M. cbn [snd]. intro N. assert (H : eval s (11 / 10) <= eval s 1) by (apply N; rewrite ?X1, ?X2; lra).
  rewrite <- X1, <- Fx, (hits s G 1) in H by (rewrite Fn; lia). rewrite Fy, Y1 in H.
  rewrite (on_segment s G 1) in H by (rewrite ?Fn, ?Fx, ?X1, ?X2; lia || lra).
  pose proof (g_0 s G 1 ltac:(rewrite Fn; lia)) as E0. pose proof (SM 1%nat ltac:(rewrite Fn; lia)) as E1. cbn [P0 P1] in *.
  rewrite Fx, Fy, X1, ?X2, ?Y1, ?Y2, ?B1, ?B2 in *. lra.
Qed.
