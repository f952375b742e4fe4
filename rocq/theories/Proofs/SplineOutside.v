(** Extrapolation and higher derivatives of the splines (C91). *)
From Coq Require Import Reals Lra Lia Arith.
From Verif.Model Require Import Spline.
From Verif.Spec Require Import SplineSpec.
From Verif.Proofs Require Import DerivLib SplineProofs SplineBoundary.
Local Open Scope R_scope.

Section S.
  Variable s : spline.
  Hypothesis G : glued s.
  Let n := sn s.
  Let e := (n - 1)%nat.
  Let N2 : (2 <= n)%nat := g_n s G.

  Lemma eval_left t : t <= sx s 0%nat -> eval s t = sy s 0%nat + sb s 0%nat * (t - sx s 0%nat) + sc0 s * (t - sx s 0%nat) ^ 2.
  Proof.
    intro H. destruct (Req_dec t (sx s 0%nat)) as [->|N]; [rewrite (hits s G) by (fold n; lia); ring|].
    rewrite (eval_P s G). rewrite U_zero by lra. cbn [P0]. ring.
  Qed.
  Lemma eval_right t : sx s e <= t -> eval s t = sy s e + sb s e * (t - sx s e) + sc s e * (t - sx s e) ^ 2.
  Proof.
    intro H. destruct (Req_dec t (sx s e)) as [->|N]; [rewrite (hits s G) by (unfold e; fold n; lia); ring|].
    rewrite (eval_P s G). rewrite (U_last s G) by (fold n; fold e; lra). fold n. rewrite P0_last by (lia || exact (g_d s G)). fold e. ring.
  Qed.
  Lemma eval_first t : sx s 0%nat <= t <= sx s 1%nat ->
    eval s t = sy s 0%nat + sb s 0%nat * (t - sx s 0%nat) + sc s 0%nat * (t - sx s 0%nat) ^ 2 + sd s 0%nat * (t - sx s 0%nat) ^ 3.
  Proof. intro H. rewrite (on_segment s G 0 t) by (fold n; lia || lra). cbn [P0]. ring. Qed.
  Lemma eval_last t : smooth s -> sx s (n - 2)%nat <= t <= sx s e ->
    eval s t = sy s e + sb s e * (t - sx s e) + P2 s e (sx s e) / 2 * (t - sx s e) ^ 2 + sd s (n - 2)%nat * (t - sx s e) ^ 3.
  Proof.
    intros SM H. assert (E : e = S (n - 2)) by (unfold e; lia). assert (L : (S (n - 2) < sn s)%nat) by (fold n; lia).
    rewrite (on_segment s G (n - 2) t L) by (rewrite <- E; exact H).
    pose proof (g_0 s G (n - 2) L) as E0. pose proof (SM (n - 2)%nat L) as E1. rewrite E, <- E0, <- E1. cbn [P0 P1 P2]. field.
  Qed.

  (** derivatives of every order between the points *)
  Definition P3 (k : nat) (u : R) : R := match k with O => 0 | S i => 6 * sd s i end.
  Lemma P3_last k t : (0 < k)%nat -> P3 k t = 6 * sd s (k - 1)%nat.
  Proof. destruct k as [|k]; [lia|]. cbn [P3 Nat.sub]. now rewrite Nat.sub_0_r. Qed.
  Lemma deriv3_P t : deriv s 3 t = P3 (ub n (sx s) t) t.
  Proof.
    unfold deriv. rewrite find_U. fold n. destruct (Rlt_dec t (sx s 0%nat)) as [L|L].
    - replace (ub n (sx s) t) with 0%nat by (symmetry; now apply U_zero). reflexivity.
    - destruct (Rlt_dec (sx s (n - 1)%nat) t) as [L2|L2].
      + replace (ub n (sx s) t) with n by (symmetry; now apply (U_last s G)). pose proof (g_d s G) as D. fold n in D. rewrite P3_last by lia. rewrite D. ring.
      + pose proof (U_pos s G t ltac:(lra)) as Q. fold n in Q. destruct (ub n (sx s) t) as [|k]; [lia|]. cbn [Nat.sub P3]. rewrite Nat.sub_0_r. reflexivity.
  Qed.
  Lemma deriv_high k t : (4 <= k)%nat -> deriv s k t = 0.
  Proof. intro H. destruct k as [|[|[|[|k]]]]; try lia. unfold deriv. destruct (Rlt_dec _ _); [reflexivity|]. destruct (Rlt_dec _ _); reflexivity. Qed.
  Lemma between_all k t : (forall i, (i < n)%nat -> t <> sx s i) ->
    derivable_pt_lim (eval s) t (deriv s 1 t) /\ derivable_pt_lim (deriv s (S k)) t (deriv s (S (S k)) t).
  Proof.
    intro H. assert (J : forall i, (i < n)%nat -> sx s i = t -> False) by (intros i Hi Q; apply (H i Hi); now symmetry). split.
    - apply (dl_ext (fun u => P0 s (ub n (sx s) u) u)); [intro; now rewrite (eval_P s G)|]. rewrite (deriv1_P s G).
      apply (piecewise_dl n (sx s) (g_inc s G) (P0 s) (P1 s)); [apply P01|]. intros i Hi Ht. destruct (J i Hi Ht).
    - destruct k as [|[|[|k]]].
      + apply (dl_ext (fun u => P1 s (ub n (sx s) u) u)); [intro; now rewrite (deriv1_P s G)|]. rewrite (deriv2_P s G).
        apply (piecewise_dl n (sx s) (g_inc s G) (P1 s) (P2 s)); [apply P12|]. intros i Hi Ht. destruct (J i Hi Ht).
      + apply (dl_ext (fun u => P2 s (ub n (sx s) u) u)); [intro; now rewrite (deriv2_P s G)|]. rewrite deriv3_P.
        apply (piecewise_dl n (sx s) (g_inc s G) (P2 s) P3).
        * intros [|i] u; unfold P2, P3; (eapply dl_eq; [dlauto|ring]).
        * intros i Hi Ht. destruct (J i Hi Ht).
      + rewrite deriv_high by lia. apply (dl_ext (fun u => P3 (ub n (sx s) u) u)); [intro; now rewrite deriv3_P|].
        change 0 with ((fun (_ : nat) (_ : R) => 0) (ub n (sx s) t) t).
        apply (piecewise_dl n (sx s) (g_inc s G) P3 (fun _ _ => 0)).
        * intros [|i] u; unfold P3; (eapply dl_eq; [dlauto|ring]).
        * intros i Hi Ht. destruct (J i Hi Ht).
      + rewrite deriv_high by lia. apply (dl_ext (fun _ => 0)); [intro; now rewrite deriv_high by lia|]. eapply dl_eq; [dlauto|reflexivity].
  Qed.
End S.

(** curvatures used outside *)
Lemma left_curvature n x y type left lv right rv s : abscissae n x left right -> type <> linear -> set_points n x y type left lv right rv = Some s ->
  sc0 s = if is_first left then 0 else sc s 0%nat.
Proof.
  intros Ab T E. destruct n as [|[|[|m]]]; try (destruct Ab; lia).
  unfold set_points in E. rewrite (proj2 (points_ok_iff _ _ _ _) Ab) in E. destruct type; [congruence| |].
  - destruct (cspline_ok m x y left lv right rv Ab) as (s' & c & E' & Ec & Ec0 & _). rewrite E in E'. injection E' as <-.
    rewrite Ec0, Ec. destruct (is_first right); [|reflexivity]. unfold updf. reflexivity.
  - destruct (hermite_form (S (S (S m))) x y left lv right rv) as (b & ce & F & _). rewrite F in E. injection E as <-. reflexivity.
Qed.
Lemma right_curvature n x y type left lv right rv s : abscissae n x left right -> type <> linear -> set_points n x y type left lv right rv = Some s ->
  sc s (n - 1)%nat = match right with first_deriv => 0 | _ => P2 s (n - 1)%nat (x (n - 1)%nat) / 2 end.
Proof.
  intros Ab T E. destruct (set_points_glued n x y type left lv right rv Ab) as (s' & E' & Fx & Fy & Fn & Fl & Fr & G & SM & S2).
  rewrite E in E'. injection E' as <-. pose proof Ab as (N3 & _ & INC).
  assert (Q : right <> first_deriv -> smooth2 s -> sc s (n - 1)%nat = P2 s (n - 1)%nat (x (n - 1)%nat) / 2).
  { intros R X. specialize (X (n - 2)%nat ltac:(lia) ltac:(right; congruence)). replace (S (n - 2)) with (n - 1)%nat in X by lia. rewrite Fx in X. lra. }
  destruct type; [congruence| |].
  - destruct right; [|apply Q; [discriminate|now apply S2]..].
    destruct n as [|[|[|m]]]; try lia. unfold set_points in E. rewrite (proj2 (points_ok_iff _ _ _ _) Ab) in E.
    destruct (cspline_ok m x y left lv first_deriv rv Ab) as (s' & c & E' & Ec & _). rewrite E in E'. injection E' as <-.
    rewrite Ec. cbn [is_first]. unfold updf. replace (S (S (S m)) - 1)%nat with (S (S m)) by lia. now rewrite Nat.eqb_refl.
  - unfold set_points in E. rewrite (proj2 (points_ok_iff _ _ _ _) Ab) in E. injection E as Es.
    destruct (hermite_form n x y left lv right rv) as (b & ce & F & B0 & Bi & Be). rewrite F in Es.
    assert (Esc : sc s (n - 1)%nat = ce) by (rewrite <- Es; cbn; unfold c_from_b; destruct (Nat.ltb_spec (n - 1) (n - 1)); [lia|]; unfold updf; now rewrite Nat.eqb_refl).
    assert (L : (n - 2 < n - 1)%nat) by lia. pose proof (INC (n - 2)%nat ltac:(lia)) as I.
    assert (E1 : (n - 1)%nat = S (n - 2)) by lia. assert (E2 : (n - 2 + 1)%nat = S (n - 2)) by lia.
    assert (EP : P2 s (n - 1)%nat (x (n - 1)%nat) / 2 =
       (b (n - 2)%nat + 2 * b (n - 1)%nat) / (x (n - 1)%nat - x (n - 2)%nat) - 3 * (y (n - 1)%nat - y (n - 2)%nat) / ((x (n - 1)%nat - x (n - 2)%nat) * (x (n - 1)%nat - x (n - 2)%nat))).
    { rewrite E1. rewrite <- Es. cbn [P2 sd sc sx set_coeffs_from_b sn sy sb]. unfold d_from_b, c_from_b. rewrite (proj2 (Nat.ltb_lt _ _) L).
      rewrite E2. field. lra. }
    rewrite Esc, EP. clear EP. unfold hermite_right in Be.
    assert (U2 : updf (hermite_slope x y) 0 (hermite_left x y (hermite_slope x y) left lv) (n - 2)%nat = b (n - 2)%nat).
    { unfold updf. destruct (Nat.eqb_spec (n - 2) 0); [lia|]. symmetry. apply Bi; lia. }
    destruct right.
    + exact (f_equal snd Be).
    + pose proof (f_equal fst Be) as Be1. pose proof (f_equal snd Be) as Be2. cbn [fst snd] in Be1, Be2. rewrite U2 in Be1. rewrite Be1, Be2. rewrite E1. replace 0.5 with (1 / 2) by lra. field. lra.
    + pose proof (f_equal fst Be) as Be1. pose proof (f_equal snd Be) as Be2. cbn [fst snd] in Be1, Be2. rewrite U2 in Be1, Be2. rewrite <- Be1 in Be2. rewrite Be2. reflexivity.
Qed.

Lemma continues n x y type left lv right rv : abscissae n x left right -> type <> linear ->
  exists s, set_points n x y type left lv right rv = Some s /\
    continues_beyond (eval s) (x 0%nat) (x 1%nat) (y 0%nat) left /\ continues_beyond (eval s) (x (n - 1)%nat) (x (n - 2)%nat) (y (n - 1)%nat) right.
Proof.
  intros Ab T. destruct (set_points_glued n x y type left lv right rv Ab) as (s & E & Fx & Fy & Fn & Fl & Fr & G & SM & _).
  specialize (SM T). exists s. split; [exact E|]. pose proof (left_curvature _ _ _ _ _ _ _ _ _ Ab T E) as CL. pose proof (right_curvature _ _ _ _ _ _ _ _ _ Ab T E) as CR.
  destruct Ab as (N3 & _ & INC). pose proof (INC 0%nat ltac:(lia)) as I0. pose proof (INC (n - 2)%nat ltac:(lia)) as I1. replace (S (n - 2)) with (n - 1)%nat in I1 by lia.
  split.
  - exists (sb s 0%nat), (sc s 0%nat), (sd s 0%nat). split; [rewrite <- Fx; apply first_at; [exact G|exact SM|lia]|]. split.
    + intros t H. rewrite (eval_first s G t) by (rewrite Fx; destruct H; lra). rewrite Fx, Fy. reflexivity.
    + intros t H. rewrite (eval_left s G t) by (rewrite Fx; destruct H; lra). rewrite Fx, Fy, CL. destruct left; reflexivity.
  - exists (sb s (n - 1)%nat), (P2 s (n - 1)%nat (x (n - 1)%nat) / 2), (sd s (n - 2)%nat). split; [rewrite <- Fx; apply first_at; [exact G|exact SM|lia]|]. split.
    + intros t H. pose proof (eval_last s G t SM) as Q. rewrite Fn, Fx, Fy in Q. apply Q. destruct H; lra.
    + intros t H. pose proof (eval_right s G t) as Q. rewrite Fn, Fx, Fy in Q. rewrite Q by (destruct H; lra). rewrite CR. destruct right; reflexivity.
Qed.

Lemma linear_chords n x y left lv right rv : abscissae n x left right ->
  exists s, set_points n x y linear left lv right rv = Some s /\
    (forall i t, (S i < n)%nat -> x i <= t <= x (S i) -> eval s t = chord x y i t) /\
    (forall t, t <= x 0%nat -> eval s t = chord x y 0 t) /\ (forall t, x (n - 1)%nat <= t -> eval s t = chord x y (n - 2) t).
Proof.
  intro Ab. destruct (set_points_glued n x y linear left lv right rv Ab) as (s & E & Fx & Fy & Fn & Fl & Fr & G & _ & _).
  exists s. split; [exact E|]. unfold set_points in E. rewrite (proj2 (points_ok_iff _ _ _ _) Ab) in E. injection E as Es.
  destruct Ab as (N3 & _ & INC).
  assert (SB : forall i, (S i < n)%nat -> sb s i = (y (S i) - y i) / (x (S i) - x i)).
  { intros i Hi. rewrite <- Es. cbn. unfold updf. destruct (Nat.eqb_spec i (n - 1)); [lia|]. now rewrite Nat.add_1_r. }
  assert (SC : forall i, sc s i = 0 /\ sd s i = 0 /\ sc0 s = 0) by (intro i; rewrite <- Es; cbn; auto).
  split; [|split].
  - intros i t Hi Ht. pose proof (on_segment s G i t ltac:(lia)) as Q. rewrite Fx in Q. rewrite (Q Ht). cbn [P0]. destruct (SC i) as (-> & -> & _). rewrite (SB i Hi), Fx, Fy. unfold chord. ring.
  - intros t Ht. pose proof (eval_left s G t) as Q. rewrite Fx, Fy in Q. rewrite (Q Ht). destruct (SC 0%nat) as (_ & _ & ->). rewrite (SB 0%nat) by lia. unfold chord. ring.
  - intros t Ht. pose proof (eval_right s G t) as Q. rewrite Fx, Fy, Fn in Q. rewrite (Q Ht). destruct (SC (n - 1)%nat) as (-> & _ & _).
    replace (sb s (n - 1)%nat) with ((y (S (n - 2)) - y (n - 2)%nat) / (x (S (n - 2)) - x (n - 2)%nat)).
    + pose proof (INC (n - 2)%nat ltac:(lia)) as I. unfold chord. replace (n - 1)%nat with (S (n - 2)) by lia. field. lra.
    + rewrite <- Es. cbn. unfold updf. rewrite Nat.eqb_refl. replace (n - 2 + 1)%nat with (S (n - 2)) by lia. reflexivity.
Qed.
