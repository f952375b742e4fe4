(** Interpolation, smoothness, boundary conditions and monotonicity of splines. *)
From Coq Require Import Reals Lra Lia List Arith Bool.
From Verif.Model Require Import Spline.
From Verif.Spec Require Import NumDerivSpec SplineSpec.
From Verif.Proofs Require Import DerivLib BandProofs CsplineProofs.
Import ListNotations.
Local Open Scope R_scope.

(** ** piecewise functions *)
Lemma ub_spec x t i cnt : let k := upper_bound x t i cnt in
  (i <= k <= i + cnt)%nat /\ (forall j, (i <= j < k)%nat -> x j <= t) /\ ((k < i + cnt)%nat -> t < x k).
Proof.
  revert i. induction cnt as [|c IH]; intro i; cbn [upper_bound].
  - cbn zeta. repeat split; try lia.
  - destruct (Rlt_dec t (x i)) as [L|L]; cbn zeta.
    + repeat split; try lia. auto.
    + destruct (IH (S i)) as (A & B & C). repeat split; try lia.
      * intros j Hj. destruct (Nat.eq_dec j i) as [->|N]; [lra|]. apply B. lia.
      * intro H. apply C. lia.
Qed.

Section Piecewise.
  Variables (n : nat) (x : nat -> R).
  Hypothesis INC : forall i, (S i < n)%nat -> x i < x (S i).
  Definition ub t := upper_bound x t 0 n.

  Lemma inc_lt i j : (i < j)%nat -> (j < n)%nat -> x i < x j.
  Proof.
    intros L. induction L as [|j L IH]; intro Hj; [now apply INC|]. apply Rlt_trans with (x j); [apply IH; lia|apply INC; lia].
  Qed.
  Lemma inc_le i j : (i <= j)%nat -> (j < n)%nat -> x i <= x j.
  Proof. intros L H. destruct (Nat.eq_dec i j) as [->|N]; [lra|]. apply Rlt_le, inc_lt; lia. Qed.
  Lemma ub_char t k : (k <= n)%nat -> (forall j, (j < k)%nat -> x j <= t) -> ((k < n)%nat -> t < x k) -> ub t = k.
  Proof.
    intros K A B. destruct (ub_spec x t 0 n) as (C & D & E). fold (ub t) in *. cbn in *.
    destruct (Nat.lt_trichotomy (ub t) k) as [L|[L|L]]; [|exact L|].
    - specialize (A _ L). specialize (E ltac:(lia)). lra.
    - specialize (D k ltac:(lia)). specialize (B ltac:(lia)). lra.
  Qed.
  Lemma ub_props t : (ub t <= n)%nat /\ (forall j, (j < ub t)%nat -> x j <= t) /\ ((ub t < n)%nat -> t < x (ub t)).
  Proof. destruct (ub_spec x t 0 n) as (C & D & E). fold (ub t) in *. split; [lia|]. split; [intros; apply D; lia|intro; apply E; lia]. Qed.
  Lemma ub_knot i : (i < n)%nat -> ub (x i) = S i.
  Proof. intro H. apply ub_char; [lia|intros j Hj; apply inc_le; lia|intro; now apply INC]. Qed.

  Lemma ub_right t : exists delta, 0 < delta /\ forall u, t <= u < t + delta -> ub u = ub t.
  Proof.
    destruct (ub_props t) as (A & B & C). destruct (Nat.eq_dec (ub t) n) as [E|N].
    - exists 1. split; [lra|]. intros u Hu. apply ub_char; [lia|intros j Hj; specialize (B j Hj); lra|lia].
    - specialize (C ltac:(lia)). exists (x (ub t) - t). split; [lra|]. intros u Hu. apply ub_char; [lia|intros j Hj; specialize (B j Hj); lra|intro; lra].
  Qed.
  Definition ubl t := match ub t with O => O | S i => if Req_EM_T (x i) t then i else S i end.
  Lemma ub_left t : exists delta, 0 < delta /\ forall u, t - delta < u < t -> ub u = ubl t.
  Proof.
    destruct (ub_props t) as (A & B & C). unfold ubl. destruct (ub t) as [|i] eqn:EU.
    - exists 1. split; [lra|]. intros u Hu. apply ub_char; [lia|lia|intro; specialize (C ltac:(lia)); lra].
    - destruct (Req_EM_T (x i) t) as [E|N].
      + destruct i as [|i].
        * exists 1. split; [lra|]. intros u Hu. apply ub_char; [lia|lia|intro; lra].
        * pose proof (INC i ltac:(lia)). exists (t - x i). split; [lra|]. intros u Hu. apply ub_char; [lia| |intro; lra].
          intros j Hj. pose proof (inc_le j i ltac:(lia) ltac:(lia)). lra.
      + pose proof (B i ltac:(lia)). exists (t - x i). split; [lra|]. intros u Hu. apply ub_char; [lia| |intro; specialize (C ltac:(lia)); lra].
        intros j Hj. pose proof (inc_le j i ltac:(lia) ltac:(lia)). lra.
  Qed.
  Lemma ubl_cases t : ubl t = ub t \/ exists i, (i < n)%nat /\ x i = t /\ ub t = S i /\ ubl t = i.
  Proof.
    unfold ubl. destruct (ub_props t) as (A & _). destruct (ub t) as [|i] eqn:EU; [now left|]. destruct (Req_EM_T (x i) t) as [E|N]; [right|now left].
    exists i. repeat split; auto; lia.
  Qed.

  (** gluing *)
  Lemma glue_dl f p q t d delta : 0 < delta -> (forall u, t <= u < t + delta -> f u = q u) -> (forall u, t - delta < u < t -> f u = p u) ->
    p t = q t -> dl p t d -> dl q t d -> dl f t d.
  Proof.
    intros D Q P E DP DQ eps He. destruct (DP eps He) as (d1 & H1). destruct (DQ eps He) as (d2 & H2).
    assert (M : 0 < Rmin delta (Rmin d1 d2)) by (repeat apply Rmin_pos; try apply cond_pos; exact D).
    exists (mkposreal _ M). intros h H0 Hh. cbn in Hh.
    assert (Hd : Rabs h < delta) by (eapply Rlt_le_trans; [exact Hh|apply Rmin_l]).
    assert (Hd1 : Rabs h < d1) by (eapply Rlt_le_trans; [exact Hh|eapply Rle_trans; [apply Rmin_r|apply Rmin_l]]).
    assert (Hd2 : Rabs h < d2) by (eapply Rlt_le_trans; [exact Hh|eapply Rle_trans; [apply Rmin_r|apply Rmin_r]]).
    apply Rabs_def2 in Hd as Hd'. destruct (Rle_lt_dec 0 h) as [G|G].
    - rewrite !Q by lra. now apply H2.
    - rewrite (P (t + h)), (Q t) by lra. rewrite <- E. now apply H1.
  Qed.
  Lemma glue_cont f p q t delta : 0 < delta -> (forall u, t <= u < t + delta -> f u = q u) -> (forall u, t - delta < u < t -> f u = p u) ->
    p t = q t -> continuity_pt p t -> continuity_pt q t -> continuity_pt f t.
  Proof.
    intros D Q P E DP DQ eps He. destruct (DP eps He) as (d1 & P1 & H1). destruct (DQ eps He) as (d2 & P2 & H2).
    exists (Rmin delta (Rmin d1 d2)). split; [repeat apply Rmin_pos; try assumption; exact D|].
    intros u (Du & Hu). cbn in *. unfold R_dist in *.
    assert (Hd : Rabs (u - t) < delta) by (eapply Rlt_le_trans; [exact Hu|apply Rmin_l]).
    assert (Hd1 : Rabs (u - t) < d1) by (eapply Rlt_le_trans; [exact Hu|eapply Rle_trans; [apply Rmin_r|apply Rmin_l]]).
    assert (Hd2 : Rabs (u - t) < d2) by (eapply Rlt_le_trans; [exact Hu|eapply Rle_trans; [apply Rmin_r|apply Rmin_r]]).
    apply Rabs_def2 in Hd as Hd'. destruct (Rle_lt_dec t u) as [G|G].
    - rewrite !Q by lra. apply H2. split; [exact Du|exact Hd2].
    - rewrite (P u), (Q t) by lra. rewrite <- E. apply H1. split; [exact Du|exact Hd1].
  Qed.

  Lemma pieces (P : nat -> R -> R) t :
    exists delta, 0 < delta /\ (forall u, t <= u < t + delta -> P (ub u) u = P (ub t) u) /\ (forall u, t - delta < u < t -> P (ub u) u = P (ubl t) u).
  Proof.
    destruct (ub_right t) as (d1 & D1 & R1). destruct (ub_left t) as (d2 & D2 & R2). exists (Rmin d1 d2). split; [now apply Rmin_pos|].
    pose proof (Rmin_l d1 d2). pose proof (Rmin_r d1 d2). split; intros u Hu; [rewrite R1 by lra|rewrite R2 by lra]; reflexivity.
  Qed.
  Lemma piecewise_dl (P dP : nat -> R -> R) t : (forall k u, dl (P k) u (dP k u)) ->
    (forall i, (i < n)%nat -> x i = t -> P i t = P (S i) t /\ dP i t = dP (S i) t) -> dl (fun u => P (ub u) u) t (dP (ub t) t).
  Proof.
    intros D G. destruct (pieces P t) as (delta & Hd & R1 & R2).
    assert (E : P (ubl t) t = P (ub t) t /\ dP (ubl t) t = dP (ub t) t).
    { destruct (ubl_cases t) as [->|(i & Hi & Hx & -> & ->)]; [auto|]. now apply G. }
    destruct E as (E1 & E2). apply (glue_dl _ (P (ubl t)) (P (ub t)) t _ delta); auto. rewrite <- E2. apply D.
  Qed.
  Lemma piecewise_cont (P : nat -> R -> R) t : (forall k u, continuity_pt (P k) u) ->
    (forall i, (i < n)%nat -> x i = t -> P i t = P (S i) t) -> continuity_pt (fun u => P (ub u) u) t.
  Proof.
    intros D G. destruct (pieces P t) as (delta & Hd & R1 & R2).
    assert (E : P (ubl t) t = P (ub t) t) by (destruct (ubl_cases t) as [->|(i & Hi & Hx & -> & ->)]; [auto|now apply G]).
    apply (glue_cont _ (P (ubl t)) (P (ub t)) t delta); auto.
  Qed.
End Piecewise.

(** ** splines as piecewise cubics *)
Definition P0 (s : spline) (k : nat) (t : R) : R :=
  match k with O => (sc0 s * (t - sx s 0%nat) + sb s 0%nat) * (t - sx s 0%nat) + sy s 0%nat
  | S i => ((sd s i * (t - sx s i) + sc s i) * (t - sx s i) + sb s i) * (t - sx s i) + sy s i end.
Definition P1 (s : spline) (k : nat) (t : R) : R :=
  match k with O => 2 * sc0 s * (t - sx s 0%nat) + sb s 0%nat
  | S i => (3 * sd s i * (t - sx s i) + 2 * sc s i) * (t - sx s i) + sb s i end.
Definition P2 (s : spline) (k : nat) (t : R) : R :=
  match k with O => 2 * sc0 s | S i => 6 * sd s i * (t - sx s i) + 2 * sc s i end.

Lemma P01 s k u : dl (P0 s k) u (P1 s k u).
Proof. destruct k as [|i]; unfold P0, P1; (eapply dl_eq; [dlauto|ring]). Qed.
Lemma P12 s k u : dl (P1 s k) u (P2 s k u).
Proof. destruct k as [|i]; unfold P1, P2; (eapply dl_eq; [dlauto|ring]). Qed.
Lemma P2c s k u : continuity_pt (P2 s k) u.
Proof.
  apply derivable_continuous_pt. exists (match k with O => 0 | S i => 6 * sd s i end). destruct k as [|i]; unfold P2; (eapply dl_eq; [dlauto|ring]).
Qed.
Lemma P0c s k u : continuity_pt (P0 s k) u.
Proof. apply derivable_continuous_pt. exists (P1 s k u). apply P01. Qed.

Lemma P0_last s n t : (0 < n)%nat -> sd s (n - 1)%nat = 0 ->
  P0 s n t = (sc s (n - 1)%nat * (t - sx s (n - 1)%nat) + sb s (n - 1)%nat) * (t - sx s (n - 1)%nat) + sy s (n - 1)%nat.
Proof. destruct n as [|k]; [lia|]. cbn [Nat.sub]. rewrite Nat.sub_0_r. intros _ D. unfold P0. rewrite D. ring. Qed.
Lemma P1_last s n t : (0 < n)%nat -> sd s (n - 1)%nat = 0 -> P1 s n t = 2 * sc s (n - 1)%nat * (t - sx s (n - 1)%nat) + sb s (n - 1)%nat.
Proof. destruct n as [|k]; [lia|]. cbn [Nat.sub]. rewrite Nat.sub_0_r. intros _ D. unfold P1. rewrite D. ring. Qed.
Lemma P2_last s n t : (0 < n)%nat -> sd s (n - 1)%nat = 0 -> P2 s n t = 2 * sc s (n - 1)%nat.
Proof. destruct n as [|k]; [lia|]. cbn [Nat.sub]. rewrite Nat.sub_0_r. intros _ D. unfold P2. rewrite D. ring. Qed.

Record glued (s : spline) : Prop := {
  g_n : (2 <= sn s)%nat;
  g_inc : forall i, (S i < sn s)%nat -> sx s i < sx s (S i);
  g_d : sd s (sn s - 1)%nat = 0;
  g_0 : forall i, (S i < sn s)%nat -> P0 s (S i) (sx s (S i)) = sy s (S i) }.
Definition smooth (s : spline) : Prop := forall i, (S i < sn s)%nat -> P1 s (S i) (sx s (S i)) = sb s (S i).
Definition smooth2 (s : spline) : Prop := forall i, (S i < sn s)%nat -> (S (S i) < sn s)%nat \/ sright s <> first_deriv -> P2 s (S i) (sx s (S i)) = 2 * sc s (S i).

Section Glued.
  Variable s : spline.
  Hypothesis G : glued s.
  Let n := sn s.
  Let INC := g_inc s G.
  Let U := ub n (sx s).

  Lemma find_U t : find_closest s t = (U t - 1)%nat. Proof. reflexivity. Qed.
  Lemma U_zero t : t < sx s 0%nat -> U t = 0%nat.
  Proof. intro H. apply ub_char; [lia|lia|auto]. Qed.
  Lemma U_pos t : sx s 0%nat <= t -> (0 < U t)%nat.
  Proof. intro H. pose proof (g_n s G) as N. destruct (ub_props n (sx s) t) as (A & B & C). fold (U t) in *. destruct (U t) as [|k] eqn:E; [|lia]. specialize (C ltac:(fold n in N; lia)). lra. Qed.
  Lemma U_last t : sx s (n - 1)%nat < t -> U t = n.
  Proof.
    intro H. pose proof (g_n s G) as N. fold n in N. apply ub_char; [lia| |lia]. intros j Hj.
    pose proof (inc_le n (sx s) INC j (n - 1) ltac:(lia) ltac:(lia)). lra.
  Qed.
  Lemma eval_P t : eval s t = P0 s (U t) t.
  Proof.
    unfold eval. rewrite find_U. fold n. destruct (Rlt_dec t (sx s 0%nat)) as [L|L].
    - rewrite (U_zero t L). reflexivity.
    - destruct (Rlt_dec (sx s (n - 1)%nat) t) as [L2|L2].
      + rewrite (U_last t L2). pose proof (g_n s G) as N. fold n in N. pose proof (g_d s G) as D. fold n in D. rewrite P0_last by (exact D || lia). reflexivity.
      + pose proof (U_pos t ltac:(lra)). destruct (U t) as [|k]; [lia|]. cbn [Nat.sub]. rewrite Nat.sub_0_r. reflexivity.
  Qed.
  Lemma deriv1_P t : deriv s 1 t = P1 s (U t) t.
  Proof.
    unfold deriv. rewrite find_U. fold n. destruct (Rlt_dec t (sx s 0%nat)) as [L|L].
    - rewrite (U_zero t L). reflexivity.
    - destruct (Rlt_dec (sx s (n - 1)%nat) t) as [L2|L2].
      + rewrite (U_last t L2). pose proof (g_n s G) as N. fold n in N. pose proof (g_d s G) as D. fold n in D. rewrite P1_last by (exact D || lia). reflexivity.
      + pose proof (U_pos t ltac:(lra)). destruct (U t) as [|k]; [lia|]. cbn [Nat.sub]. rewrite Nat.sub_0_r. reflexivity.
  Qed.
  Lemma deriv2_P t : deriv s 2 t = P2 s (U t) t.
  Proof.
    unfold deriv. rewrite find_U. fold n. destruct (Rlt_dec t (sx s 0%nat)) as [L|L].
    - rewrite (U_zero t L). reflexivity.
    - destruct (Rlt_dec (sx s (n - 1)%nat) t) as [L2|L2].
      + rewrite (U_last t L2). pose proof (g_n s G) as N. fold n in N. pose proof (g_d s G) as D. fold n in D. rewrite P2_last by (exact D || lia). reflexivity.
      + pose proof (U_pos t ltac:(lra)). destruct (U t) as [|k]; [lia|]. cbn [Nat.sub]. rewrite Nat.sub_0_r. reflexivity.
  Qed.

  Lemma hits i : (i < n)%nat -> eval s (sx s i) = sy s i.
  Proof. intro H. rewrite eval_P. unfold U. rewrite ub_knot by (exact INC || exact H). unfold P0. ring. Qed.

  Lemma join0 i t : (i < n)%nat -> sx s i = t -> P0 s i t = P0 s (S i) t.
  Proof. intros H <-. destruct i as [|i]; [cbn; ring|]. rewrite (g_0 s G i H). unfold P0. ring. Qed.
  Lemma continuous : continuity (eval s).
  Proof.
    intro t. assert (H : continuity_pt (fun u => P0 s (U u) u) t) by (apply (piecewise_cont n (sx s) INC (P0 s)); [apply P0c|intros i Hi Hx; now apply join0]).
    intros eps He. destruct (H eps He) as (a & Pa & Ha). exists a. split; [exact Pa|]. intros v Hv. rewrite !eval_P. now apply Ha.
  Qed.
  Hypothesis SM : smooth s.
  Lemma join1 i t : (i < n)%nat -> sx s i = t -> P1 s i t = P1 s (S i) t.
  Proof. intros H <-. destruct i as [|i]; [cbn; ring|]. rewrite (SM i H). unfold P1. ring. Qed.
  Lemma derivative t : dl (eval s) t (deriv s 1 t).
  Proof.
    apply (dl_ext (fun u => P0 s (U u) u)); [intro; now rewrite eval_P|]. rewrite deriv1_P.
    apply (piecewise_dl n (sx s) INC (P0 s) (P1 s)); [apply P01|]. intros i Hi Ht. split; [now apply join0|now apply join1].
  Qed.
  Lemma derivative_continuous : continuity (deriv s 1).
  Proof.
    intro t. assert (H : continuity_pt (fun u => P1 s (U u) u) t).
    { apply (piecewise_cont n (sx s) INC (P1 s)); [|intros i Hi Hx; now apply join1]. intros k u. apply derivable_continuous_pt. exists (P2 s k u). apply P12. }
    intros eps He. destruct (H eps He) as (a & Pa & Ha). exists a. split; [exact Pa|]. intros v Hv. rewrite !deriv1_P. now apply Ha.
  Qed.
  (** second derivative where the curvatures of neighbouring pieces agree *)
  Definition curv_ok (t : R) : Prop := forall i, (i < n)%nat -> sx s i = t -> P2 s i t = P2 s (S i) t.
  Lemma derivative2 t : curv_ok t -> dl (deriv s 1) t (deriv s 2 t).
  Proof.
    intro C. apply (dl_ext (fun u => P1 s (U u) u)); [intro; now rewrite deriv1_P|]. rewrite deriv2_P.
    apply (piecewise_dl n (sx s) INC (P1 s) (P2 s)); [apply P12|]. intros i Hi Ht. split; [now apply join1|now apply C].
  Qed.
  Lemma derivative2_continuous t : curv_ok t -> continuity_pt (deriv s 2) t.
  Proof.
    intro C. assert (H : continuity_pt (fun u => P2 s (U u) u) t) by (apply (piecewise_cont n (sx s) INC (P2 s)); [apply P2c|exact C]).
    intros eps He. destruct (H eps He) as (a & Pa & Ha). exists a. split; [exact Pa|]. intros v Hv. rewrite !deriv2_P. now apply Ha.
  Qed.
  Lemma deriv1_knot i : (i < n)%nat -> deriv s 1 (sx s i) = sb s i.
  Proof. intro H. rewrite deriv1_P. unfold U. rewrite ub_knot by (exact INC || exact H). unfold P1. ring. Qed.
  Lemma deriv2_knot i : (i < n)%nat -> deriv s 2 (sx s i) = 2 * sc s i.
  Proof. intro H. rewrite deriv2_P. unfold U. rewrite ub_knot by (exact INC || exact H). unfold P2. ring. Qed.
  (** on a segment the spline is the segment's cubic *)
  Lemma on_segment i t : (S i < n)%nat -> sx s i <= t <= sx s (S i) -> eval s t = P0 s (S i) t.
  Proof.
    intros Hi Ht. destruct (Req_EM_T t (sx s (S i))) as [->|N].
    - rewrite hits by lia. symmetry. now apply (g_0 s G).
    - rewrite eval_P. unfold U. rewrite (ub_char n (sx s) t (S i)); [reflexivity|lia| |intro; lra].
      intros j Hj. pose proof (inc_le n (sx s) INC j i ltac:(lia) ltac:(lia)). lra.
  Qed.
  Lemma same_cubic i : (S (S i) < n)%nat -> sd s i = sd s (S i) -> P2 s (S i) (sx s (S i)) = 2 * sc s (S i) ->
    one_cubic (eval s) (sx s i) (sx s (S (S i))).
  Proof.
    intros Hi D C2.
    exists (sy s i - sb s i * sx s i + sc s i * sx s i ^ 2 - sd s i * sx s i ^ 3), (sb s i - 2 * sc s i * sx s i + 3 * sd s i * sx s i ^ 2),
      (sc s i - 3 * sd s i * sx s i), (sd s i).
    assert (E : forall t, P0 s (S i) t = sy s i - sb s i * sx s i + sc s i * sx s i ^ 2 - sd s i * sx s i ^ 3 + (sb s i - 2 * sc s i * sx s i + 3 * sd s i * sx s i ^ 2) * t +
      (sc s i - 3 * sd s i * sx s i) * t ^ 2 + sd s i * t ^ 3) by (intro t; unfold P0; ring).
    intros t Ht. destruct (Rle_lt_dec t (sx s (S i))) as [L|L].
    - rewrite (on_segment i t) by (lra || lia). apply E.
    - rewrite (on_segment (S i) t) by (lra || lia). rewrite <- E.
      pose proof (g_0 s G i ltac:(fold n; lia)) as E0. pose proof (SM i ltac:(fold n; lia)) as E1.
      unfold P0, P1, P2 in *. rewrite <- D, <- E0, <- E1. replace (sc s (S i)) with (3 * sd s i * (sx s (S i) - sx s i) + sc s i) by lra. ring.
  Qed.
End Glued.

(** ** set_points produces glued splines *)
Lemma increasing_ok n x : (forall i, (S i < n)%nat -> x i < x (S i)) <-> increasing x (n - 1) = true.
Proof.
  assert (H : forall k, increasing x k = true <-> forall i, (i < k)%nat -> x i < x (S i)).
  { induction k as [|k IH]; cbn [increasing]; [split; [lia|reflexivity]|]. rewrite andb_true_iff, IH. destruct (Rlt_dec (x k) (x (S k))) as [L|L]; split.
    - intros (A & _) i Hi. destruct (Nat.eq_dec i k) as [->|N]; [exact L|apply A; lia].
    - intro A. split; [intros; apply A; lia|reflexivity].
    - intros (_ & A). discriminate A.
    - intro A. exfalso. apply L, A. lia. }
  rewrite H. split; intros A i Hi; apply A; lia.
Qed.
Lemma points_ok_iff n x left right : points_ok n x left right = true <-> abscissae n x left right.
Proof.
  unfold points_ok, abscissae. rewrite !andb_true_iff, <- increasing_ok, Nat.leb_le. split.
  - intros ((A & B) & C). split; [exact A|]. split; [|exact C]. intros [-> | ->]; cbn [is_nak orb] in B; rewrite ?orb_true_r in B; now apply Nat.leb_le.
  - intros (A & B & C). split; [split; [exact A|]|exact C]. destruct left, right; cbn [is_nak orb]; try reflexivity; apply Nat.leb_le; apply B; auto.
Qed.

(** what set_points stores *)
Lemma set_points_frame n x y type left lv right rv s : set_points n x y type left lv right rv = Some s ->
  sn s = n /\ sx s = x /\ sy s = y /\ sleft s = left /\ sright s = right /\ abscissae n x left right.
Proof.
  unfold set_points. destruct (points_ok n x left right) eqn:E; [|discriminate]. apply points_ok_iff in E. intro H.
  assert (X : sn s = n /\ sx s = x /\ sy s = y /\ sleft s = left /\ sright s = right); [|tauto].
  destruct type.
  - injection H as <-. cbn. tauto.
  - unfold set_cspline in H. destruct (loop _ _ _ _) as [st|]; [|discriminate H]. cbn [bindo] in H.
    destruct (left_row _ _ _ _ _) as [st'|]; [|discriminate H]. cbn [bindo] in H. destruct (right_row _ _ _ _ _ _) as [[A rhs]|]; [|discriminate H]. cbn [bindo] in H.
    destruct (lu_solve A rhs) as [c|]; [|discriminate H]. cbn [bindo] in H. injection H as <-. cbn. tauto.
  - injection H as <-. unfold set_hermite. destruct (hermite_right _ _ _ _ _ _). cbn. tauto.
Qed.

Lemma linear_glued n x y left right : abscissae n x left right -> glued (set_linear n x y left right).
Proof.
  intros (A & B & C). constructor; cbn; try lia; auto. intros i Hi. unfold updf. destruct (Nat.eqb_spec i (n - 1)); [lia|].
  replace (i + 1)%nat with (S i) by lia. pose proof (C i Hi). field. lra.
Qed.

(** coefficients computed from the slopes *)
Lemma from_b_glued s : (2 <= sn s)%nat -> (forall i, (S i < sn s)%nat -> sx s i < sx s (S i)) -> sd s (sn s - 1)%nat = 0 ->
  glued (set_coeffs_from_b s) /\ smooth (set_coeffs_from_b s).
Proof.
  intros N INC D. split.
  - constructor; cbn; auto.
    + unfold d_from_b. destruct (Nat.ltb_spec (sn s - 1) (sn s - 1)); [lia|exact D].
    + intros i Hi. unfold d_from_b, c_from_b. destruct (Nat.ltb_spec i (sn s - 1)); [|lia]. replace (i + 1)%nat with (S i) by lia. pose proof (INC i Hi). field. lra.
  - intros i Hi. cbn in *. unfold d_from_b, c_from_b. destruct (Nat.ltb_spec i (sn s - 1)); [|lia]. replace (i + 1)%nat with (S i) by lia. pose proof (INC i Hi). field. lra.
Qed.
Lemma hermite_form n x y left lv right rv :
  exists b ce, set_hermite n x y left lv right rv = set_coeffs_from_b (mkSpline n x y b (updf (fun _ => 0) (n - 1) ce) (fun _ => 0) 0 left right) /\
    b 0%nat = (if Nat.eqb 0 (n - 1) then b 0%nat else hermite_left x y (hermite_slope x y) left lv) /\
    (forall i, (0 < i)%nat -> (i < n - 1)%nat -> b i = hermite_slope x y i) /\
    (b (n - 1)%nat, ce) = hermite_right n x y (updf (hermite_slope x y) 0 (hermite_left x y (hermite_slope x y) left lv)) right rv.
Proof.
  unfold set_hermite. destruct (hermite_right n x y (updf (hermite_slope x y) 0 (hermite_left x y (hermite_slope x y) left lv)) right rv) as [be ce].
  do 2 eexists. split; [reflexivity|]. split; [|split].
  - unfold updf. destruct (Nat.eqb_spec 0 (n - 1)); reflexivity.
  - intros i Hi Hn. unfold updf. destruct (Nat.eqb_spec i (n - 1)); [lia|]. destruct (Nat.eqb_spec i 0); [lia|reflexivity].
  - unfold updf. now rewrite Nat.eqb_refl.
Qed.

(** the classical spline *)
Lemma cspline_ok m x y left lv right rv : abscissae (S (S (S m))) x left right ->
  exists s c, set_cspline (S (S (S m))) x y left lv right rv = Some s /\ 
    sc s = (if is_first right then updf c (S (S m)) 0 else c) /\ sc0 s = (if is_first left then 0 else c 0%nat) /\
    sd s = updf (cspline_d x c) (S (S m)) 0 /\
    (forall i, (i < S (S m))%nat -> sb s i = cspline_b x y c i) /\
    sb s (S (S m)) = (let h := x (S (S m)) - x (S m) in 3 * cspline_d x c (S m) * h * h + 2 * c (S m) * h + cspline_b x y c (S m)) /\
    (forall i, (i < S m)%nat -> 1 / 3 * (x (S i) - x i) * c i + 2 / 3 * (x (S (S i)) - x i) * c (S i) + 1 / 3 * (x (S (S i)) - x (S i)) * c (S (S i)) = inner_rhs x y (S i)) /\
    left_entry x left 0 * c 0%nat + left_entry x left 1 * c 1%nat + left_entry x left 2 * c 2%nat = (if is_nak right then 0 else left_rhs x y left lv) /\
    right_entry m x right m * c m + right_entry m x right (S m) * c (S m) + right_entry m x right (S (S m)) * c (S (S m)) = right_rhs m x y right rv.
Proof.
  intros (A & B & C). destruct (cspline_solved m x y left lv right rv) as (c & (Ab & rhs & E & Es) & H); [intros; apply C; lia|intro H; specialize (B H); lia|].
  unfold set_cspline. destruct (loop _ _ _ _) as [st|]; [|discriminate E]. cbn [bindo] in *.
  destruct (left_row _ _ _ _ _) as [st'|]; [|discriminate E]. cbn [bindo] in *. rewrite E. cbn [bindo]. rewrite Es. cbn [bindo].
  do 2 eexists. split; [reflexivity|]. cbn [sc sc0 sd sb]. replace (S (S (S m)) - 1)%nat with (S (S m)) by lia. replace (S (S (S m)) - 2)%nat with (S m) by lia.
  split; [reflexivity|]. split. { destruct left, right; reflexivity. }
  split; [reflexivity|]. split. { intros i Hi. unfold updf. destruct (Nat.eqb_spec i (S (S m))); [lia|reflexivity]. }
  split. { cbn zeta. unfold updf. rewrite Nat.eqb_refl. destruct (Nat.eqb_spec (S m) (S (S m))); [lia|reflexivity]. }
  exact H.
Qed.

Lemma cspline_glued m x y left lv right rv s : abscissae (S (S (S m))) x left right -> set_cspline (S (S (S m))) x y left lv right rv = Some s ->
  glued s /\ smooth s /\ smooth2 s.
Proof.
  intros Ab Hs. destruct (cspline_ok m x y left lv right rv Ab) as (s' & c & E & Ec & Ec0 & Ed & Eb & Ebl & Hin & _ & _).
  rewrite Hs in E. injection E as <-.
  destruct (set_points_frame (S (S (S m))) x y cspline left lv right rv s) as (F1 & F2 & F3 & F4 & F5 & (A & B & C)).
  { unfold set_points. now rewrite (proj2 (points_ok_iff _ _ _ _) Ab). }
  assert (Ci : forall i, (i < S (S m))%nat -> sc s i = c i).
  { intros i Hi. rewrite Ec. destruct (is_first right); [|reflexivity]. unfold updf. destruct (Nat.eqb_spec i (S (S m))); [lia|reflexivity]. }
  assert (Di : forall i, (i < S (S m))%nat -> sd s i = cspline_d x c i).
  { intros i Hi. rewrite Ed. unfold updf. destruct (Nat.eqb_spec i (S (S m))); [lia|reflexivity]. }
  split; [|split].
  - constructor; rewrite ?F1, ?F2, ?F3; auto; try lia.
    + rewrite Ed. replace (S (S (S m)) - 1)%nat with (S (S m)) by lia. unfold updf. now rewrite Nat.eqb_refl.
    + intros i Hi. unfold P0. rewrite F2, F3, Ci, Di, Eb by lia. unfold cspline_d, cspline_b. replace (i + 1)%nat with (S i) by lia. pose proof (C i Hi). field. lra.
  - intros i Hi. rewrite F1 in Hi. unfold P1. rewrite F2, Ci, Di, Eb by lia. destruct (Nat.eq_dec i (S m)) as [->|N].
    + rewrite Ebl. cbn zeta. ring.
    + rewrite (Eb (S i)) by lia. pose proof (Hin i ltac:(lia)) as Q. unfold inner_rhs in Q. cbn [Nat.sub] in Q. rewrite ?Nat.sub_0_r in Q.
      pose proof (C i Hi). pose proof (C (S i) ltac:(lia)). unfold cspline_d, cspline_b. replace (i + 1)%nat with (S i) by lia. replace (S i + 1)%nat with (S (S i)) by lia.
      transitivity ((y (S i) - y i) / (x (S i) - x i) + 1 / 3 * c i * (x (S i) - x i) + 2 / 3 * c (S i) * (x (S i) - x i)); [field; lra|]. lra.
  - intros i Hi Q. rewrite F1 in *. unfold P2. rewrite F2, Ci, Di by lia. pose proof (C i Hi).
    assert (E : sc s (S i) = c (S i)).
    { destruct (Nat.eq_dec i (S m)) as [->|N]; [|apply Ci; lia]. rewrite Ec. destruct Q as [Q|Q]; [lia|]. rewrite F5 in Q. now destruct right. }
    rewrite E. unfold cspline_d. replace (i + 1)%nat with (S i) by lia. field. lra.
Qed.

Lemma set_points_glued n x y type left lv right rv : abscissae n x left right ->
  exists s, set_points n x y type left lv right rv = Some s /\ sx s = x /\ sy s = y /\ sn s = n /\ sleft s = left /\ sright s = right /\ glued s /\
    (type <> linear -> smooth s) /\ (type = cspline -> smooth2 s).
Proof.
  intro Ab. assert (X : exists s, set_points n x y type left lv right rv = Some s /\ glued s /\ (type <> linear -> smooth s) /\ (type = cspline -> smooth2 s)).
  { unfold set_points. rewrite (proj2 (points_ok_iff _ _ _ _) Ab). destruct type.
    - eexists. split; [reflexivity|]. split; [now apply linear_glued|]. split; [congruence|discriminate].
    - destruct n as [|[|[|m]]]; try (destruct Ab; lia). destruct (cspline_ok m x y left lv right rv Ab) as (s & c & E & _).
      exists s. split; [exact E|]. destruct (cspline_glued m x y left lv right rv s Ab E) as (H1 & H2 & H3). auto.
    - eexists. split; [reflexivity|]. destruct (hermite_form n x y left lv right rv) as (b & ce & -> & _). destruct Ab as (A & B & C).
      destruct (from_b_glued (mkSpline n x y b (updf (fun _ => 0) (n - 1) ce) (fun _ => 0) 0 left right)) as (H1 & H2); cbn; auto; try lia.
      split; [exact H1|]. split; [auto|discriminate]. }
  destruct X as (s & E & H). exists s. split; [exact E|]. destruct (set_points_frame _ _ _ _ _ _ _ _ _ E) as (A1 & A2 & A3 & A4 & A5 & _). tauto.
Qed.

Lemma left_curv_ok s : glued s -> sc0 s = sc s 0%nat -> curv_ok s (sx s 0%nat).
Proof.
  intros G E i Hi Hx. destruct i as [|i]; [cbn; rewrite E; ring|]. pose proof (inc_lt (sn s) (sx s) (g_inc s G) 0 (S i) ltac:(lia) Hi). lra.
Qed.
Lemma right_curv_ok s i : glued s -> (S i < sn s)%nat -> P2 s (S i) (sx s (S i)) = 2 * sc s (S i) -> curv_ok s (sx s (S i)).
Proof.
  intros G Hi E j Hj Hx. assert (j = S i).
  { destruct (Nat.lt_trichotomy j (S i)) as [L|[L|L]]; [|exact L|].
    - pose proof (inc_lt (sn s) (sx s) (g_inc s G) j (S i) L Hi). lra.
    - pose proof (inc_lt (sn s) (sx s) (g_inc s G) (S i) j L Hj). lra. }
  subst j. rewrite E. unfold P2. ring.
Qed.
Lemma second_at s i : glued s -> smooth s -> (i < sn s)%nat -> curv_ok s (sx s i) -> second_derivative_at (eval s) (sx s i) (2 * sc s i).
Proof.
  intros G SM Hi C. exists (deriv s 1). split; [intro; now apply derivative|]. rewrite <- (deriv2_knot s G i Hi). now apply derivative2.
Qed.

Lemma smooth2_curv s t : glued s -> smooth s -> smooth2 s -> sc0 s = (if is_first (sleft s) then 0 else sc s 0%nat) ->
  (sleft s = first_deriv -> t <> sx s 0%nat) -> (sright s = first_deriv -> t <> sx s (sn s - 1)%nat) -> curv_ok s t.
Proof.
  intros G SM S2 E0 L Rr i Hi Hx. destruct i as [|i].
  - cbn [P2]. rewrite E0, <- Hx. destruct (sleft s); cbn [is_first]; [exfalso; now apply L|ring|ring].
  - rewrite <- Hx. rewrite S2 by (lia || (destruct (Nat.eq_dec (S (S i)) (sn s)) as [Q|Q]; [right; intro F; apply Rr; [exact F|]; rewrite <- Hx; f_equal; lia|left; lia])).
    unfold P2. ring.
Qed.
