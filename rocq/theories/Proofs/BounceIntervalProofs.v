(** BackwardsPropagation and the search interval. *)
From Coq Require Import Reals List Lra Lia ZArith Bool.
From Coquelicot Require Import Coquelicot.
From Verif Require Import Model.BounceInterval Spec.BounceIntervalSpec.
Import ListNotations.
Open Scope R_scope.

Lemma thousand_INR : INR thousand = 1000.
Proof. unfold thousand; rewrite INR_IZR_INZ, positive_nat_Z; reflexivity. Qed.
#[local] Opaque thousand.

Section S.
  Variables (dV d2V : R -> R) (L : R).
  Lemma settled_iff : forall a b, 0 < L -> settled d2V L a b = true -> Rabs (b - a) < / 10 ^ 8 * L /\ 0 < d2V b /\ b <= L / 100.
  Proof using.
    intros a b LP H; unfold settled in H.
    destruct (Rlt_dec (Rabs ((b - a) / L)) (/ 10 ^ 8)) as [A|]; [|discriminate].
    destruct (Rlt_dec 0 (d2V b)); [|discriminate]. destruct (Rle_dec b (L / 100)); [|discriminate]. split; [|split; assumption].
    unfold Rdiv in A; rewrite Rabs_mult, (Rabs_pos_eq (/ L)) in A by (apply Rlt_le, Rinv_0_lt_compat, LP).
    apply (Rmult_lt_compat_r L) in A; [|exact LP]. rewrite Rmult_assoc, Rinv_l, Rmult_1_r in A by lra. exact A.
  Qed.
  Lemma newton_some : forall n l0 l, 0 < L -> newton dV d2V L n l0 = Some l ->
    exists a, d2V a <> 0 /\ l = a - dV a / d2V a /\ Rabs (l - a) < / 10 ^ 8 * L /\ 0 < d2V l /\ l <= L / 100.
  Proof using.
    induction n as [|n IH]; intros l0 l LP H; cbn [newton] in H; [discriminate|].
    destruct (Req_EM_T (d2V l0) 0) as [|N]; [discriminate|].
    destruct (settled d2V L l0 (l0 - dV l0 / d2V l0)) eqn:E; [|exact (IH _ _ LP H)].
    injection H as <-. exists l0; split; [exact N|]. split; [reflexivity|]. apply settled_iff; assumption.
  Qed.
  Lemma descend_some : forall n l0 l, 0 < L -> descend dV d2V L n l0 = Some l ->
    exists a, l = a - dV a / 100 /\ Rabs (l - a) < / 10 ^ 8 * L /\ 0 < d2V l /\ l <= L / 100.
  Proof using.
    induction n as [|n IH]; intros l0 l LP H; cbn [descend] in H; [discriminate|].
    destruct (settled d2V L l0 (l0 - dV l0 / 100)) eqn:E; [|exact (IH _ _ LP H)].
    injection H as <-. exists l0; split; [reflexivity|]. apply settled_iff; assumption.
  Qed.

End S.
Section P.
  Variables (L : R) (min_rho : R -> R -> R -> R) (lin_rho : R -> R -> R).
  (** the smallest error *)
  Lemma fold_probes : forall lmin fr l e t, let r := fold_left (probe_step L min_rho lin_rho lmin fr) l (e, t) in
    fst r <= e /\ (forall i, In i l -> fst r <= probe_error L min_rho lin_rho lmin fr (probe L lmin i)) /\
    ((fst r = e /\ snd r = t) \/ (fst r < e /\ exists i, In i l /\ snd r = Some (probe L lmin i) /\ fst r = probe_error L min_rho lin_rho lmin fr (probe L lmin i))).
  Proof using.
    intros lmin fr; induction l as [|i l IH]; intros e t; cbv zeta; cbn [fold_left].
    - cbn; split; [lra|]. split; [tauto|]. left; split; reflexivity.
    - set (E := probe_error L min_rho lin_rho lmin fr (probe L lmin i)).
      assert (ST : probe_step L min_rho lin_rho lmin fr (e, t) i = if Rlt_dec E e then (E, Some (probe L lmin i)) else (e, t)) by reflexivity.
      rewrite ST; clear ST.
      destruct (Rlt_dec E e) as [C|C].
      + destruct (IH E (Some (probe L lmin i))) as (A & B & D); cbv zeta in *.
        set (r := fold_left _ l _) in *. split; [lra|]. split; [intros k [<-|K]; [exact A|apply B, K]|].
        right. destruct D as [[D1 D2]|(D1 & k & K & D2 & D3)].
        * split; [lra|]. exists i; split; [left; reflexivity|]. split; assumption.
        * split; [lra|]. exists k; split; [right; exact K|]. split; assumption.
      + destruct (IH e t) as (A & B & D); cbv zeta in *.
        set (r := fold_left _ l _) in *. split; [lra|]. split; [intros k [<-|K]; [fold E; lra|apply B, K]|].
        destruct D as [[D1 D2]|(D1 & k & K & D2 & D3)]; [left; split; assumption|right; split; [lra|]].
        exists k; split; [right; exact K|]. split; assumption.
  Qed.
  Let CEST := CalculateExactSolutionThreshold L min_rho lin_rho.
  (** the distances probed *)
  Definition probed (lmin d : R) : Prop := exists i, (i <= thousand)%nat /\ d = probe L lmin i.
  Lemma cest_ready : forall m lmin, m_lmin m = Some lmin -> m_fraction m <= / 10 ^ 4 ->
    exists t, CEST 1 (10 ^ 100) m = Ready (mkMembers (Some lmin) t (m_fraction m)) /\
    ((forall d, probed lmin d -> 10 ^ 100 <= probe_error L min_rho lin_rho lmin (m_fraction m) d) /\ t = m_threshold m \/
     exists b, t = Some b /\ probed lmin b /\
       forall d, probed lmin d -> probe_error L min_rho lin_rho lmin (m_fraction m) b <= probe_error L min_rho lin_rho lmin (m_fraction m) d).
  Proof using.
    intros m lmin HL HF. unfold CEST; cbn [CalculateExactSolutionThreshold]. rewrite HL.
    destruct (fold_probes lmin (m_fraction m) (seq 0 (S thousand)) (10 ^ 100) (m_threshold m)) as (A & B & D); cbv zeta in *.
    unfold probes. destruct (fold_left _ _ _) as [e t]; cbn [fst snd] in *.
    exists t. split.
    - destruct (Rlt_dec (/ 10 ^ 2) e); [destruct (Rle_dec (m_fraction m) (/ 10 ^ 4)); [reflexivity|contradiction]|reflexivity].
    - assert (IN : forall i, (i <= thousand)%nat -> In i (seq 0 (S thousand))) by (intros; apply in_seq; lia).
      destruct D as [[D1 D2]|(D1 & i & I & D2 & D3)].
      + left; split; [|exact D2]. intros d (i & I & ->). rewrite <- D1; apply B, IN, I.
      + right. exists (probe L lmin i); split; [exact D2|]. split; [exists i; split; [apply in_seq in I; lia|reflexivity]|].
        intros d (k & K & ->). rewrite <- D3; apply B, IN, K.
  Qed.
End P.

Lemma bp_cases : forall dV d2V L min_rho lin_rho m m', BackwardsPropagation dV d2V L min_rho lin_rho m = Ready m' ->
  (exists n l, newton dV d2V L n 0 = Some l /\ accept L min_rho lin_rho l m = Ready m') \/
  (exists n l, descend dV d2V L n 0 = Some l /\ accept L min_rho lin_rho l m = Ready m') \/
  Ready (mkMembers (Some (-1 * L / 1000)) None (m_fraction m)) = Ready m'.
Proof.
  intros dV d2V L min_rho lin_rho m m'; unfold BackwardsPropagation; generalize 100%nat thousand; intros n1 n2 H.
  destruct (newton dV d2V L n1 0) as [l|] eqn:N; [left; exists n1, l; split; assumption|].
  destruct (descend dV d2V L n2 0) as [l|] eqn:D; [right; left; exists n2, l; split; assumption|right; right; exact H].
Qed.
Lemma propagated : forall dV d2V L min_rho lin_rho m m', 0 < L -> m_fraction m <= / 10 ^ 4 ->
  BackwardsPropagation dV d2V L min_rho lin_rho m = Ready m' ->
  (exists l a, m_lmin m' = Some l /\ (d2V a <> 0 /\ l = a - dV a / d2V a \/ l = a - dV a / 100) /\
     Rabs (l - a) < / 10 ^ 8 * L /\ 0 < d2V l /\ l <= L / 100 /\
   exists old, m_lmin m = Some old /\
     ((forall d, probed L old d -> 10 ^ 100 <= probe_error L min_rho lin_rho old (m_fraction m) d) /\ m_threshold m' = m_threshold m \/
      exists b, m_threshold m' = Some b /\ probed L old b /\
        forall d, probed L old d -> probe_error L min_rho lin_rho old (m_fraction m) b <= probe_error L min_rho lin_rho old (m_fraction m) d)) \/
  (m_lmin m' = Some (- L / 1000) /\ m_threshold m' = None).
Proof.
  intros dV d2V L min_rho lin_rho m m' LP HF H; apply bp_cases in H.
  assert (AC : forall l, accept L min_rho lin_rho l m = Ready m' -> m_lmin m' = Some l /\ exists old, m_lmin m = Some old /\
     ((forall d, probed L old d -> 10 ^ 100 <= probe_error L min_rho lin_rho old (m_fraction m) d) /\ m_threshold m' = m_threshold m \/
      exists b, m_threshold m' = Some b /\ probed L old b /\
        forall d, probed L old d -> probe_error L min_rho lin_rho old (m_fraction m) b <= probe_error L min_rho lin_rho old (m_fraction m) d)).
  { intros l A; unfold accept in A. destruct (m_lmin m) as [old|] eqn:E.
    - destruct (cest_ready L min_rho lin_rho m old E HF) as (t & C & D). rewrite C in A; injection A as <-; cbn [m_lmin m_threshold].
      split; [reflexivity|]. exists old; split; [reflexivity|]. exact D.
    - cbn [CalculateExactSolutionThreshold] in A; rewrite E in A; discriminate. }
  destruct H as [(n & l & N & H)|[(n & l & D & H)|H]].
  - left. destruct (newton_some _ _ _ _ _ _ LP N) as (a & A1 & A2 & A3 & A4 & A5). destruct (AC l H) as [B1 B2].
    exists l, a. repeat split; try assumption. left; split; assumption.
  - left. destruct (descend_some _ _ _ _ _ _ LP D) as (a & A2 & A3 & A4 & A5). destruct (AC l H) as [B1 B2].
    exists l, a. repeat split; try assumption. right; assumption.
  - right. injection H as <-; cbn [m_lmin m_threshold]. split; [f_equal; lra|reflexivity].
Qed.

(** a Newton step that is that short ends next to a stationary point *)
Lemma newton_stationary : forall dV d2V d3V M a l, d2V a <> 0 -> l = a - dV a / d2V a ->
  (forall x, Rmin a l <= x <= Rmax a l -> derivable_pt_lim dV x (d2V x) /\ derivable_pt_lim d2V x (d3V x) /\ Rabs (d3V x) <= M) ->
  Rabs (dV l) <= M * (l - a) ^ 2.
Proof.
  intros dV d2V d3V M a l N HE HD.
  assert (MV : forall f f' x y, x < y -> (forall z, x <= z <= y -> derivable_pt_lim f z (f' z)) -> exists c, x < c < y /\ f y - f x = f' c * (y - x)).
  { intros f f' x y XY D. destruct (MVT_cor2 f f' x y XY D) as (c & C1 & C2). exists c; split; assumption. }
  assert (M0 : forall x, Rmin a l <= x <= Rmax a l -> 0 <= M).
  { intros x X. destruct (HD x X) as (_ & _ & B). pose proof (Rabs_pos (d3V x)); lra. }
  destruct (Rtotal_order a l) as [C|[C|C]].
  - rewrite Rmin_left, Rmax_right in * by lra.
    destruct (MV dV d2V a l C) as (c & C1 & C2); [intros; apply HD; assumption|].
    destruct (MV d2V d3V a c (proj1 C1)) as (b & B1 & B2); [intros z Z; apply HD; lra|].
    assert (E : dV l = d3V b * (c - a) * (l - a)).
    { assert (Z : dV a = - d2V a * (l - a)) by (rewrite HE; field; exact N). rewrite <- B2. lra. }
    rewrite E, !Rabs_mult, (Rabs_pos_eq (c - a)), (Rabs_pos_eq (l - a)) by lra.
    assert (D3 : Rabs (d3V b) <= M) by (apply HD; lra). assert (0 <= M) by (apply (M0 b); lra).
    replace (M * (l - a) ^ 2) with (M * (l - a) * (l - a)) by ring. apply Rmult_le_compat_r; [lra|].
    apply Rmult_le_compat; try lra; apply Rabs_pos.
  - subst l. assert (Z : dV a = 0).
    { assert (Q : dV a / d2V a = 0) by lra. apply (Rmult_eq_compat_r (d2V a)) in Q. unfold Rdiv in Q; rewrite Rmult_assoc, Rinv_l, Rmult_1_r in Q by exact N. lra. }
    rewrite <- C, Z, Rabs_R0. replace (a - a) with 0 by ring. rewrite pow_ne_zero by lia. lra.
  - rewrite Rmin_right, Rmax_left in * by lra.
    destruct (MV dV d2V l a C) as (c & C1 & C2); [intros; apply HD; assumption|].
    destruct (MV d2V d3V c a (proj2 C1)) as (b & B1 & B2); [intros z Z; apply HD; lra|].
    assert (E : dV l = - d3V b * (a - c) * (l - a)).
    { assert (Z : dV a = - d2V a * (l - a)) by (rewrite HE; field; exact N). replace (- d3V b * (a - c)) with (d2V c - d2V a) by lra. lra. }
    rewrite E, !Rabs_mult, Rabs_Ropp, (Rabs_pos_eq (a - c)), (Rabs_left (l - a)) by lra.
    assert (D3 : Rabs (d3V b) <= M) by (apply HD; lra). assert (0 <= M) by (apply (M0 b); lra).
    replace (M * (l - a) ^ 2) with (M * - (l - a) * - (l - a)) by ring. apply Rmult_le_compat_r; [lra|].
    apply Rmult_le_compat; try lra; apply Rabs_pos.
Qed.

(** a new object *)
Lemma new_undefined : forall dV d2V L min_rho lin_rho l, newton dV d2V L 100 0 = Some l ->
  BackwardsPropagation dV d2V L min_rho lin_rho new_members = Undefined.
Proof. intros dV d2V L min_rho lin_rho l H; unfold BackwardsPropagation; rewrite H; reflexivity. Qed.
(** parabola with minimum at [c] *)
Lemma newton_parabola : forall L c k, 0 < L -> 0 < k -> c <= L / 100 -> newton (fun l => k * (l - c)) (fun _ => k) L 100 0 = Some c.
Proof.
  intros L c k LP KP CL.
  assert (ST : forall n a, newton (fun l => k * (l - c)) (fun _ => k) L (S n) a = if settled (fun _ => k) L a c then Some c else newton (fun l => k * (l - c)) (fun _ => k) L n c).
  { intros n a; cbn [newton]. destruct (Req_EM_T k 0); [lra|]. replace (a - k * (a - c) / k) with c by (field; lra). reflexivity. }
  rewrite ST. destruct (settled (fun _ => k) L 0 c); [reflexivity|]. rewrite ST.
  replace (settled (fun _ => k) L c c) with true; [reflexivity|].
  unfold settled. replace ((c - c) / L) with 0 by (field; lra). rewrite Rabs_R0.
  destruct (Rlt_dec 0 (/ 10 ^ 8)) as [|F]; [|exfalso; apply F, Rinv_0_lt_compat, pow_lt; lra].
  destruct (Rlt_dec 0 k); [|lra]. destruct (Rle_dec c (L / 100)); [reflexivity|lra].
Qed.

(** the interval *)
Lemma upper_spec : forall dV V L lmin n j0, exists lmax, upper dV V L n j0 lmin L = lmax /\
  ((lmax = L /\ forall j, (j0 < j <= j0 + n)%nat -> ~ 0 < V (lmin + (L - lmin) * INR j / 1000) /\ ~ dV ((L - lmin) * INR j / 1000) < 0) \/
   exists j, (j0 < j <= j0 + n)%nat /\ lmax = lmin + (L - lmin) * INR j / 1000 /\
     (0 < V lmax \/ dV (lmax - lmin) < 0) /\
     forall k, (j0 < k < j)%nat -> ~ 0 < V (lmin + (L - lmin) * INR k / 1000) /\ ~ dV ((L - lmin) * INR k / 1000) < 0).
Proof.
  intros dV V L lmin; induction n as [|n IH]; intros j0; cbn [upper].
  - eexists; split; [reflexivity|]. left; split; [reflexivity|]. intros; lia.
  - set (p := lmin + (L - lmin) * INR (S j0) / 1000).
    destruct (Rlt_dec 0 (V p)) as [C|C].
    + exists p; split; [reflexivity|]. right; exists (S j0); split; [lia|]. split; [reflexivity|]. split; [left; exact C|intros; lia].
    + destruct (Rlt_dec (dV ((L - lmin) * INR (S j0) / 1000)) 0) as [D|D].
      * exists p; split; [reflexivity|]. right; exists (S j0); split; [lia|]. split; [reflexivity|]. split; [|intros; lia].
        right. replace (p - lmin) with ((L - lmin) * INR (S j0) / 1000) by (unfold p; ring). exact D.
      * destruct (IH (S j0)) as (lmax & E & [[A B]|(j & J & A & B & G)]); exists lmax; (split; [exact E|]).
        -- left; split; [exact A|]. intros j J. destruct (Nat.eq_dec j (S j0)) as [->|]; [split; assumption|apply B; lia].
        -- right; exists j; split; [lia|]. split; [exact A|]. split; [exact B|].
           intros k K. destruct (Nat.eq_dec k (S j0)) as [->|]; [split; assumption|apply G; lia].
Qed.

Lemma probe_range : forall L lmin d, lmin < L -> probed L lmin d -> (L - lmin) / 100 * exp (-10) <= d <= (L - lmin) / 100.
Proof.
  intros L lmin d H (i & I & ->). apply le_INR in I. rewrite thousand_INR in I. pose proof (pos_INR i) as P.
  unfold probe. set (f := ln ((L - lmin) / 100)).
  assert (E : exp f = (L - lmin) / 100) by (apply exp_ln; lra).
  assert (IN : forall a b, a <= b -> exp a <= exp b) by (intros a b [A|A]; [left; apply exp_increasing, A|right; f_equal; exact A]).
  split.
  - apply Rle_trans with (exp f * exp (-10)); [rewrite E; apply Rle_refl|]. rewrite <- exp_plus. apply IN. lra.
  - apply Rle_trans with (exp f); [apply IN; lra|rewrite E; apply Rle_refl].
Qed.
Lemma probe_last : forall L lmin, lmin < L -> probe L lmin thousand = (L - lmin) / 100.
Proof.
  intros L lmin H; unfold probe; rewrite thousand_INR.
  match goal with |- exp ?x = _ => replace x with (ln ((L - lmin) / 100)) by lra end. apply exp_ln; lra.
Qed.
Lemma error_small : forall L min_rho lin_rho lmin fr d, 0 < lin_rho (lmin + d) (lmin + d + L * fr) -> 0 < min_rho lmin d (lmin + d + L * fr) ->
  0 <= probe_error L min_rho lin_rho lmin fr d < 10 ^ 100.
Proof.
  intros L min_rho lin_rho lmin fr d A B; unfold probe_error; cbv zeta.
  set (a := lin_rho _ _) in *; set (b := min_rho _ _ _) in *; clearbody a b.
  assert (X : Rabs ((a - b) / (a + b)) <= 1).
  { unfold Rdiv; rewrite Rabs_mult, (Rabs_pos_eq (/ (a + b))) by (apply Rlt_le, Rinv_0_lt_compat; lra).
    apply (Rmult_le_reg_r (a + b)); [lra|]. rewrite Rmult_assoc, Rinv_l, Rmult_1_r, Rmult_1_l by lra.
    apply Rabs_le; lra. }
  pose proof (Rabs_pos ((a - b) / (a + b))). split; [lra|]. apply Rle_lt_trans with 1; [lra|]. apply Rlt_pow_R1; [lra|lia].
Qed.

(** with positive radii a threshold is always found, about the minimum known before *)
Lemma threshold_found : forall dV d2V L min_rho lin_rho m m', 0 < L -> m_fraction m <= / 10 ^ 4 ->
  (forall l0 l, 0 < lin_rho l0 l) -> (forall lmin d l, 0 < min_rho lmin d l) ->
  BackwardsPropagation dV d2V L min_rho lin_rho m = Ready m' ->
  (exists l a old b, m_lmin m' = Some l /\ (d2V a <> 0 /\ l = a - dV a / d2V a \/ l = a - dV a / 100) /\
     Rabs (l - a) < / 10 ^ 8 * L /\ 0 < d2V l /\ l <= L / 100 /\
     m_lmin m = Some old /\ m_threshold m' = Some b /\ probed L old b /\
     forall d, probed L old d -> probe_error L min_rho lin_rho old (m_fraction m) b <= probe_error L min_rho lin_rho old (m_fraction m) d) \/
  (m_lmin m' = Some (- L / 1000) /\ m_threshold m' = None).
Proof.
  intros dV d2V L min_rho lin_rho m m' LP HF PL PM H.
  destruct (propagated _ _ _ _ _ _ _ LP HF H) as [(l & a & A1 & A2 & A3 & A4 & A5 & old & O1 & [[O2 O3]|(b & B1 & B2 & B3)])|C]; [exfalso| |right; exact C].
  - assert (PR : probed L old (probe L old 0)) by (exists 0%nat; split; [apply Nat.le_0_l|reflexivity]).
    pose proof (O2 _ PR) as G. pose proof (error_small L min_rho lin_rho old (m_fraction m) (probe L old 0) (PL _ _) (PM _ _ _)). lra.
  - left. exists l, a, old, b. repeat split; assumption.
Qed.
Lemma fraction_kept : forall dV d2V L min_rho lin_rho m m', m_fraction m <= / 10 ^ 4 ->
  BackwardsPropagation dV d2V L min_rho lin_rho m = Ready m' -> m_fraction m' = m_fraction m.
Proof.
  intros dV d2V L min_rho lin_rho m m' HF H; apply bp_cases in H.
  assert (AC : forall l, accept L min_rho lin_rho l m = Ready m' -> m_fraction m' = m_fraction m).
  { intros l A; unfold accept in A. destruct (m_lmin m) as [old|] eqn:E.
    - destruct (cest_ready L min_rho lin_rho m old E HF) as (t & C & D). rewrite C in A; injection A as <-; reflexivity.
    - cbn [CalculateExactSolutionThreshold] in A; rewrite E in A; discriminate. }
  destruct H as [(n & l & N & H)|[(n & l & D & H)|H]]; [apply (AC l H)|apply (AC l H)|injection H as <-; reflexivity].
Qed.

Lemma parabola_ready : forall L c k min_rho lin_rho m old, 0 < L -> 0 < k -> c <= L / 100 -> m_fraction m <= / 10 ^ 4 -> m_lmin m = Some old ->
  exists m', BackwardsPropagation (fun l => k * (l - c)) (fun _ => k) L min_rho lin_rho m = Ready m' /\ m_lmin m' = Some c.
Proof.
  intros L c k min_rho lin_rho m old LP KP CL HF HO; unfold BackwardsPropagation. rewrite newton_parabola by assumption.
  unfold accept. destruct (cest_ready L min_rho lin_rho m old HO HF) as (t & C & D). rewrite C. eexists; split; reflexivity.
Qed.
(** the threshold of another minimum *)
Lemma stale : exists dV d2V L min_rho lin_rho m m' l b, 0 < L /\ (forall l0 l, 0 < lin_rho l0 l) /\ (forall lmin d l, 0 < min_rho lmin d l) /\
  m_fraction m = / 10 ^ 4 /\ BackwardsPropagation dV d2V L min_rho lin_rho m = Ready m' /\
  m_lmin m' = Some l /\ l < L /\ m_threshold m' = Some b /\ forall d, probed L l d -> d < b.
Proof.
  set (lr := fun l0 _ : R => 1 + Rabs (l0 - (-1 + / 50))). set (mr := fun _ _ _ : R => 1).
  set (m := mkMembers (Some (-1)) None (/ 10 ^ 4)).
  assert (PL : forall l0 l, 0 < lr l0 l) by (intros; unfold lr; pose proof (Rabs_pos (l0 - (-1 + / 50))); lra).
  assert (PM : forall a b c, 0 < mr a b c) by (intros; unfold mr; lra).
  destruct (parabola_ready 1 0 1 mr lr m (-1)) as (m' & E & ML); try (cbn [m_fraction m_lmin m]; lra); [reflexivity|].
  exists (fun l => 1 * (l - 0)), (fun _ => 1), 1, mr, lr, m, m', 0, (/ 50).
  split; [lra|]. split; [exact PL|]. split; [exact PM|]. split; [reflexivity|]. split; [exact E|]. split; [exact ML|]. split; [lra|].
  assert (HF : m_fraction m <= / 10 ^ 4) by (cbn [m_fraction m]; lra).
  destruct (threshold_found _ _ _ _ _ _ _ Rlt_0_1 HF PL PM E) as [(l & a & old & b & _ & _ & _ & _ & _ & O & T & Pb & MIN)|[C _]];
    [|rewrite ML in C; injection C; lra].
  cbn [m_lmin m] in O; injection O as <-.
  assert (LAST : probed 1 (-1) (/ 50)).
  { exists thousand; split; [apply Nat.le_refl|]. rewrite probe_last by lra. lra. }
  specialize (MIN _ LAST). unfold probe_error, lr, mr in MIN; cbv zeta in MIN.
  replace (-1 + / 50 - (-1 + / 50)) with 0 in MIN by ring. rewrite Rabs_R0 in MIN.
  replace ((1 + 0 - 1) / (1 + 0 + 1)) with 0 in MIN by field. rewrite Rabs_R0 in MIN.
  set (z := Rabs (-1 + b - (-1 + / 50))) in MIN. assert (Z : 0 <= z) by apply Rabs_pos.
  replace (1 + z - 1) with z in MIN by ring.
  assert (Z0 : z = 0).
  { destruct Z as [Z|Z]; [exfalso|auto]. assert (0 < z / (1 + z + 1)) by (apply Rdiv_lt_0_compat; lra). rewrite Rabs_pos_eq in MIN by lra. lra. }
  assert (BE : b = / 50).
  { unfold z in Z0. destruct (Req_dec (-1 + b - (-1 + / 50)) 0) as [Q|Q]; [lra|apply Rabs_no_R0 in Q; lra]. }
  split; [rewrite T, BE; reflexivity|]. intros d D. pose proof (probe_range 1 0 d Rlt_0_1 D). lra.
Qed.
(** the search interval ends although the gradient is positive beyond *)
Lemma cut : exists V dV L lmin j, 0 < L /\ lmin <= L / 100 /\ (forall l, derivable_pt_lim V l (dV l)) /\
  search_end dV V L lmin = lmin + (L - lmin) * INR j / 1000 /\ search_end dV V L lmin < 0 /\
  forall l, lmin <= l < / 4 -> V l < 0 /\ 0 < dV l.
Proof.
  set (V := fun l : R => -1 + l / 4 - l ^ 2 / 2). set (dV := fun l : R => / 4 - l).
  exists V, dV, 1, (- (1 / 2)).
  destruct (upper_spec dV V 1 (- (1 / 2)) thousand 0) as (lmax & E & SP).
  assert (H167 : INR 167 = 167) by (rewrite INR_IZR_INZ; reflexivity).
  assert (T : (167 <= thousand)%nat) by (apply INR_le; rewrite thousand_INR, H167; lra).
  destruct SP as [[_ N]|(j & J & A & B & G)].
  - exfalso. destruct (N 167%nat ltac:(lia)) as [_ N2]. apply N2; unfold dV; rewrite H167; lra.
  - exists j. assert (J167 : (j <= 167)%nat).
    { destruct (le_lt_dec j 167) as [|F]; [assumption|exfalso]. destruct (G 167%nat ltac:(lia)) as [_ N2]. apply N2; unfold dV; rewrite H167; lra. }
    apply le_INR in J167; rewrite H167 in J167.
    split; [lra|]. split; [lra|]. split.
    + intros l; unfold V, dV. 
      assert (D : derivable_pt_lim (fun l : R => -1 + l / 4 - l ^ 2 / 2) l (/ 4 - l)).
      { apply is_derive_Reals. auto_derive; [exact I|field]. }
      exact D.
    + unfold search_end; rewrite E. split; [exact A|]. split; [rewrite A; lra|].
      intros l Hl; unfold V, dV; split; [|lra]. assert (0 <= l ^ 2) by apply pow2_ge_0. lra.
Qed.
(** for lmin = 0 the interval is the documented one *)
Lemma interval_zero : forall dV V L, 
  (search_end dV V L 0 = L /\ forall j, (0 < j <= thousand)%nat -> V (L * INR j / 1000) <= 0 /\ 0 <= dV (L * INR j / 1000)) \/
  exists j, (0 < j <= thousand)%nat /\ search_end dV V L 0 = L * INR j / 1000 /\
    (0 < V (search_end dV V L 0) \/ dV (search_end dV V L 0) < 0) /\
    forall k, (0 < k < j)%nat -> V (L * INR k / 1000) <= 0 /\ 0 <= dV (L * INR k / 1000).
Proof.
  intros dV V L; unfold search_end. destruct (upper_spec dV V L 0 thousand 0) as (lmax & -> & SP).
  assert (X : forall j, 0 + (L - 0) * INR j / 1000 = L * INR j / 1000) by (intros; lra).
  assert (Y : forall j, (L - 0) * INR j / 1000 = L * INR j / 1000) by (intros; lra).
  destruct SP as [[A N]|(j & J & A & B & G)].
  - left; split; [exact A|]. intros j J. specialize (N j ltac:(lia)). rewrite X, Y in N. destruct N; split; lra.
  - right; exists j. rewrite X in A. split; [lia|]. split; [exact A|]. replace (lmax - 0) with lmax in B by lra. split; [exact B|].
    intros k K. specialize (G k ltac:(lia)). rewrite X, Y in G. destruct G; split; lra.
Qed.

(** ** In terms of the specification *)
Lemma probed_tried : forall L lmin d, lmin < L -> (probed L lmin d <-> tried L lmin d).
Proof.
  intros L lmin d H.
  assert (E : forall i, probe L lmin i = (L - lmin) / 100 * exp (INR i / 100 - 10)).
  { intros i; unfold probe. replace ((L - lmin) / 100) with (exp (ln ((L - lmin) / 100))) at 4 by (apply exp_ln; lra).
    rewrite <- exp_plus. f_equal. field. }
  split; intros (i & I & ->); exists i.
  - split; [apply le_INR in I; rewrite thousand_INR in I; exact I|apply E].
  - split; [apply INR_le; rewrite thousand_INR; exact I|symmetry; apply E].
Qed.
Lemma error_disagreement : forall L mr lr lmin fr d, (forall l0 l, 0 < lr l0 l) -> (forall lmin d l, 0 < mr lmin d l) ->
  probe_error L mr lr lmin fr d = disagreement mr lr L fr lmin d.
Proof.
  intros L mr lr lmin fr d PL PM; unfold probe_error, disagreement, half_difference; cbv zeta.
  set (a := lr _ _); set (b := mr _ _ _). assert (0 < a) by apply PL. assert (0 < b) by apply PM.
  unfold Rdiv; rewrite Rabs_mult, (Rabs_pos_eq (/ (a + b))) by (apply Rlt_le, Rinv_0_lt_compat; lra). field; lra.
Qed.
Lemma prepared_ok : forall dV d2V L min_rho lin_rho m m', 0 < L -> m_fraction m <= / 10 ^ 4 ->
  (forall l0 l, 0 < lin_rho l0 l) -> (forall lmin d l, 0 < min_rho lmin d l) ->
  (forall old, m_lmin m = Some old -> old < L) ->
  BackwardsPropagation dV d2V L min_rho lin_rho m = Ready m' ->
  m_fraction m' = m_fraction m /\
  ((exists l a old b, m_lmin m' = Some l /\ (d2V a <> 0 /\ l = a - dV a / d2V a \/ l = a - dV a / 100) /\
     Rabs (l - a) < / 10 ^ 8 * L /\ 0 < d2V l /\ l <= L / 100 /\
     m_lmin m = Some old /\ m_threshold m' = Some b /\ tried L old b /\
     forall d, tried L old d -> disagreement min_rho lin_rho L (m_fraction m) old b <= disagreement min_rho lin_rho L (m_fraction m) old d) \/
   (m_lmin m' = Some (- L / 1000) /\ m_threshold m' = None)).
Proof.
  intros dV d2V L mr lr m m' LP HF PL PM HO H. split; [exact (fraction_kept _ _ _ _ _ _ _ HF H)|].
  destruct (threshold_found _ _ _ _ _ _ _ LP HF PL PM H) as [(l & a & old & b & A1 & A2 & A3 & A4 & A5 & A6 & A7 & A8 & A9)|C]; [left|right; exact C].
  exists l, a, old, b. specialize (HO old A6). repeat split; try assumption; [apply probed_tried; assumption|].
  intros d D. rewrite <- !error_disagreement by assumption. apply A9, probed_tried; assumption.
Qed.
Lemma stale_ok : exists dV d2V L min_rho lin_rho m m' l b, 0 < L /\ (forall l0 l, 0 < lin_rho l0 l) /\ (forall lmin d l, 0 < min_rho lmin d l) /\
  m_fraction m = / 10 ^ 4 /\ BackwardsPropagation dV d2V L min_rho lin_rho m = Ready m' /\
  m_lmin m' = Some l /\ l < L /\ m_threshold m' = Some b /\ forall d, tried L l d -> d < b.
Proof.
  destruct stale as (dV & d2V & L & mr & lr & m & m' & l & b & A1 & A2 & A3 & A4 & A5 & A6 & A7 & A8 & A9).
  exists dV, d2V, L, mr, lr, m, m', l, b; repeat split; try assumption. intros d D; apply A9, probed_tried; assumption.
Qed.
Lemma coarse_ok : exists dV d2V L min_rho lin_rho m m' l, l < L /\ (forall l0 l, 0 < lin_rho l0 l) /\ (forall lmin d l, 0 < min_rho lmin d l) /\
  m_fraction m = m_fraction new_members /\ BackwardsPropagation dV d2V L min_rho lin_rho m = Ready m' /\
  m_lmin m = Some l /\ m_lmin m' = Some l /\ m_threshold m' <> None /\
  (forall d, tried L l d -> / 10 ^ 2 < disagreement min_rho lin_rho L (m_fraction m') l d) /\ m_fraction m' = m_fraction m.
Proof.
  set (lr := fun _ _ : R => 1). set (mr := fun _ _ _ : R => 3).
  set (m := mkMembers (Some 0) None (/ 10 ^ 4)).
  assert (PL : forall l0 l, 0 < lr l0 l) by (intros; unfold lr; lra).
  assert (PM : forall a b c, 0 < mr a b c) by (intros; unfold mr; lra).
  destruct (parabola_ready 1 0 1 mr lr m 0) as (m' & E & ML); try (cbn [m_fraction m_lmin m]; lra); [reflexivity|].
  assert (HF : m_fraction m <= / 10 ^ 4) by (cbn [m_fraction m]; lra).
  assert (HO : forall old, m_lmin m = Some old -> old < 1) by (intros old O; cbn [m_lmin m] in O; injection O as <-; lra).
  destruct (prepared_ok _ _ _ _ _ _ _ Rlt_0_1 HF PL PM HO E) as [FK [(l & a & old & b & _ & _ & _ & _ & _ & O & T & _)|[C _]]]; [|rewrite ML in C; injection C; lra].
  exists (fun l => 1 * (l - 0)), (fun _ => 1), 1, mr, lr, m, m', 0.
  split; [lra|]. split; [exact PL|]. split; [exact PM|]. split; [reflexivity|]. split; [exact E|]. split; [reflexivity|]. split; [exact ML|].
  split; [rewrite T; discriminate|]. split; [|exact FK].
  intros d _; unfold disagreement, half_difference, lr, mr. replace (1 - 3) with (- (2)) by ring.
  rewrite Rabs_Ropp, Rabs_pos_eq by lra. lra.
Qed.

Lemma threshold_ends : forall L min_rho lin_rho fuel MinError m lmin, m_lmin m = Some lmin -> m_fraction m <= 10 ^ fuel / 10 ^ 4 ->
  exists m', CalculateExactSolutionThreshold L min_rho lin_rho (S fuel) MinError m = Ready m' /\ m_lmin m' = Some lmin /\
    exists k, (k <= fuel)%nat /\ m_fraction m' = m_fraction m / 10 ^ k.
Proof.
  intros L min_rho lin_rho. induction fuel as [|fuel IH]; intros MinError m lmin E F; cbn [CalculateExactSolutionThreshold]; rewrite E;
    destruct (probes _ _ _ _ _ _) as [e t]; destruct (Rlt_dec (/ 10 ^ 2) e) as [A|A]; try (destruct (Rle_dec (m_fraction m) (/ 10 ^ 4)) as [B|B]);
    try (eexists; split; [reflexivity|]; split; [reflexivity|]; exists 0%nat; split; [lia|cbn; field]).
  - exfalso. apply B. cbn [pow] in F |- *. lra.
  - destruct (IH e (mkMembers (Some lmin) t (m_fraction m / 10)) lmin eq_refl) as (m' & R1 & R2 & k & K & R3).
    { cbn [m_fraction]. cbn [pow] in F |- *. lra. }
    exists m'. split; [exact R1|]. split; [exact R2|]. exists (S k). split; [lia|]. rewrite R3. cbn [m_fraction pow]. field. apply pow_nonzero; lra.
Qed.
