From Coq Require Import ZifyBool.
From Verif.Model Require Import Base Phase MultiStep.
From Verif.Spec Require Import PhaseSpec MultiStepSpec.
From Verif.Proofs Require Import PhaseProofs VacuumProofs.
Open Scope Z_scope.

Definition allgood (ps : list phase) := forall q, In q ps -> good q.
Definition lows (c : Z) (ps : list phase) := forall q, In q ps -> c <= T_low q.

Lemma good_range p : good p -> In (T_low p) (temps p) /\ In (T_high p) (temps p) /\
  forall t, In t (temps p) -> T_low p <= t <= T_high p.
Proof.
  intros [_ (_ & [A1 A2] & [B1 B2]) _]. split; [auto|]. split; [auto|]. intros t Ht. split; auto.
Qed.

Lemma extends_range q q' : good q -> good q' -> extends q q' -> T_low q' <= T_low q /\ T_high q <= T_high q'.
Proof.
  intros G G' [_ E]. destruct (good_range q G) as (A & B & _). destruct (good_range q' G') as (_ & _ & C).
  split; apply C; auto.
Qed.

Lemma AddAll_low c q ms : good q -> c <= T_low q -> (forall m, In m ms -> c <= temp m) -> c <= T_low (AddAll q ms).
Proof.
  intros G Hq Hm. pose proof (good_AddAll q ms G) as G'. destruct (good_range _ G') as (A & _ & _).
  apply AddAll_temps in A; [|apply G]. destruct A as [A|A].
  - apply in_map_iff in A as (m & <- & Hi). auto.
  - destruct (good_range q G) as (_ & _ & C). specialize (C _ A). lia.
Qed.

Lemma update_in i q l x : In x (update_at i q l) -> x = q \/ In x l.
Proof.
  revert i. induction l as [|y l IH]; intros [|i] H; cbn in H; try tauto.
  - destruct H as [<-|H]; cbn; auto.
  - destruct H as [<-|H]; cbn; auto. apply IH in H. tauto.
Qed.

Lemma update_extends i q q' l : nth_error l i = Some q -> extends q q' -> Forall2 extends l (update_at i q' l).
Proof.
  revert i. induction l as [|y l IH]; intros [|i] H E; cbn in *; try discriminate.
  - injection H as ->. constructor; [auto|]. clear. induction l; constructor; auto using extends_refl.
  - constructor; auto using extends_refl.
Qed.

Lemma update_nth i q q' l : nth_error l i = Some q -> In q' (update_at i q' l).
Proof. revert i. induction l as [|y l IH]; intros [|i] H; cbn in *; try discriminate; eauto. Qed.

Lemma Forall2_extends_trans a b c : Forall2 extends a b -> Forall2 extends b c -> Forall2 extends a c.
Proof.
  intro H. revert c. induction H as [|x y l l' E F IH]; intros c H; inversion H; subst; constructor; eauto using extends_trans.
Qed.

Lemma Forall2_extends_in a b q : Forall2 extends a b -> In q a -> exists q', In q' b /\ extends q q'.
Proof.
  induction 1 as [|x y l l' E F IH]; intros []; subst; [exists y; cbn; auto|]. destruct (IH H) as (z & ? & ?). exists z. cbn; auto.
Qed.

Section MS.
Variable track : nat -> minimum -> Z -> list minimum.
Variable near : nat -> nat -> minimum -> bool.
Variable trace : nat -> bool -> Z -> list minimum.
Variable retrack : nat -> phase -> list minimum.
Variable cmp : nat -> nat -> phase -> phase -> compare_result.
Variable non_bfb ht_vev : bool.
Variable Tlow Thigh one : Z.
Variable grid : list Z.

Lemma found_spec k T : forall n i ps, allgood ps ->
  exists ps' b, found_loop track near k n i ps T = Ok (ps', b) /\ allgood ps' /\ Forall2 extends ps ps' /\
    (b = true -> exists q, In q ps' /\ T_low q <= T <= T_high q) /\
    (tracks_inside track -> forall c, lows c ps -> lows c ps') /\
    (tracks_inside track -> b = true -> ~ lows (T + 1) ps).
Proof.
  assert (Refl : forall ps, Forall2 extends ps ps) by (intro ps; induction ps; constructor; auto using extends_refl).
  induction n as [|n IH]; intros i ps G; cbn [found_loop].
  - exists ps, false. split; [auto|]. split; [auto|]. split; [auto|]. split; [discriminate|]. split; [auto|]. intros _; discriminate.
  - destruct (nth_error ps i) as [q|] eqn:Eq; [|exists ps, false; split; [auto|]; split; [auto|]; split; [auto|]; split; [discriminate|]; split; [auto|]; intros _; discriminate].
    assert (Gq : good q) by (apply G; eapply nth_error_In; eauto).
    destruct ((T_high q <? T) || (T <? T_low q)) eqn:Er; [apply IH; auto|].
    destruct (Get_total (track k) q T) as (q' & m & Eg).
    { destruct Gq as [_ (N & _) _]. auto. }
    rewrite Eg. cbn [bind fst snd].
    destruct (Get_invariants _ _ _ _ _ (g_sorted _ Gq) (g_ranged _ Gq) Eg) as (S' & R' & Ex & Cases).
    assert (Gq' : good q' /\ extends q q').
    { unfold Get in Eg. destruct (mins q) eqn:Em; [discriminate|]. destruct (_ =? _); [injection Eg as <- <-; auto using extends_refl|].
      destruct (track k _ T) as [|m1 ms]; [injection Eg as <- <-; auto using extends_refl|].
      assert (q' = AddAll q (m1 :: ms)) as -> by (injection Eg; congruence).
      split; [now apply good_AddAll|apply extends_AddAll, Gq]. }
    destruct Gq' as [Gq' Xq].
    assert (Low : tracks_inside track -> T_low q <= T_low q').
    { intro TI. destruct (good_range _ Gq') as (A & _ & _). destruct (good_range _ Gq) as (_ & _ & C).
      destruct Cases as [(-> & _)|(s & Hs & Hn & _ & _ & Ht)]; [lia|].
      apply Ht in A as [A|A]; [apply C in A; lia|]. apply in_map_iff in A as (x & <- & Hx). apply TI in Hx.
      assert (X : T_low q <= temp s) by (apply C; now apply in_map). lia. }
    set (ps1 := update_at i q' ps).
    assert (G1 : allgood ps1) by (intros x Hx; apply update_in in Hx as [->|Hx]; auto).
    assert (X1 : Forall2 extends ps ps1) by (eapply update_extends; eauto).
    assert (L1 : tracks_inside track -> forall c, lows c ps -> lows c ps1).
    { intros TI c Hc x Hx. apply update_in in Hx as [->|Hx]; [|auto].
      specialize (Low TI). specialize (Hc q (nth_error_In _ _ Eq)). lia. }
    destruct (near k i m).
    + exists ps1, true. split; [auto|]. split; [auto|]. split; [auto|]. split.
      { intros _. exists q'. split; [eapply update_nth; eauto|].
        destruct (extends_range q q' Gq Gq' Xq). lia. }
      split; [auto|]. intros TI _ HL. specialize (HL q (nth_error_In _ _ Eq)). lia.
    + destruct (IH (S i) ps1 G1) as (ps' & b & E & A1 & A2 & A3 & A4 & A5).
      exists ps', b. split; [auto|]. split; [auto|]. split; [eapply Forall2_extends_trans; eauto|].
      split; [auto|]. split; [auto|]. intros TI Hb HL. apply (A5 TI Hb). auto.
Qed.

Lemma compare_loop_low k ps : compares_inside cmp -> forall i p ps' p' b c,
  allgood ps -> good p -> lows c ps -> c <= T_low p ->
  compare_loop (cmp k) i ps p = (ps', p', b) -> lows c ps' /\ T_low p' = T_low p.
Proof.
  intros CI. induction ps as [|q ps IH]; intros i p ps' p' b c G Gp L Lp H; cbn [compare_loop] in H.
  - injection H as <- <- <-. split; [intros q []|reflexivity].
  - assert (Gq : good q) by (apply G; left; auto).
    assert (G' : allgood ps) by (intros x Hx; apply G; right; auto).
    assert (L' : lows c ps) by (intros x Hx; apply L; right; auto).
    assert (Lq : c <= T_low q) by (apply L; left; auto).
    destruct (_ <=? _).
    + destruct (compare_loop (cmp k) (S i) ps p) as [[r p1] b1] eqn:E. injection H as <- <- <-.
      destruct (IH _ _ _ _ _ _ G' Gp L' Lp E) as [A B]. split; [|auto]. intros x [<-|Hx]; auto.
    + set (q1 := AddAll q (ext_existing (cmp k i q p))) in *.
      set (p1 := AddAll p (ext_new (cmp k i q p))) in *.
      assert (Gq1 : good q1) by now apply good_AddAll.
      assert (Gp1 : good p1) by now apply good_AddAll.
      assert (Ep : T_low p1 = T_low p).
      { destruct (extends_range p p1 Gp Gp1 (extends_AddAll p _ (g_sorted _ Gp))).
        assert (T_low p <= T_low p1); [|lia]. apply AddAll_low; [auto|lia|].
        intros m Hm. specialize (CI k i q p m (in_or_app _ _ _ (or_intror Hm))). lia. }
      assert (Lq1 : c <= T_low q1).
      { apply AddAll_low; auto. intros m Hm. specialize (CI k i q p m (in_or_app _ _ _ (or_introl Hm))). lia. }
      destruct (coincide (cmp k i q p)).
      * injection H as <- <- <-. split; [|auto]. intros x [<-|Hx]; [|auto].
        apply AddAll_low; auto. intros m Hm. destruct (good_range p1 Gp1) as (_ & _ & C).
        specialize (C (temp m) (in_map temp _ _ Hm)). lia.
      * destruct (compare_loop (cmp k) (S i) ps p1) as [[r p2] b1] eqn:E. injection H as <- <- <-.
        assert (Lp1 : c <= T_low p1) by lia.
        destruct (IH _ _ _ _ _ _ G' Gp1 L' Lp1 E) as [A B]. split; [|lia]. intros x [<-|Hx]; auto.
Qed.

Lemma add_spec k ht T ps : allgood ps ->
  let '(ps', T') := trace_and_add trace retrack cmp k ht T ps in
  let p := make_phase (trace k ht T) in
  allgood ps' /\ (forall q, In q ps -> exists q', In q' ps' /\ extends q q') /\
  ((3 <= length (mins p))%nat -> exists q, In q ps' /\ forall t, In t (temps p) -> In t (temps q)) /\
  (retracks_inside retrack -> compares_inside cmp -> T' = T_low p /\
     forall c, lows c ps -> c <= T_low p -> lows c ps').
Proof.
  intro G. unfold trace_and_add. set (p := make_phase (trace k ht T)).
  destruct (addPhase (retrack k) (cmp k) ps p) as [ps' p'] eqn:E.
  destruct (addPhase_step _ _ _ _ _ _ G (ex_intro _ _ eq_refl) E) as (A & (kept & new & -> & B & _) & C).
  split; [exact A|]. split.
  { intros q Hq. destruct (Forall2_extends_in _ _ _ B Hq) as (q' & X & Y). exists q'. split; [apply in_or_app|]; auto. }
  split; [intro H; apply C; auto|]. clear A B C. intros RI CI.
  assert (Sp : sorted p) by apply make_phase_sorted.
  assert (Rp : (1 < length (mins p))%nat -> ranged p).
  { intro L. apply make_phase_ranged. intro H. unfold p in L. rewrite H in L. cbn in L. lia. }
  unfold addPhase in E. destruct (length (mins p) <=? 1)%nat eqn:E1.
  { injection E as E <-. rewrite <- E. auto. }
  assert (Go : forall p0, good p0 -> T_low p0 = T_low p ->
    (let '(ps', p', merged) := compare_loop (cmp k) 0 ps p0 in
      if merged then (ps', p') else (ps' ++ [mark_edges p'], mark_edges p')) = (kept ++ new, p') ->
    T_low p' = T_low p /\ forall c, lows c ps -> c <= T_low p -> lows c (kept ++ new)).
  { intros p0 G0 E0 H0. destruct (compare_loop (cmp k) 0 ps p0) as [[r p1] b] eqn:F.
    assert (F' : forall c, lows c ps -> c <= T_low p0 -> lows c r /\ T_low p1 = T_low p0).
    { intros c H1 H2. eapply compare_loop_low; eauto. }
    assert (Tp : T_low p1 = T_low p0).
    { destruct (compare_loop_low k ps CI 0 p0 r p1 b (fold_right Z.min (T_low p0) (map T_low ps)) G G0) as [_ X]; auto.
      - intros q Hq. clear - Hq. induction ps as [|x l IH]; [destruct Hq|]. cbn. destruct Hq as [<-|Hq]; [lia|]. specialize (IH Hq). lia.
      - clear. induction ps; cbn; lia. }
    destruct b.
    - assert (R : r = kept ++ new) by (injection H0; congruence). assert (P : p1 = p') by (injection H0; congruence). subst.
      split; [lia|]. intros c H1 H2. apply F'; auto; lia.
    - assert (R : r ++ [mark_edges p1] = kept ++ new) by (injection H0; congruence).
      assert (P : mark_edges p1 = p') by (injection H0; congruence). rewrite <- R, <- P.
      split; [cbn [T_low mark_edges]; lia|]. intros c H1 H2 q Hq. apply in_app_or in Hq as [Hq|[<-|[]]].
      + assert (H2' : c <= T_low p0) by lia. destruct (F' c H1 H2') as [Fr _]. apply Fr, Hq.
      + cbn [T_low mark_edges]. lia. }
  destruct (length (mins p) =? 2)%nat eqn:E2.
  - destruct (retrack k p) as [|m ms] eqn:Er.
    + assert (ps = kept ++ new) by (injection E; congruence). assert (p = p') by (injection E; congruence). subst p'.
      rewrite <- H. auto.
    + assert (Gp : good p) by (split; [exact Sp|apply Rp; lia|lia]).
      assert (G0 : good (AddAll p (m :: ms))) by now apply good_AddAll.
      apply (Go _ G0); [|exact E].
      destruct (extends_range p _ Gp G0 (extends_AddAll p _ Sp)).
      assert (T_low p <= T_low (AddAll p (m :: ms))); [|lia]. apply AddAll_low; [auto|lia|].
      intros x Hx. rewrite <- Er in Hx. apply RI in Hx. lia.
  - assert (G0 : good p) by (split; [exact Sp|apply Rp; lia|lia]). apply (Go _ G0); auto.
Qed.

Lemma grid_total : forall ts k ps, allgood ps ->
  exists ps', grid_loop track near trace retrack cmp k ts ps = Ok ps' /\ allgood ps' /\
    forall q, In q ps -> exists q', In q' ps' /\ extends q q'.
Proof.
  induction ts as [|T ts IH]; intros k ps G; cbn [grid_loop].
  - exists ps. split; [auto|]. split; [auto|]. intros q Hq. exists q. split; [auto|apply extends_refl].
  - unfold MinimumFoundAlready. destruct (found_spec k T (length ps) 0 ps G) as (ps1 & b & -> & G1 & X1 & _).
    cbn [bind snd fst]. destruct b.
    + destruct (IH (S k) ps1 G1) as (ps' & -> & G' & X'). exists ps'. split; [auto|]. split; [auto|].
      intros q Hq. destruct (Forall2_extends_in _ _ _ X1 Hq) as (q1 & H1 & E1). destruct (X' _ H1) as (q2 & H2 & E2).
      exists q2. split; [auto|eapply extends_trans; eauto].
    + pose proof (add_spec k false T ps1 G1) as A. destruct (trace_and_add trace retrack cmp k false T ps1) as [ps2 T'].
      destruct A as (G2 & X2 & _). cbn [fst]. destruct (IH (S k) ps2 G2) as (ps' & -> & G' & X'). exists ps'. split; [auto|]. split; [auto|].
      intros q Hq. destruct (Forall2_extends_in _ _ _ X1 Hq) as (q1 & H1 & E1). destruct (X2 _ H1) as (q2 & H2 & E2).
      destruct (X' _ H2) as (q3 & H3 & E3).
      exists q3. split; [auto|]. eapply extends_trans; [eauto|]. eapply extends_trans; eauto.
Qed.

Notation run := (MultiStepPTTracer track near trace retrack cmp non_bfb ht_vev Tlow Thigh one grid).

(** ** the failure flag *)
Lemma ms_flag : forall fuel k T d ps r, run fuel k T d ps = Ok r -> snd r = non_bfb.
Proof.
  induction fuel as [|fu IH]; intros k T d ps r H; [discriminate|]. cbn [MultiStepPTTracer] in H.
  destruct (T <=? Tlow).
  { destruct non_bfb; [injection H as <-; reflexivity|].
    destruct (grid_loop _ _ _ _ _ _ _ _); try discriminate. injection H as <-. reflexivity. }
  assert (N : forall k1 ps1, bind (MinimumFoundAlready track near (S k1) ps1 T) (fun f =>
            if snd f then run fu (S (S k1)) (T + d) 0 (fst f)
            else if Thigh <? T then Throw InvalidArgument
            else let '(ps', T') := trace_and_add trace retrack cmp (S k1) false T (fst f) in
                 run fu (S (S k1)) T' (- one) ps') = Ok r -> snd r = non_bfb).
  { clear H. intros k1 ps1 E. destruct (MinimumFoundAlready track near (S k1) ps1 T) as [f| | |]; try discriminate. cbn [bind] in E.
    destruct (snd f); [exact (IH _ _ _ _ _ E)|]. destruct (Thigh <? T); [discriminate|].
    destruct (trace_and_add _ _ _ _ _ _ _). exact (IH _ _ _ _ _ E). }
  destruct ((T =? Thigh) && ht_vev); [|exact (N _ _ H)].
  destruct (MinimumFoundAlready track near k ps T) as [f| | |]; try discriminate. cbn [bind] in H.
  destruct (snd f); [exact (N _ _ H)|]. destruct (trace_and_add _ _ _ _ _ _ _). exact (IH _ _ _ _ _ H).
Qed.

(** ** termination *)
Lemma ms_terminates :
  0 < one -> tracks_inside track -> retracks_inside retrack -> compares_inside cmp ->
  (forall k ht T, Tlow < T -> T_low (make_phase (trace k ht T)) < T) ->
  forall n k T d ps, T - Tlow <= Z.of_nat n -> T <= Thigh -> allgood ps ->
    (d = 0 /\ lows (T + 1) ps \/ d = - one /\ lows T ps /\ T < Thigh) ->
    exists r, run (S n) k T d ps = Ok r.
Proof.
  intros H1 TI RI CI Prog. induction n as [|n IH]; intros k T d ps Hn HT G Inv.
  - cbn [MultiStepPTTracer]. replace (T <=? Tlow) with true by lia. destruct non_bfb; [eauto|].
    pose proof (add_spec k false Tlow ps G) as A. destruct (trace_and_add trace retrack cmp k false Tlow ps) as [ps2 T'].
    destruct A as (G2 & _). cbn [fst]. destruct (grid_total grid (S k) ps2 G2) as (ps' & -> & _). cbn. eauto.
  - remember (S n) as n1. cbn [MultiStepPTTracer]. subst n1. destruct (T <=? Tlow) eqn:E.
    { destruct non_bfb; [eauto|].
      pose proof (add_spec k false Tlow ps G) as A. destruct (trace_and_add trace retrack cmp k false Tlow ps) as [ps2 T'].
      destruct A as (G2 & _). cbn [fst]. destruct (grid_total grid (S k) ps2 G2) as (ps' & -> & _). cbn. eauto. }
    assert (Step : forall k1 k2 ht ps1, allgood ps1 -> lows T ps1 ->
      exists r, (let '(ps', T') := trace_and_add trace retrack cmp k1 ht T ps1 in run (S n) k2 T' (- one) ps') = Ok r).
    { intros k1 k2 ht ps1 G1 L1. pose proof (add_spec k1 ht T ps1 G1) as A. destruct (trace_and_add trace retrack cmp k1 ht T ps1) as [ps2 T'].
      destruct A as (G2 & _ & _ & A). destruct (A RI CI) as [-> A']. assert (P : T_low (make_phase (trace k1 ht T)) < T) by (apply Prog; lia).
      apply IH; [lia|lia|exact G2|]. right. split; [auto|]. split; [|lia]. apply A'; [|lia].
      intros q Hq. specialize (L1 q Hq). lia. }
    assert (Normal : forall k1 ps1, allgood ps1 -> (d = 0 /\ lows (T + 1) ps1 \/ d = - one /\ lows T ps1 /\ T < Thigh) ->
      exists r, bind (MinimumFoundAlready track near (S k1) ps1 T) (fun f =>
            if snd f then run (S n) (S (S k1)) (T + d) 0 (fst f)
            else if Thigh <? T then Throw InvalidArgument
            else let '(ps', T') := trace_and_add trace retrack cmp (S k1) false T (fst f) in
                 run (S n) (S (S k1)) T' (- one) ps') = Ok r).
    { intros k1 ps1 G1 I1. unfold MinimumFoundAlready.
      destruct (found_spec (S k1) T (length ps1) 0 ps1 G1) as (ps2 & b & -> & G2 & _ & _ & L2 & N2).
      cbn [bind snd fst]. destruct b.
      - destruct I1 as [(-> & L)|(-> & L & Hlt)].
        + exfalso. apply (N2 TI eq_refl L).
        + apply IH; [lia|lia|exact G2|]. left. split; [auto|]. intros q Hq. specialize (L2 TI T L q Hq). lia.
      - replace (Thigh <? T) with false by lia. apply Step; [exact G2|].
        assert (L : lows T ps1) by (destruct I1 as [(_ & L)|(_ & L & _)]; intros q Hq; specialize (L q Hq); lia).
        apply (L2 TI T L). }
    destruct ((T =? Thigh) && ht_vev) eqn:EH; [|apply Normal; auto].
    unfold MinimumFoundAlready at 1. destruct (found_spec k T (length ps) 0 ps G) as (ps2 & b & -> & G2 & _ & _ & L2 & N2).
    cbn [bind snd fst]. destruct Inv as [(-> & L)|(_ & _ & Hlt)]; [|exfalso; lia].
    destruct b; [exfalso; apply (N2 TI eq_refl L)|]. apply Step; [exact G2|].
    intros q Hq. specialize (L2 TI (T + 1) L q Hq). lia.
Qed.

Lemma run_terminates :
  0 < one -> tracks_inside track -> retracks_inside retrack -> compares_inside cmp ->
  (forall k ht T, Tlow < T -> T_low (make_phase (trace k ht T)) < T) ->
  exists fuel r, run_multistep track near trace retrack cmp non_bfb ht_vev Tlow Thigh one grid fuel = Ok r.
Proof.
  intros H1 TI RI CI Prog. exists (S (Z.to_nat (Thigh - Tlow))). apply ms_terminates; auto; try lia.
  - intros q [].
  - left. split; [auto|]. intros q [].
Qed.

(** ** coverage *)
Lemma covered_mono slack lo hi ps ps' : allgood ps -> allgood ps' ->
  (forall q, In q ps -> exists q', In q' ps' /\ extends q q') -> covered slack lo hi ps -> covered slack lo hi ps'.
Proof.
  intros G G' X C t Ht. destruct (C t Ht) as (q & Hq & Hr). destruct (X q Hq) as (q' & Hq' & E).
  exists q'. split; [auto|]. destruct (extends_range q q' (G _ Hq) (G' _ Hq') E). lia.
Qed.

Lemma F2x ps ps' : Forall2 extends ps ps' -> forall q, In q ps -> exists q', In q' ps' /\ extends q q'.
Proof. intros F q Hq. eapply Forall2_extends_in; eauto. Qed.

Lemma make_phase_in ms m : In m ms -> In (temp m) (temps (make_phase ms)).
Proof.
  intro H. unfold make_phase. rewrite fix_range_temps. apply AddAll_temps; [apply sorted_empty|]. left. now apply in_map.
Qed.

Lemma ms_covers :
  0 < one -> retracks_inside retrack -> compares_inside cmp ->
  (forall k ht T, Tlow < T -> In T (map temp (trace k ht T)) /\ (3 <= length (mins (make_phase (trace k ht T))))%nat) ->
  forall fuel k T d ps r, allgood ps -> (d = 0 \/ d = - one) -> covered one (T + 1) Thigh ps ->
    (d = - one -> covered one T Thigh ps) ->
    run fuel k T d ps = Ok r -> covered one (Tlow + 1) Thigh (fst r).
Proof.
  intros H1 RI CI Tr. induction fuel as [|fu IH]; intros k T d ps r G Hd C C' H; [discriminate|]. cbn [MultiStepPTTracer] in H.
  destruct (T <=? Tlow) eqn:E.
  - assert (C0 : covered one (Tlow + 1) Thigh ps) by (intros t Ht; apply C; lia).
    destruct non_bfb; [injection H as <-; exact C0|].
    pose proof (add_spec k false Tlow ps G) as A. destruct (trace_and_add trace retrack cmp k false Tlow ps) as [ps2 T'].
    destruct A as (G2 & X2 & _). cbn [fst] in H. destruct (grid_total grid (S k) ps2 G2) as (ps' & E' & G' & X'). rewrite E' in H.
    cbn [bind] in H. injection H as <-. cbn [fst]. apply (covered_mono _ _ _ ps2); auto. apply (covered_mono _ _ _ ps); auto.
  - assert (Step : forall k1 k2 ht ps1, allgood ps1 -> covered one (T + 1) Thigh ps1 ->
      (let '(ps', T') := trace_and_add trace retrack cmp k1 ht T ps1 in run fu k2 T' (- one) ps') = Ok r ->
      covered one (Tlow + 1) Thigh (fst r)).
    { intros k1 k2 ht ps1 G1 C1 H'. pose proof (add_spec k1 ht T ps1 G1) as A. destruct (trace_and_add trace retrack cmp k1 ht T ps1) as [ps2 T'].
      destruct A as (G2 & X2 & A & B). destruct (Tr k1 ht T) as [T1 T2]; [lia|]. destruct (A T2) as (q & Hq & Hqt). destruct (B RI CI) as [-> _].
      assert (Cq : covered one (T_low (make_phase (trace k1 ht T))) Thigh ps2).
      { intros t Ht. destruct (Z.le_gt_cases t T).
        - exists q. split; [auto|]. destruct (good_range q (G2 _ Hq)) as (_ & _ & R).
          assert (Gp : good (make_phase (trace k1 ht T))).
          { split; [apply make_phase_sorted| |lia]. apply make_phase_ranged. intro N. rewrite N in T2. cbn in T2. lia. }
          destruct (good_range _ Gp) as (P & _ & _). specialize (R _ (Hqt _ P)) as R1.
          apply in_map_iff in T1 as (m & Em & Hm). apply make_phase_in in Hm. specialize (R _ (Hqt _ Hm)). lia.
        - apply (covered_mono one (T + 1) Thigh ps1 ps2); auto. lia. }
      apply (IH k2 _ _ _ _ G2) in H'; auto. intros t Ht. apply Cq. lia. }
    assert (Normal : forall k1 ps1, allgood ps1 -> covered one (T + 1) Thigh ps1 -> (d = - one -> covered one T Thigh ps1) ->
      bind (MinimumFoundAlready track near (S k1) ps1 T) (fun f =>
            if snd f then run fu (S (S k1)) (T + d) 0 (fst f)
            else if Thigh <? T then Throw InvalidArgument
            else let '(ps', T') := trace_and_add trace retrack cmp (S k1) false T (fst f) in
                 run fu (S (S k1)) T' (- one) ps') = Ok r -> covered one (Tlow + 1) Thigh (fst r)).
    { intros k1 ps1 G1 I1 I2 H'. unfold MinimumFoundAlready in H'.
      destruct (found_spec (S k1) T (length ps1) 0 ps1 G1) as (ps2 & b & E' & G2 & X2 & Fd & _). rewrite E' in H'.
      cbn [bind snd fst] in H'. assert (C2 : covered one (T + 1) Thigh ps2) by (apply (covered_mono _ _ _ ps1); eauto using F2x).
      destruct b.
      - apply (IH _ _ _ _ _ G2) in H'; [exact H'|auto| |lia].
        destruct (Fd eq_refl) as (q & Hq & Hr). intros t Ht. destruct (Z.le_gt_cases t T); [|apply C2; lia].
        exists q. split; [auto|]. lia.
      - destruct (Thigh <? T); [discriminate|]. eapply Step; [exact G2|exact C2|exact H']. }
    destruct ((T =? Thigh) && ht_vev); [|eapply Normal; eauto].
    unfold MinimumFoundAlready at 1 in H. destruct (found_spec k T (length ps) 0 ps G) as (ps2 & b & E' & G2 & X2 & _). rewrite E' in H.
    cbn [bind snd fst] in H. assert (C2 : covered one (T + 1) Thigh ps2) by (apply (covered_mono _ _ _ ps); eauto using F2x).
    destruct b.
    + eapply Normal; [exact G2|exact C2| |exact H]. intro D. apply (covered_mono _ _ _ ps); eauto using F2x.
    + eapply Step; [exact G2|exact C2|exact H].
Qed.

Lemma run_covers :
  0 < one -> retracks_inside retrack -> compares_inside cmp ->
  (forall k ht T, Tlow < T -> In T (map temp (trace k ht T)) /\ (3 <= length (mins (make_phase (trace k ht T))))%nat) ->
  forall fuel ps failed, run_multistep track near trace retrack cmp non_bfb ht_vev Tlow Thigh one grid fuel = Ok (ps, failed) ->
    covered one (Tlow + 1) Thigh ps.
Proof.
  intros H1 RI CI Tr fuel ps failed H. apply (ms_covers H1 RI CI Tr fuel 0 Thigh 0 [] (ps, failed)); auto.
  - intros q [].
  - intros t Ht. lia.
  - lia.
Qed.

Lemma ms_stuck : Tlow < Thigh ->
  (forall k ht, exists m, trace k ht Thigh = [m] /\ temp m = Thigh) -> ht_vev = false ->
  forall fuel k d, run fuel k Thigh d [] = OutOfFuel.
Proof.
  intros HT Hm Hh. induction fuel as [|f IH]; intros k d; [reflexivity|]. cbn [MultiStepPTTracer].
  replace (Thigh <=? Tlow) with false by lia. replace ((Thigh =? Thigh) && ht_vev) with false by (rewrite Hh, andb_false_r; reflexivity). unfold MinimumFoundAlready, found_loop.
  cbn [length bind snd fst]. rewrite Z.ltb_irrefl. unfold trace_and_add. destruct (Hm (S k) false) as (m & -> & E).
  cbn. rewrite E. apply IH.
Qed.
End MS.
