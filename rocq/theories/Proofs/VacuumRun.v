(** Proofs about the constructor of Vacuum. *)
From Coq Require Import Lia Sorted Permutation.
From Verif.Model Require Import Base Phase MultiStep Modes.
From Verif.Spec Require Import PhaseSpec MultiStepSpec ModesSpec.
From Verif.Proofs Require Import PhaseProofs VacuumProofs MultiStepProofs ModesProofs ModesRuns ModesTwo.
Open Scope Z_scope.

Definition soundl (ps : list phase) : Prop := forall q, In q ps -> good q /\ ends_labelled q.
Lemma sound_good ps : soundl ps -> forall q, In q ps -> good q. Proof. intros H q Hq. now apply H. Qed.
Lemma touches_grows T ps ps' : grows ps ps' -> touches T ps -> touches T ps'.
Proof. intros W (q & I & R). destruct (W q I) as (q' & I' & R'). exists q'. split; [auto|lia]. Qed.

Lemma add_sound r c ps ms : soundl ps -> let ps' := fst (addPhase r c ps (make_phase ms)) in
  soundl ps' /\ grows ps ps' /\ (forall T, long_from T ms -> touches T ps').
Proof.
  intros G ps'. unfold ps'. destruct (addPhase r c ps (make_phase ms)) as [ps1 p1] eqn:E.
  destruct (addPhase_step _ _ _ _ _ _ (sound_good _ G) (ex_intro _ ms eq_refl) E) as (G1 & (kept & new & -> & F & _) & C). cbn [fst] in *.
  assert (S1 : soundl (kept ++ new)).
  { intros q Hq. split; [now apply G1|]. assert (Hq' : In q (fst (addPhase r c ps (make_phase ms)))) by (rewrite E; exact Hq).
    revert q Hq' Hq. intros q Hq' _. eapply addPhase_ends_labelled; [| |exists ms; reflexivity|exact Hq']; intros x Hx; now apply G. }
  split; [exact S1|]. split.
  - intros q Hq. destruct (Forall2_extends_in _ _ _ F Hq) as (q' & I & X). exists q'. assert (In q' (kept ++ new)) by (apply in_or_app; auto). split; [auto|].
    apply extends_range; [now apply G|now apply G1|exact X].
  - intros T L. destruct (C (or_introl (mp_long _ _ L))) as (q & I & S). exists q. split; [exact I|].
    destruct (MultiStepProofs.good_range q (G1 q I)) as (_ & _ & H3). apply H3, S. apply mp_temps, L.
Qed.
Lemma add_traced_sound r c k ms ps ps' p' : soundl ps -> add_traced r c k (make_phase ms) ps = (ps', p') ->
  soundl ps' /\ grows ps ps' /\ (forall T, long_from T ms -> touches T ps').
Proof.
  intros G E. unfold add_traced in E. destruct (1 <? length (mins (make_phase ms)))%nat eqn:L.
  - pose proof (add_sound (r k) (c k) ps ms G) as A. rewrite E in A. exact A.
  - injection E as <- <-. split; [exact G|]. split; [apply grows_refl|]. intros T H. apply mp_long in H. apply Nat.ltb_ge in L. lia.
Qed.

Lemma update_sound i q' ps : soundl ps -> good q' -> ends_labelled q' -> soundl (update_at i q' ps).
Proof. intros G A B x Hx. apply update_in in Hx as [->|Hx]; auto. Qed.
Lemma F2_grows ps ps' : allgood ps -> allgood ps' -> Forall2 extends ps ps' -> grows ps ps'.
Proof.
  intros G G' F q Hq. destruct (Forall2_extends_in _ _ _ F Hq) as (q' & I & X). exists q'. split; [exact I|]. apply extends_range; auto.
Qed.
Lemma found_labelled track near k T : forall n i ps ps' b, soundl ps -> found_loop track near k n i ps T = Ok (ps', b) -> soundl ps'.
Proof.
  induction n as [|n IH]; intros i ps ps' b G H; cbn [found_loop] in H; [injection H as <- <-; exact G|].
  destruct (nth_error ps i) as [q|] eqn:Eq; [|injection H as <- <-; exact G].
  destruct (_ || _); [eapply IH; eauto|]. pose proof (G q (nth_error_In _ _ Eq)) as (Gq & Lq).
  destruct (Get (track k) q T) as [[q' m]| | |] eqn:Eg; cbn [bind fst snd] in H; try discriminate.
  assert (Gq' : good q' /\ ends_labelled q').
  { unfold Get in Eg. destruct (mins q) eqn:Em; [discriminate|]. destruct (_ =? _); [injection Eg as <- <-; auto|].
    destruct (track k _ T) as [|m1 ms]; [injection Eg as <- <-; auto|].
    assert (q' = AddAll q (m1 :: ms)) as -> by (injection Eg; congruence). split; [now apply good_AddAll|now apply ends_labelled_AddAll]. }
  assert (G1 : soundl (update_at i q' ps)) by (apply update_sound; tauto).
  destruct (near k i m); [injection H as <- <-; exact G1|]. eapply IH; eauto.
Qed.
Lemma found_sound track near k T ps : soundl ps ->
  exists ps' b, MinimumFoundAlready track near k ps T = Ok (ps', b) /\ soundl ps' /\ grows ps ps' /\ (b = true -> touches T ps').
Proof.
  intro G. destruct (found_spec track near k T (length ps) 0 ps (sound_good _ G)) as (ps' & b & E & G' & X & F & _).
  exists ps', b. split; [exact E|]. split; [eapply found_labelled; eauto|]. split; [apply F2_grows; auto; exact (sound_good _ G)|exact F].
Qed.

(** * the recursive tracer *)
Section MSrun.
Variable track : nat -> minimum -> Z -> list minimum.
Variable near : nat -> nat -> minimum -> bool.
Variable trace : nat -> bool -> Z -> list minimum.
Variable retrack : nat -> phase -> list minimum.
Variable cmp : nat -> nat -> phase -> phase -> compare_result.
Variable non_bfb ht_vev : bool.
Variable Tlow Thigh one : Z.
Variable grid : list Z.
Local Notation run := (MultiStepPTTracer track near trace retrack cmp non_bfb ht_vev Tlow Thigh one grid).

Lemma trace_sound k ht T ps : soundl ps -> let ps' := fst (trace_and_add trace retrack cmp k ht T ps) in
  soundl ps' /\ grows ps ps' /\ (long_from T (trace k ht T) -> touches T ps').
Proof.
  intro G. unfold trace_and_add. pose proof (add_sound (retrack k) (cmp k) ps (trace k ht T) G) as A.
  destruct (addPhase _ _ ps _) as [a b]. cbn [fst] in *. destruct A as (A & B & C). auto.
Qed.
Lemma grid_sound : forall ts k ps ps', soundl ps -> grid_loop track near trace retrack cmp k ts ps = Ok ps' -> soundl ps' /\ grows ps ps'.
Proof.
  induction ts as [|T ts IH]; intros k ps ps' G H; cbn [grid_loop] in H; [injection H as <-; split; [exact G|apply grows_refl]|].
  destruct (found_sound track near k T ps G) as (ps1 & b & E & G1 & W1 & _). rewrite E in H. cbn [bind fst snd] in H. destruct b.
  - apply IH in H as (A & B); [|exact G1]. split; [exact A|eapply grows_trans; eauto].
  - destruct (trace_sound k false T ps1 G1) as (G2 & W2 & _). apply IH in H as (A & B); [|exact G2]. split; [exact A|]. eapply grows_trans; [exact W1|]. eapply grows_trans; eauto.
Qed.
Lemma ms_sound : forall fuel k T d ps r, soundl ps -> run fuel k T d ps = Ok r ->
  soundl (fst r) /\ grows ps (fst r) /\ (non_bfb = false -> (forall k, long_from Tlow (trace k false Tlow)) -> touches Tlow (fst r)).
Proof.
  induction fuel as [|fu IH]; intros k T d ps r G H; [discriminate|]. cbn [MultiStepPTTracer] in H.
  destruct (T <=? Tlow) eqn:E.
  - destruct non_bfb; [injection H as <-; cbn [fst]; split; [exact G|]; split; [apply grows_refl|discriminate]|].
    destruct (trace_sound k false Tlow ps G) as (G1 & W1 & T1).
    destruct (grid_loop _ _ _ _ _ (S k) grid _) as [ps'| | |] eqn:Eg; cbn [bind] in H; try discriminate. injection H as <-. cbn [fst].
    apply grid_sound in Eg as (G2 & W2); [|exact G1]. split; [exact G2|]. split; [eapply grows_trans; eauto|]. intros _ Lt. eapply touches_grows; [exact W2|]. apply T1, Lt.
  - assert (Step : forall k1 k2 ht ps1, soundl ps1 ->
      (let '(ps', T') := trace_and_add trace retrack cmp k1 ht T ps1 in run fu k2 T' (- one) ps') = Ok r ->
      soundl (fst r) /\ grows ps1 (fst r) /\ (non_bfb = false -> (forall k, long_from Tlow (trace k false Tlow)) -> touches Tlow (fst r))).
    { intros k1 k2 ht ps1 G1 H'. destruct (trace_sound k1 ht T ps1 G1) as (G2 & W2 & _). destruct (trace_and_add trace retrack cmp k1 ht T ps1) as [ps2 T']. cbn [fst] in *.
      apply IH in H' as (A & B & C); [|exact G2]. split; [exact A|]. split; [eapply grows_trans; eauto|exact C]. }
    assert (Normal : forall k1 ps1, soundl ps1 ->
      bind (MinimumFoundAlready track near (S k1) ps1 T) (fun f =>
            if snd f then run fu (S (S k1)) (T + d) 0 (fst f)
            else if Thigh <? T then Throw InvalidArgument
            else let '(ps', T') := trace_and_add trace retrack cmp (S k1) false T (fst f) in
                 run fu (S (S k1)) T' (- one) ps') = Ok r -> soundl (fst r) /\ grows ps1 (fst r) /\ (non_bfb = false -> (forall k, long_from Tlow (trace k false Tlow)) -> touches Tlow (fst r))).
    { intros k1 ps1 G1 H'. destruct (found_sound track near (S k1) T ps1 G1) as (ps2 & b & E' & G2 & W2 & _). rewrite E' in H'. cbn [bind snd fst] in H'.
      destruct b.
      - apply IH in H' as (A & B & C); [|exact G2]. split; [exact A|]. split; [eapply grows_trans; eauto|exact C].
      - destruct (Thigh <? T); [discriminate|]. apply Step in H' as (A & B & C); [|exact G2]. split; [exact A|]. split; [eapply grows_trans; eauto|exact C]. }
    destruct ((T =? Thigh) && ht_vev); [|eapply Normal; eauto].
    destruct (found_sound track near k T ps G) as (ps2 & b & E' & G2 & W2 & _). rewrite E' in H. cbn [bind snd fst] in H.
    destruct b; [apply Normal in H as (A & B & C)|apply Step in H as (A & B & C)]; auto; (split; [exact A|]; split; [eapply grows_trans; eauto|exact C]).
Qed.
Lemma ms_top fuel r : Tlow < Thigh -> (forall k, long_from Tlow (trace k false Tlow)) -> (forall k ht, long_from Thigh (trace k ht Thigh)) ->
  run_multistep track near trace retrack cmp non_bfb ht_vev Tlow Thigh one grid fuel = Ok r ->
  soundl (fst r) /\ touches Thigh (fst r) /\ (non_bfb = false -> touches Tlow (fst r)).
Proof.
  intros LT Ll Lh H. unfold run_multistep in H. destruct fuel as [|fu]; [discriminate|]. cbn [MultiStepPTTracer] in H.
  replace (Thigh <=? Tlow) with false in H by (symmetry; apply Z.leb_gt; lia). rewrite Z.eqb_refl, Z.ltb_irrefl in H.
  assert (G0 : soundl []) by (intros q []).
  assert (Step : forall k1 k2 ht,
    (let '(ps', T') := trace_and_add trace retrack cmp k1 ht Thigh [] in run fu k2 T' (- one) ps') = Ok r ->
    soundl (fst r) /\ touches Thigh (fst r) /\ (non_bfb = false -> touches Tlow (fst r))).
  { intros k1 k2 ht H'. destruct (trace_sound k1 ht Thigh [] G0) as (G2 & W2 & T2). destruct (trace_and_add trace retrack cmp k1 ht Thigh []) as [ps2 T']. cbn [fst] in *.
    apply ms_sound in H' as (A & B & C); [|exact G2]. split; [exact A|]. split; [eapply touches_grows; [exact B|]; apply T2, Lh|auto]. }
  unfold MinimumFoundAlready in H. cbn [length found_loop bind fst snd] in H. destruct (_ && ht_vev); eapply Step; exact H.
Qed.
End MSrun.

(** * the other modes *)
Section Others.
Variable track : nat -> minimum -> Z -> list minimum.
Variable glob : nat -> minimum -> bool.
Variable retrack : nat -> phase -> list minimum.
Variable cmp : nat -> nat -> phase -> phase -> compare_result.
Variable Tlow Thigh one : Z.
Variable mid : nat -> Z -> list minimum.
Variable mid2 : nat -> Z -> traced2.
Local Notation loop1 := (mode1_loop track glob retrack cmp Tlow Thigh mid).
Local Notation loop2 := (mode2_loop retrack cmp Tlow Thigh one mid2).

Lemma two_sound low high ps ps1 lp ps2 hp : soundl ps ->
  add_traced retrack cmp 0 (make_phase low) ps = (ps1, lp) -> add_traced retrack cmp 1 (make_phase high) ps1 = (ps2, hp) ->
  soundl ps2 /\ grows ps ps2 /\ (long_from Tlow low -> touches Tlow ps2) /\ (long_from Thigh high -> touches Thigh ps2).
Proof.
  intros G E1 E2. destruct (add_traced_sound _ _ _ _ _ _ _ G E1) as (G1 & W1 & T1). destruct (add_traced_sound _ _ _ _ _ _ _ G1 E2) as (G2 & W2 & T2).
  split; [exact G2|]. split; [eapply grows_trans; eauto|]. split; [|apply T2]. intro L. eapply touches_grows; [exact W2|]. now apply T1.
Qed.
Lemma mode0_sound low high st r : MultiStepPTMode0 track glob retrack cmp low high [] st = Ok r ->
  soundl (fst r) /\ (long_from Tlow low -> touches Tlow (fst r)) /\ (long_from Thigh high -> touches Thigh (fst r)).
Proof.
  unfold MultiStepPTMode0. destruct (add_traced retrack cmp 0 (make_phase low) []) as [ps1 lp] eqn:E1.
  destruct (add_traced retrack cmp 1 (make_phase high) ps1) as [ps2 hp] eqn:E2. intro H.
  destruct (two_sound _ _ [] _ _ _ _ (fun q (H : In q []) => match H with end) E1 E2) as (A & _ & B & C).
  assert (fst r = ps2) as ->; [|auto]. destruct (_ && _); [|now injection H as <-]. destruct (_ <? _); [|now injection H as <-].
  destruct (DoGlobMinOverlap _ _ lp hp); cbn [bind] in H; try discriminate. now injection H as <-.
Qed.
Lemma loop1_sound : forall fuel k tl th lp hp ps st r, soundl ps -> loop1 fuel k tl th lp hp ps st = Ok r -> soundl (fst r) /\ grows ps (fst r).
Proof.
  induction fuel as [|fuel IH]; intros k tl th lp hp ps st r G H; [discriminate|]. cbn [mode1_loop] in H.
  destruct (mid_phase Tlow Thigh mid k th) as [lm0| | |] eqn:F1; try discriminate. apply mid_phase_inv in F1. subst lm0. cbn [bind] in H.
  destruct (mid_phase Tlow Thigh mid (S k) tl) as [hm0| | |] eqn:F2; try discriminate. apply mid_phase_inv in F2. subst hm0. cbn [bind] in H.
  destruct (add_traced retrack cmp k (make_phase (mid k th)) ps) as [ps1 lm] eqn:E1.
  destruct (add_traced_sound _ _ _ _ _ _ _ G E1) as (G1 & W1 & _).
  destruct (add_traced retrack cmp (S k) (make_phase (mid (S k) tl)) ps1) as [ps2 hm] eqn:E2.
  destruct (add_traced_sound _ _ _ _ _ _ _ G1 E2) as (G2 & W2 & _). pose proof (grows_trans _ _ _ W1 W2) as W.
  destruct (_ && _) in H; [|injection H as <-; auto]. destruct (DoPhasesOverlap lm hm).
  - assert (fst r = ps2) as ->; [|auto]. destruct (DoGlobMinOverlap _ _ lp lm) as [g1| | |]; cbn [bind] in H; try discriminate.
    destruct (if g1 then _ else _) as [g2| | |] in H; cbn [bind] in H; try discriminate. destruct g2; [|now injection H as <-].
    destruct (DoGlobMinOverlap _ _ lm hm) as [g3| | |]; cbn [bind] in H; try discriminate. now injection H as <-.
  - apply IH in H as (A & B); [|exact G2]. split; [exact A|eapply grows_trans; eauto].
Qed.
Lemma mode1_sound fuel low high st r : MultiStepPTMode1 track glob retrack cmp Tlow Thigh one mid fuel low high [] st = Ok r ->
  soundl (fst r) /\ (long_from Tlow low -> touches Tlow (fst r)) /\ (long_from Thigh high -> touches Thigh (fst r)).
Proof.
  unfold MultiStepPTMode1. destruct (add_traced retrack cmp 0 (make_phase low) []) as [ps1 lp] eqn:E1.
  destruct (add_traced retrack cmp 1 (make_phase high) ps1) as [ps2 hp] eqn:E2. intro H.
  destruct (two_sound _ _ [] _ _ _ _ (fun q (H : In q []) => match H with end) E1 E2) as (A & _ & B & C).
  destruct (DoPhasesOverlap lp hp).
  - assert (fst r = ps2) as ->; [|auto]. destruct (DoGlobMinOverlap _ _ lp hp); cbn [bind] in H; try discriminate. now injection H as <-.
  - apply loop1_sound in H as (X & Y); [|exact A]. split; [exact X|]. split; intro L; (eapply touches_grows; [exact Y|auto]).
Qed.
Lemma loop2_sound : forall fuel k tl th ps r, soundl ps -> loop2 fuel k tl th ps = Ok r -> soundl (fst r) /\ grows ps (fst r).
Proof.
  induction fuel as [|fuel IH]; intros k tl th ps r G H; [discriminate|]. cbn [mode2_loop] in H.
  destruct (tl <? th); [|injection H as <-; split; [exact G|apply grows_refl]].
  destruct (add_sound (retrack k) (cmp k) ps (t2_mins (mid2 k tl)) G) as (G1 & W1 & _).
  match type of H with context [let '(_, _) := ?e in _] => assert (X : soundl (fst e) /\ grows ps (fst e)) by (destruct (_ <? _); cbn [fst]; [auto|split; [exact G|apply grows_refl]]); destruct e as [psa tl'] end.
  cbn [fst] in X. destruct X as (Ga & Wa).
  destruct (add_sound (retrack (S k)) (cmp (S k)) psa (t2_mins (mid2 (S k) th)) Ga) as (G2 & W2 & _).
  match type of H with context [let '(_, _) := ?e in _] => assert (X : soundl (fst e) /\ grows psa (fst e)) by (destruct (_ <? _); cbn [fst]; [auto|split; [exact Ga|apply grows_refl]]); destruct e as [psb th'] end.
  cbn [fst] in X. destruct X as (Gb & Wb).
  destruct (loop2 fuel (S (S k)) tl' th' psb) as [r'| | |] eqn:R; cbn [bind] in H; try discriminate. injection H as <-. cbn [fst].
  apply IH in R as (A & B); [|exact Gb]. split; [exact A|]. eapply grows_trans; [exact Wa|]. eapply grows_trans; eauto.
Qed.
Lemma mode2_sound fuel low2 high2 ps r : soundl ps -> MultiStepPTMode2 retrack cmp Tlow Thigh one mid2 fuel low2 high2 ps = Ok r ->
  soundl (fst r) /\ grows ps (fst r) /\ (long_from Tlow (fst low2) -> touches Tlow (fst r)) /\ (long_from Thigh (fst high2) -> touches Thigh (fst r)).
Proof.
  intros G H. unfold MultiStepPTMode2 in H. destruct (snd low2); [|discriminate].
  destruct (add_traced retrack cmp 0 (make_phase (fst low2)) ps) as [ps1 lp] eqn:E1. destruct (snd high2); [|discriminate].
  destruct (add_traced retrack cmp 1 (make_phase (fst high2)) ps1) as [ps2 hp] eqn:E2.
  destruct (two_sound _ _ _ _ _ _ _ G E1 E2) as (A & W & B & C).
  apply loop2_sound in H as (X & Y); [|exact A]. split; [exact X|]. split; [eapply grows_trans; eauto|]. split; intro L; (eapply touches_grows; [exact Y|auto]).
Qed.
End Others.

(** * the region check with patching *)
Definition bad_entry (es : list (Z * Z)) : Prop := exists k th n, nth_error es k = Some (th, n) /\ (S k < length es)%nat /\ n <= 0.
Lemma bad_cons th n tl n2 rest : bad_entry ((th, n) :: (tl, n2) :: rest) <-> n <= 0 \/ bad_entry ((tl, n2) :: rest).
Proof.
  split.
  - intros (k & t0 & n0 & A & B & C). destruct k as [|k].
    + cbn in A. injection A as <- <-. auto.
    + right. exists k, t0, n0. cbn [nth_error length] in *. split; [auto|]. split; [lia|auto].
  - intros [A|(k & t0 & n0 & A & B & C)].
    + exists O, th, n. cbn. split; [auto|]. split; [lia|auto].
    + exists (S k), t0, n0. cbn [nth_error length] in *. split; [auto|]. split; [lia|auto].
Qed.
Lemma bad_gap ps : soundl ps -> (bad_entry (edge_counts ps) <-> exists t, gap_at ps t).
Proof.
  intro G. assert (Hg : forall p, In p ps -> good p) by (intros; now apply G). assert (Hf : forall p, In p ps -> ends_labelled p) by (intros; now apply G).
  set (ts := temp_list (edges ps)). set (cnt := fun t => Z.of_nat (length (filter (aliveb t) ps))).
  unfold bad_entry. replace (edge_counts ps) with (map (fun t => (t, cnt t)) ts) by (symmetry; apply edge_counts_eq; auto).
  assert (Dts : dsc ts) by apply temp_list_dsc.
  assert (X : (exists k th n, nth_error (map (fun t => (t, cnt t)) ts) k = Some (th, n) /\ (S k < length (map (fun t => (t, cnt t)) ts))%nat /\ n <= 0)
    <-> exists t, In t ts /\ (exists u, In u ts /\ u < t) /\ cnt t <= 0).
  { rewrite map_length. split.
    - intros (k & th & n & A & B & C). rewrite nth_error_map in A. destruct (nth_error ts k) as [t|] eqn:Ek; [|discriminate].
      injection A as <- <-. exists t. split; [eapply nth_error_In; eauto|]. split; [|auto]. eapply dsc_last; eauto.
    - intros (t & A & B & C). apply In_nth_error in A as [k Ek]. exists k, t, (cnt t).
      rewrite nth_error_map, Ek. split; [auto|]. split; [|auto]. eapply dsc_last; eauto. }
  rewrite X. clear X. split.
  - intros (t & A & (u & Hu & Hlt) & Hc). exists t.
    assert (N : forall p, In p ps -> ~ alive_below t p).
    { intros p Hp Ha. apply aliveb_spec in Ha. unfold cnt in Hc.
      assert (Hi : In p (filter (aliveb t) ps)) by (apply filter_In; auto).
      destruct (filter (aliveb t) ps); [destruct Hi|cbn [length] in Hc; lia]. }
    apply edges_temps in A as (p & Hp & Ht); [|auto]. pose proof (VacuumProofs.good_range _ (Hg _ Hp)).
    split; [|split].
    + exists p. split; [auto|]. destruct Ht as [->|Ht]; [auto|]. exfalso. apply (N p Hp). unfold alive_below. lia.
    + apply edges_temps in Hu as (q & Hq & Hu); [|auto]. exists q. split; [auto|].
      pose proof (VacuumProofs.good_range _ (Hg _ Hq)). lia.
    + exact N.
  - intros (t & (p & Hp & Et) & (q & Hq & Hlt) & N). exists t.
    split; [apply edges_temps; eauto|]. split; [exists (T_low q); split; [apply edges_temps; eauto|auto]|].
    unfold cnt. destruct (filter (aliveb t) ps) as [|r l] eqn:F; [cbn; lia|].
    exfalso. assert (Hr : In r (filter (aliveb t) ps)) by (rewrite F; left; auto).
    apply filter_In in Hr as [Hr Ha]. apply (N r Hr). now apply aliveb_spec.
Qed.

Definition no_gap (ps : list phase) : Prop := ~ exists t, gap_at ps t.
Section Region.
Variable patch : list phase -> Z -> Z -> phase.
Variable retrack : phase -> list minimum.
Variable cmp : nat -> phase -> phase -> compare_result.
Variable mode0 : bool.
Variable threshold : Z.
Hypothesis PT : forall ps a b, exists ms, patch ps a b = make_phase ms.
Definition rec_ok (recurse : region_state -> option region_state) : Prop :=
  forall st st', soundl (r_phases st) -> recurse st = Some st' ->
    soundl (r_phases st') /\ grows (r_phases st) (r_phases st') /\ (r_status st' = TrSuccess -> no_gap (r_phases st')).

Lemma region_loop_sound recurse es : rec_ok recurse -> forall ng st st' ng', soundl (r_phases st) ->
  region_loop patch retrack cmp mode0 threshold recurse es ng st = Some (st', ng') ->
  soundl (r_phases st') /\ grows (r_phases st) (r_phases st') /\
  (r_status st' = TrSuccess -> (r_phases st' = r_phases st /\ r_status st = TrSuccess /\ ~ bad_entry es) \/ no_gap (r_phases st')).
Proof.
  intro RO. induction es as [|[th n] es IH]; intros ng st st' ng' G H.
  - cbn in H. injection H as <- <-. split; [exact G|]. split; [apply grows_refl|]. intro S. left. split; [auto|]. split; [exact S|].
    intros (k & t & m & _ & L & _). cbn in L. lia.
  - destruct es as [|[tl n2] rest].
    + cbn in H. injection H as <- <-. split; [exact G|]. split; [apply grows_refl|]. intro S. left. split; [auto|]. split; [exact S|].
      intros (k & t & m & _ & L & _). cbn in L. lia.
    + rewrite bad_cons. cbn [region_loop] in H. fold (region_loop patch retrack cmp mode0 threshold recurse) in H.
      destruct (1 <? n) eqn:A1.
      { apply IH in H as (B & C & D); [|exact G]. split; [exact B|]. split; [exact C|]. intro S. destruct (D S) as [(X & Y & Z)|X]; [left|right; exact X].
        split; [exact X|]. split; [exact Y|]. intros [W|W]; [lia|tauto]. }
      destruct (n <=? 0) eqn:A2.
      2:{ apply IH in H as (B & C & D); [|exact G]. split; [exact B|]. split; [exact C|]. intro S. destruct (D S) as [(X & Y & Z)|X]; [left|right; exact X].
          split; [exact X|]. split; [exact Y|]. intros [W|W]; [lia|tauto]. }
      assert (Bad : forall st1 ng1, soundl (r_phases st1) -> grows (r_phases st) (r_phases st1) -> (r_status st1 = TrSuccess -> no_gap (r_phases st1)) ->
        region_loop patch retrack cmp mode0 threshold recurse ((tl, n2) :: rest) ng1 st1 = Some (st', ng') ->
        soundl (r_phases st') /\ grows (r_phases st) (r_phases st') /\
        (r_status st' = TrSuccess -> (r_phases st' = r_phases st /\ r_status st = TrSuccess /\ ~ (n <= 0 \/ bad_entry ((tl, n2) :: rest))) \/ no_gap (r_phases st'))).
      { intros st1 ng1 G1 W1 N1 H1. apply IH in H1 as (B & C & D); [|exact G1]. split; [exact B|]. split; [eapply grows_trans; eauto|].
        intro S. right. destruct (D S) as [(X & Y & _)|X]; [|exact X]. rewrite X. auto. }
      destruct (tl + threshold <? th).
      2:{ apply Bad in H; auto; [apply grows_refl|discriminate]. }
      destruct mode0; [apply Bad in H; auto; [apply grows_refl|discriminate]|].
      cbn [r_phases r_status r_coex] in H. destruct (PT (r_phases st) tl th) as (ms & Ems). rewrite Ems in H.
      destruct (add_sound retrack cmp (r_phases st) ms G) as (G1 & W1 & _).
      destruct (addPhase retrack cmp (r_phases st) (make_phase ms)) as [ps' ip]. cbn [fst] in *. cbn [r_phases r_status r_coex] in H.
      destruct (2 <? length (mins ip))%nat.
      * destruct (recurse _) as [st3|] eqn:R; [|discriminate]. apply RO in R as (G3 & W3 & N3); [|exact G1].
        cbn [r_phases] in W3. apply (Bad st3 false) in H; auto. eapply grows_trans; eauto.
      * apply (Bad {| r_phases := ps'; r_status := TrNoCoverage; r_coex := r_coex st |} false) in H; auto. discriminate.
Qed.
Lemma region_sound : forall fuel, rec_ok (setCoexRegion patch retrack cmp mode0 threshold fuel).
Proof.
  induction fuel as [|fuel IH]; intros st st' G H; [discriminate|]. cbn [setCoexRegion] in H.
  destruct (r_phases st) as [|p l] eqn:Ep.
  { injection H as <-. rewrite Ep. split; [exact G|]. split; [apply grows_refl|]. intros _ (t & (q & [] & _) & _). }
  rewrite <- Ep in *. destruct (region_loop _ _ _ _ _ _ _ _ st) as [[st1 ng]|] eqn:E; [|discriminate].
  apply region_loop_sound in E as (A & B & C); [|exact IH|exact G].
  destruct (ng && is_NoCoverage (r_status st1)).
  - injection H as <-. cbn [r_phases r_status]. split; [exact A|]. split; [exact B|discriminate].
  - injection H as <-. split; [exact A|]. split; [exact B|]. intro S. destruct (C S) as [(X & _ & Y)|X]; [|exact X]. rewrite X. unfold no_gap. rewrite <- bad_gap; auto.
Qed.
End Region.

Lemma no_gap_covered Tl Th ps : no_gap ps -> touches Tl ps -> touches Th ps -> covered 0 Tl Th ps.
Proof.
  intros N (q1 & I1 & R1) (q2 & I2 & R2) t Ht.
  destruct (existsb (fun q => (T_low q <=? t) && (t <=? T_high q)) ps) eqn:E.
  { apply existsb_exists in E as (q & I & R). exists q. split; [auto|lia]. }
  exfalso. apply N. assert (NC : forall q, In q ps -> t < T_low q \/ T_high q < t).
  { intros q I. destruct (Z_lt_ge_dec t (T_low q)); [auto|]. destruct (Z_lt_ge_dec (T_high q) t); [auto|]. exfalso.
    assert (X : existsb (fun q => (T_low q <=? t) && (t <=? T_high q)) ps = true) by (apply existsb_exists; exists q; split; [auto|lia]). congruence. }
  assert (M : exists p, In p ps /\ t < T_low p /\ forall q, In q ps -> t < T_low q -> T_low p <= T_low q).
  { assert (L2 : t < T_low q2) by (destruct (NC q2 I2); lia). clear - I2 L2.
    assert (Gen : forall l, (exists q, In q l /\ t < T_low q) -> exists p, In p l /\ t < T_low p /\ forall q, In q l -> t < T_low q -> T_low p <= T_low q).
    { induction l as [|a l IH]; intros (q & I & L); [destruct I|]. destruct (existsb (fun q => t <? T_low q) l) eqn:E.
      - apply existsb_exists in E as (q0 & I0 & L0). destruct IH as (p & Ip & Lp & Mp); [exists q0; split; [auto|lia]|].
        destruct (Z_lt_ge_dec t (T_low a)) as [La|La]; [destruct (Z_lt_ge_dec (T_low a) (T_low p)) as [Lb|Lb]|].
        + exists a. split; [left; auto|]. split; [auto|]. intros x [<-|Ix] Lx; [lia|]. specialize (Mp x Ix Lx). lia.
        + exists p. split; [right; auto|]. split; [auto|]. intros x [<-|Ix] Lx; [lia|auto].
        + exists p. split; [right; auto|]. split; [auto|]. intros x [<-|Ix] Lx; [lia|auto].
      - assert (NE : forall x, In x l -> ~ t < T_low x).
        { intros x Ix Lx. assert (X : existsb (fun q => t <? T_low q) l = true) by (apply existsb_exists; exists x; split; [auto|lia]). congruence. }
        destruct I as [<-|I]; [|destruct (NE q I L)]. exists a. split; [left; auto|]. split; [auto|]. intros x [<-|Ix] Lx; [lia|destruct (NE x Ix Lx)]. }
    apply Gen. eauto. }
  destruct M as (p & Ip & Lp & Mp). exists (T_low p). split; [eauto|]. split; [exists q1; split; [auto|]; destruct (NC q1 I1); lia|].
  intros q Iq (A & B). destruct (NC q Iq) as [C|C]; [specialize (Mp q Iq C); lia|lia].
Qed.

Lemma sort_sound ps : soundl ps -> soundl (assign_ids (sort_by_Thigh ps)) /\ grows ps (assign_ids (sort_by_Thigh ps)).
Proof.
  intro G. assert (P := sort_perm ps).
  assert (A : forall l n q, In q (assign_ids_from n l) -> exists q0, In q0 l /\ T_low q = T_low q0 /\ T_high q = T_high q0 /\ mins q = mins q0).
  { induction l as [|x l IH]; intros n q []; cbn; [subst q; exists x; cbn; auto 6|]. destruct (IH _ _ H) as (q0 & I & R). exists q0. auto. }
  assert (B : forall l n q, In q l -> exists q0, In q0 (assign_ids_from n l) /\ T_low q0 = T_low q /\ T_high q0 = T_high q).
  { induction l as [|x l IH]; intros n q []; cbn; [subst q; eexists; split; [left; reflexivity|]; cbn; auto|]. destruct (IH (n + 1) _ H) as (q0 & I & R). exists q0. auto. }
  split.
  - intros q Hq. apply A in Hq as (q0 & I & R1 & R2 & R3). apply (Permutation_in _ (Permutation_sym P)) in I. destruct (G q0 I) as ([Sq Rq Lq] & F).
    split; [|unfold ends_labelled in *; rewrite R3; exact F]. unfold sorted, ranged, temps in *. split; unfold sorted, ranged, temps; rewrite ?R1, ?R2, ?R3; auto.
  - intros q Hq. apply (Permutation_in _ P) in Hq. destruct (B _ 0 _ Hq) as (q0 & I & R1 & R2). exists q0. split; [exact I|lia].
Qed.

Lemma minima_sound w : forall l k ps ps', soundl ps -> add_minima w k l ps = Ok ps' -> soundl ps' /\ grows ps ps'.
Proof.
  induction l as [|[T ms] l IH]; intros k ps ps' G H; cbn [add_minima] in H; [injection H as <-; split; [exact G|apply grows_refl]|].
  unfold add_minimum in H. destruct (found_sound (w_track w 2) (w_near w 2) k T ps G) as (ps1 & b & E & G1 & W1 & _). rewrite E in H. cbn [bind fst snd] in H.
  destruct b; cbn [bind] in H.
  - apply IH in H as (A & B); [|exact G1]. split; [exact A|eapply grows_trans; eauto].
  - destruct (add_sound (w_retrack w 2 k) (w_cmp w 2 k) ps1 ms G1) as (G2 & W2 & _). apply IH in H as (A & B); [|exact G2].
    split; [exact A|]. eapply grows_trans; [exact W1|]. eapply grows_trans; eauto.
Qed.

Lemma mode_sound w fuel mode ps st stop : -1 <= mode <= 3 -> w_Tlow w < w_Thigh w -> boundaries_traced w mode -> run_mode w fuel mode = Ok (ps, st, stop) ->
  st = TrFailure \/ (stop = false /\ soundl ps /\ touches (w_Tlow w) ps /\ touches (w_Thigh w) ps).
Proof.
  intros M LT (B1 & B2 & B3) H. unfold run_mode in H. assert (G0 : soundl []) by (intros q []).
  destruct (mode =? -1) eqn:E1.
  - apply Z.eqb_eq in E1. destruct (run_multistep _ _ _ _ _ _ _ _ _ _ _ _) as [r| | |] eqn:R; cbn [bind] in H; try discriminate.
    pose proof (ms_flag _ _ _ _ _ _ _ _ _ _ _ _ _ _ _ _ _ R) as Fl.
    apply ms_top in R as (X & Y & Z); [|exact LT|intro k; apply (B1 E1 k false)|intros k ht; apply (B1 E1 k ht)].
    injection H as <- <- <-. rewrite Fl. destruct (w_non_bfb w); [auto|right]. auto 6.
  - replace (0 <=? mode) with true in H by (symmetry; apply Z.leb_le; lia). destruct (w_non_bfb w); [injection H as <- <- <-; auto|].
    destruct (mode =? 0) eqn:E2.
    { apply Z.eqb_eq in E2. destruct (MultiStepPTMode0 _ _ _ _ _ _ _ _) as [r| | |] eqn:R; cbn [bind] in H; try discriminate.
      apply (mode0_sound _ _ _ _ (w_Tlow w) (w_Thigh w)) in R as (X & Y & Z). injection H as -> <-. right. split; [auto|]. split; [exact X|]. split; [apply Y|apply Z]; apply B2; auto. }
    assert (One : forall r, mode1_of w fuel = Ok r -> mode = 1 \/ mode = 3 -> soundl (fst r) /\ touches (w_Tlow w) (fst r) /\ touches (w_Thigh w) (fst r)).
    { intros r R Em. apply mode1_sound in R as (X & Y & Z). split; [exact X|]. split; [apply Y|apply Z]; apply B2; tauto. }
    destruct (mode =? 1) eqn:E3.
    { apply Z.eqb_eq in E3. destruct (mode1_of w fuel) as [r| | |] eqn:R; cbn [bind] in H; try discriminate. destruct (One r eq_refl) as (X & Y & Z); [auto|].
      injection H as -> <-. auto. }
    destruct (mode =? 2) eqn:E4.
    { apply Z.eqb_eq in E4. unfold mode2_of in H. destruct (MultiStepPTMode2 _ _ _ _ _ _ _ _ _ _) as [r| | |] eqn:R; cbn [bind] in H; try discriminate.
      apply mode2_sound in R as (X & _ & Y & Z); [|exact G0]. injection H as <- <- <-. right. split; [auto|]. split; [exact X|]. split; [apply Y|apply Z]; apply B3; auto. }
    destruct (mode =? 3) eqn:E5; [|lia]. apply Z.eqb_eq in E5.
    destruct (mode1_of w fuel) as [[ps1 st1]| | |] eqn:R; cbn [bind] in H; try discriminate. destruct (One _ eq_refl) as (X & Y & Z); [auto|]. cbn [fst snd] in *.
    destruct st1; try (injection H as <- <- <-; auto; fail).
    unfold mode2_of in H. destruct (MultiStepPTMode2 _ _ _ _ _ _ _ _ _ _) as [r| | |] eqn:R2; cbn [bind] in H; try discriminate.
    apply mode2_sound in R2 as (X2 & W2 & _); [|exact X]. injection H as <- <- <-. right. split; [auto|]. split; [exact X2|]. split; eapply touches_grows; eauto.
Qed.

Lemma ctor_covers w fuel mode only v : -1 <= mode <= 3 -> w_Tlow w < w_Thigh w -> boundaries_traced w mode -> patches_traced w ->
  Vacuum_ctor w fuel mode only = Ok v -> v_status v = TrSuccess -> covered 0 (w_Tlow w) (w_Thigh w) (v_phases v).
Proof.
  intros M LT B P H S. unfold Vacuum_ctor in H. destruct (run_mode w fuel mode) as [[[ps st] stop]| | |] eqn:R; cbn [bind] in H; try discriminate.
  destruct (mode_sound w fuel mode ps st stop M LT B R) as [Sf|(-> & G & TL & TH)].
  - subst st. destruct stop; [injection H as <-; discriminate|]. destruct (add_minima w 0 _ ps) as [ps2| | |]; cbn [bind] in H; try discriminate.
    destruct ps2; cbv zeta in H; injection H as <-; discriminate.
  - destruct (add_minima w 0 _ ps) as [ps2| | |] eqn:E; cbn [bind] in H; try discriminate. apply minima_sound in E as (G2 & W2); [|exact G].
    cbv zeta in H. set (st2 := match ps2 with [] => TrFailure | _ => st end) in *. clearbody st2.
    destruct (match st2 with TrSuccess => true | TrNoCoverage => _ | _ => _ end) eqn:Q.
    + destruct (setCoexRegion _ _ _ _ _ fuel _) as [rs|] eqn:Er; [|discriminate]. injection H as <-. cbn [v_status v_phases] in *.
      destruct (sort_sound ps2 G2) as (G3 & W3).
      apply (region_sound _ _ _ _ _ P) in Er as (G4 & W4 & N4); [|exact G3]. cbn [r_phases] in W4.
      assert (W : grows ps (r_phases rs)) by (eapply grows_trans; [exact W2|]; eapply grows_trans; eauto).
      apply no_gap_covered; [auto|eapply touches_grows; eauto|eapply touches_grows; eauto].
    + injection H as <-. cbn [v_status] in S. subst st2. discriminate.
Qed.

Lemma mode_sound' w fuel mode ps st stop : run_mode w fuel mode = Ok (ps, st, stop) -> soundl ps.
Proof.
  intros H. unfold run_mode in H. assert (G0 : soundl []) by (intros q []).
  destruct (mode =? -1).
  - destruct (run_multistep _ _ _ _ _ _ _ _ _ _ _ _) as [r| | |] eqn:R; cbn [bind] in H; try discriminate.
    apply ms_sound in R as (X & _); [|exact G0]. injection H as <- <- <-. exact X.
  - destruct (0 <=? mode); [|injection H as <- _ _; exact G0]. destruct (w_non_bfb w); [injection H as <- _ _; exact G0|].
    destruct (mode =? 0).
    { destruct (MultiStepPTMode0 _ _ _ _ _ _ _ _) as [r| | |] eqn:R; cbn [bind] in H; try discriminate.
      apply (mode0_sound _ _ _ _ (w_Tlow w) (w_Thigh w)) in R as (X & Y & Z). injection H as -> <-. exact X. }
    destruct (mode =? 1).
    { destruct (mode1_of w fuel) as [r| | |] eqn:R; cbn [bind] in H; try discriminate. apply mode1_sound in R as (X & _). injection H as -> <-. exact X. }
    destruct (mode =? 2).
    { unfold mode2_of in H. destruct (MultiStepPTMode2 _ _ _ _ _ _ _ _ _ _) as [r| | |] eqn:R; cbn [bind] in H; try discriminate.
      apply mode2_sound in R as (X & _); [|exact G0]. injection H as <- <- <-. exact X. }
    destruct (mode =? 3); [|injection H as <- _ _; exact G0].
    destruct (mode1_of w fuel) as [[ps1 st1]| | |] eqn:R; cbn [bind] in H; try discriminate. apply mode1_sound in R as (X & _). cbn [fst snd] in *.
    destruct st1; try (injection H as <- _ _; exact X).
    unfold mode2_of in H. destruct (MultiStepPTMode2 _ _ _ _ _ _ _ _ _ _) as [r| | |] eqn:R2; cbn [bind] in H; try discriminate.
    apply mode2_sound in R2 as (X2 & W2 & _); [|exact X]. injection H as <- _ _. exact X2.
Qed.

Definition sn (st : status_tracing) : Prop := st = TrSuccess \/ st = TrNoCoverage.
Section RegionStatus.
Variable patch : list phase -> Z -> Z -> phase.
Variable retrack : phase -> list minimum.
Variable cmp : nat -> phase -> phase -> compare_result.
Variable mode0 : bool.
Variable threshold : Z.
Lemma region_loop_status recurse es : (forall st st', r_status st = TrSuccess -> recurse st = Some st' -> sn (r_status st')) ->
  forall ng st st' ng', sn (r_status st) -> region_loop patch retrack cmp mode0 threshold recurse es ng st = Some (st', ng') ->
  sn (r_status st') /\ (ng' = true -> ng = true /\ r_status st' = r_status st).
Proof.
  intro RO. induction es as [|[th n] es IH]; intros ng st st' ng' G H.
  - cbn in H. injection H as <- <-. auto.
  - destruct es as [|[tl n2] rest]; [cbn in H; injection H as <- <-; auto|].
    cbn [region_loop] in H. fold (region_loop patch retrack cmp mode0 threshold recurse) in H.
    destruct (1 <? n); [apply IH in H as (A & B); auto|]. destruct (n <=? 0); [|apply IH in H as (A & B); auto].
    assert (Bad : forall st1, sn (r_status st1) -> region_loop patch retrack cmp mode0 threshold recurse ((tl, n2) :: rest) false st1 = Some (st', ng') ->
      sn (r_status st') /\ (ng' = true -> ng = true /\ r_status st' = r_status st)).
    { intros st1 G1 H1. apply IH in H1 as (A & B); [|exact G1]. split; [exact A|]. intro X. destruct (B X). discriminate. }
    destruct (tl + threshold <? th); [|apply Bad in H; auto; right; reflexivity].
    destruct mode0; [apply Bad in H; auto; right; reflexivity|].
    cbn [r_phases r_status r_coex] in H.
    destruct (addPhase retrack cmp (r_phases st) _) as [ps' ip]. cbn [r_phases r_status r_coex] in H.
    destruct (2 <? length (mins ip))%nat.
    + destruct (recurse _) as [st3|] eqn:R; [|discriminate]. apply RO in R; [|reflexivity]. apply (Bad st3) in H; auto.
    + apply (Bad {| r_phases := ps'; r_status := TrNoCoverage; r_coex := r_coex st |}) in H; auto. right; reflexivity.
Qed.
Lemma region_status : forall fuel st st', sn (r_status st) -> setCoexRegion patch retrack cmp mode0 threshold fuel st = Some st' ->
  (sn (r_status st') \/ r_status st' = TrNoGlobMinCoverage) /\ (r_status st = TrSuccess -> sn (r_status st')).
Proof.
  induction fuel as [|fuel IH]; intros st st' G H; [discriminate|]. cbn [setCoexRegion] in H.
  destruct (r_phases st) as [|p l] eqn:Ep; [injection H as <-; auto|]. rewrite <- Ep in *.
  destruct (region_loop _ _ _ _ _ _ _ _ st) as [[st1 ng]|] eqn:E; [|discriminate].
  apply region_loop_status in E as (A & B); [|intros s s' X Y; apply (IH s s'); [left; exact X|exact Y|exact X]|exact G].
  destruct (ng && is_NoCoverage (r_status st1)) eqn:Q.
  - injection H as <-. cbn [r_status]. split; [auto|]. intro S. apply andb_true_iff in Q as (-> & Q). destruct (B eq_refl) as (_ & X). rewrite X, S in Q. discriminate.
  - injection H as <-. auto.
Qed.
End RegionStatus.

(** what a finished run looks like *)
Lemma ctor_cases w fuel mode only v : patches_traced w -> Vacuum_ctor w fuel mode only = Ok v ->
  exists ps0 st0 stop, run_mode w fuel mode = Ok (ps0, st0, stop) /\ soundl (v_phases v) /\
   ((v_coex v = false /\ v_pairs v = [] /\ (v_status v = st0 \/ v_status v = TrFailure) /\
     v_status v <> TrSuccess /\ (v_status v = TrNoCoverage -> mode = 0)) \/
    ((st0 = TrSuccess \/ st0 = TrNoCoverage /\ mode <> 0) /\ v_pairs v = (if v_coex v && negb only then setCoexPhases (v_phases v) else []) /\
     (sn (v_status v) \/ v_status v = TrNoGlobMinCoverage) /\ (st0 = TrSuccess -> sn (v_status v)))).
Proof.
  intros P H. unfold Vacuum_ctor in H. destruct (run_mode w fuel mode) as [[[ps st] stop]| | |] eqn:R; cbn [bind] in H; try discriminate.
  exists ps, st, stop. split; [reflexivity|]. pose proof (mode_sound' _ _ _ _ _ _ R) as G. destruct stop.
  - assert (st = TrFailure) as ->.
    { unfold run_mode in R. destruct (mode =? -1); [destruct (run_multistep _ _ _ _ _ _ _ _ _ _ _ _); cbn [bind] in R; discriminate|].
      destruct (0 <=? mode); [|discriminate]. destruct (w_non_bfb w); [congruence|].
      destruct (mode =? 0); [destruct (MultiStepPTMode0 _ _ _ _ _ _ _ _); cbn [bind] in R; discriminate|].
      destruct (mode =? 1); [destruct (mode1_of w fuel); cbn [bind] in R; discriminate|].
      destruct (mode =? 2); [destruct (mode2_of w fuel []); cbn [bind] in R; discriminate|].
      destruct (mode =? 3); [|discriminate]. destruct (mode1_of w fuel) as [[a b]| | |]; cbn [bind snd fst] in R; try discriminate.
      destruct b; try discriminate. destruct (mode2_of w fuel a); cbn [bind] in R; discriminate. }
    injection H as <-. cbn [v_phases v_coex v_pairs v_status]. split; [exact G|]. left. repeat split; auto; discriminate.
  - destruct (add_minima w 0 _ ps) as [ps2| | |] eqn:E; cbn [bind] in H; try discriminate. apply minima_sound in E as (G2 & W2); [|exact G].
    cbv zeta in H. set (st2 := match ps2 with [] => TrFailure | _ => st end) in *.
    assert (E2 : st2 = st \/ st2 = TrFailure) by (unfold st2; destruct ps2; auto). clearbody st2.
    destruct (match st2 with TrSuccess => true | TrNoCoverage => _ | _ => _ end) eqn:Q.
    + assert (E3 : st2 = st) by (destruct E2 as [E2|E2]; [exact E2|]; rewrite E2 in Q; discriminate). subst st2.
      destruct (setCoexRegion _ _ _ _ _ fuel _) as [rs|] eqn:Er; [|discriminate]. injection H as <-. cbn [v_status v_phases v_coex v_pairs] in *.
      destruct (sort_sound ps2 G2) as (G3 & W3).
      assert (Sn : sn st) by (destruct st; try discriminate; [left|right]; reflexivity).
      destruct (region_status _ _ _ _ _ _ {| r_phases := assign_ids (sort_by_Thigh ps2); r_status := st; r_coex := false |} _ Sn Er) as (S1 & S2). cbn [r_status] in S2.
      apply (region_sound _ _ _ _ _ P) in Er as (G4 & W4 & N4); [|exact G3]. split; [exact G4|]. right.
      split; [|auto]. destruct st; try discriminate; [auto|]. right. split; [auto|]. apply negb_true_iff, Z.eqb_neq in Q. exact Q.
    + injection H as <-. cbn [v_status v_phases v_coex v_pairs] in *. split; [exact G2|]. left. split; [auto|]. split; [auto|]. split; [destruct E2; auto|].
      split; [intro X; rewrite X in Q; discriminate|]. intro X. rewrite X in Q. apply negb_false_iff, Z.eqb_eq in Q. exact Q.
Qed.

Lemma ctor_pairs w fuel mode only v : patches_traced w -> Vacuum_ctor w fuel mode only = Ok v ->
  (only = true \/ v_coex v = false -> v_pairs v = []) /\
  (v_status v = TrNoMinsAtBoundaries \/ v_status v = TrFailure -> v_coex v = false) /\
  (only = false -> v_coex v = true ->
    (forall c, In c (v_pairs v) -> exists i j, (i < j)%nat /\ nth_error (v_phases v) i = Some (false_phase c) /\
       nth_error (v_phases v) j = Some (true_phase c) /\ overlap (false_phase c) (true_phase c) /\
       (forall T, c_low c <= T <= c_high c <-> T_low (false_phase c) <= T <= T_high (false_phase c) /\ T_low (true_phase c) <= T <= T_high (true_phase c))) /\
    (forall i j f t, (i < j)%nat -> nth_error (v_phases v) i = Some f -> nth_error (v_phases v) j = Some t -> overlap f t ->
       exists c, In c (v_pairs v) /\ false_phase c = f /\ true_phase c = t)).
Proof.
  intros P H. destruct (ctor_cases _ _ _ _ _ P H) as (ps0 & st0 & stop & R & G & [(A & B & C & D & E)|(A & B & C & D)]).
  - split; [auto|]. split; [auto|]. rewrite A. discriminate.
  - split; [intros [X|X]; rewrite B, X; [rewrite andb_false_r|]; reflexivity|]. split; [intros [X|X]; rewrite X in C; destruct C as [[C|C]|C]; discriminate|].
    intros X Y. rewrite X, Y in B. cbn [andb negb] in B. rewrite B.
    assert (Rg : forall p, In p (v_phases v) -> T_low p <= T_high p) by (intros p Ip; pose proof (VacuumProofs.good_range p (proj1 (G p Ip))); lia).
    destruct (coex_exact (v_phases v) Rg) as (U & V & _). split; [|exact V].
    intros c Ic. destruct (U c Ic) as (i & j & f & t & L & Hf & Ht & <- & <- & O & I). exists i, j. auto.
Qed.

Lemma ctor_auto w fuel only : (forall ps, mode1_of w fuel <> Ok (ps, TrNoGlobMinCoverage)) ->
  Vacuum_ctor w fuel 3 only = Vacuum_ctor w fuel 1 only.
Proof.
  intro N. unfold Vacuum_ctor, run_mode. cbn [Z.eqb Pos.eqb Z.leb Z.compare]. destruct (w_non_bfb w); [reflexivity|].
  destruct (mode1_of w fuel) as [[ps st]| | |]; cbn [bind fst snd]; [|reflexivity..]. destruct st; try reflexivity. now destruct (N ps).
Qed.
Lemma ctor_auto_status w fuel only v : patches_traced w -> Vacuum_ctor w fuel 3 only = Ok v -> v_status v = TrNoGlobMinCoverage ->
  exists ps, mode1_of w fuel = Ok (ps, TrNoCoverage).
Proof.
  intros P H S. destruct (ctor_cases _ _ _ _ _ P H) as (ps0 & st0 & stop & R & G & D).
  unfold run_mode in R. cbn [Z.eqb Pos.eqb Z.leb Z.compare] in R. destruct (w_non_bfb w).
  { injection R as <- <- <-. destruct D as [(_ & _ & [X|X] & _)|([X|(X & _)] & _)]; congruence. }
  destruct (mode1_of w fuel) as [[ps st]| | |]; cbn [bind fst snd] in R; try discriminate.
  assert (X : st0 = TrNoCoverage).
  { destruct D as [(_ & _ & [X|X] & _)|([X|(X & _)] & _ & _ & Y)]; [|congruence| |exact X].
    - rewrite S in X. subst st0. exfalso. destruct st; try discriminate. destruct (mode2_of w fuel ps); cbn [bind] in R; discriminate.
    - destruct (Y X) as [Z|Z]; congruence. }
  subst st0. exists ps. destruct st; try congruence. destruct (mode2_of w fuel ps); cbn [bind] in R; discriminate.
Qed.
Definition with_patch (w : world) (p : list phase -> Z -> Z -> phase) : world :=
  {| w_track := w_track w; w_glob := w_glob w; w_near := w_near w; w_retrack := w_retrack w; w_cmp := w_cmp w; w_trace := w_trace w;
     w_low := w_low w; w_high := w_high w; w_mid := w_mid w; w_low2 := w_low2 w; w_high2 := w_high2 w; w_mid2 := w_mid2 w;
     w_ew := w_ew w; w_saved := w_saved w; w_patch := p; w_non_bfb := w_non_bfb w; w_ht_vev := w_ht_vev w;
     w_Tlow := w_Tlow w; w_Thigh := w_Thigh w; w_one := w_one w; w_thr := w_thr w; w_grid := w_grid w |}.
Lemma ctor_mode0 w p fuel only : Vacuum_ctor (with_patch w p) fuel 0 only = Vacuum_ctor w fuel 0 only.
Proof.
  unfold Vacuum_ctor. change (run_mode (with_patch w p) fuel 0) with (run_mode w fuel 0). destruct (run_mode w fuel 0) as [[[ps st] stop]| | |]; cbn [bind]; try reflexivity.
Qed.
Lemma ctor_unknown w fuel only v mode : mode < -1 \/ 3 < mode -> w_ew w = [] -> w_saved w = [] ->
  Vacuum_ctor w fuel mode only = Ok v -> v_phases v = [] /\ v_status v = TrFailure /\ v_pairs v = [].
Proof.
  intros M E1 E2 H. unfold Vacuum_ctor, run_mode in H. replace (mode =? -1) with false in H by (symmetry; apply Z.eqb_neq; lia).
  replace (mode =? 0) with false in H by (symmetry; apply Z.eqb_neq; lia). replace (mode =? 1) with false in H by (symmetry; apply Z.eqb_neq; lia).
  replace (mode =? 2) with false in H by (symmetry; apply Z.eqb_neq; lia). replace (mode =? 3) with false in H by (symmetry; apply Z.eqb_neq; lia).
  rewrite E1, E2 in H. cbn [add_minima add_minimum MinimumFoundAlready] in H.
  destruct (0 <=? mode); [destruct (w_non_bfb w)|]; cbn in H; injection H as <-; auto.
Qed.
