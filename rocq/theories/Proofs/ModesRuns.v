(** Proofs about whole runs of the multi-step modes 0, 1 and 2. *)
From Coq Require Import Lia Sorted.
From Verif.Model Require Import Base Phase MultiStep Modes.
From Verif.Spec Require Import PhaseSpec MultiStepSpec ModesSpec.
From Verif.Proofs Require Import PhaseProofs VacuumProofs MultiStepProofs ModesProofs.
Open Scope Z_scope.

Lemma glob_total track glob new old : good new -> good old ->
  ~ (T_low old < T_low new /\ T_high new < T_high old) ->
  exists b, DoGlobMinOverlap track glob new old = Ok b.
Proof.
  intros A B H. apply good_well_formed in A as A', B as B'.
  destruct (DoPhasesOverlap new old) eqn:E.
  - apply phases_overlap_iff in E; [|pose proof (VacuumProofs.good_range _ A); lia|pose proof (VacuumProofs.good_range _ B); lia].
    destruct (glob_overlap_value track glob new old A' B' E H) as (hi & lo & hi' & m1 & lo' & m2 & _ & _ & _ & _ & X). eauto.
  - exists false. apply glob_overlap_apart; auto. intro X. apply phases_overlap_iff in X; [congruence| |].
    + pose proof (VacuumProofs.good_range _ A). lia.
    + pose proof (VacuumProofs.good_range _ B). lia.
Qed.
Lemma glob_verdict track glob new old b : DoGlobMinOverlap track glob new old = Ok b -> (2 <= length (mins new))%nat -> (2 <= length (mins old))%nat ->
  overlap new old -> exists m1 m2, b = glob m1 && glob m2.
Proof.
  intros H L1 L2 (T & X & Y). unfold DoGlobMinOverlap in H.
  assert (E1 : (1 <? length (mins new))%nat = true) by (apply Nat.ltb_lt; lia).
  assert (E2 : (1 <? length (mins old))%nat = true) by (apply Nat.ltb_lt; lia). rewrite E1, E2 in H. cbn [andb] in H.
  assert (E3 : (T_low old <=? T_high new) = true) by (apply Z.leb_le; lia).
  assert (E4 : (T_low new <=? T_high old) = true) by (apply Z.leb_le; lia). rewrite E3, E4 in H. cbn [andb] in H.
  destruct (if T_high old <=? T_high new then _ else _) as (hi & lo).
  destruct (Get track hi (T_high lo)) as [[h m1]| | |]; cbn [bind fst snd] in H; try discriminate.
  destruct (Get track lo (T_low h)) as [[l m2]| | |]; cbn [bind fst snd] in H; try discriminate. injection H as <-. eauto.
Qed.
Lemma add_traced_mins retrack cmp (RI : retracks_inside retrack) (CI : compares_inside cmp) k ms ps ps' p' : allgood ps ->
  add_traced retrack cmp k (make_phase ms) ps = (ps', p') ->
  ((1 <? length (mins p'))%nat = (1 <? length (mins (make_phase ms)))%nat).
Proof.
  intros G E. destruct (add_traced_spec _ _ RI CI _ _ _ _ _ G E) as (_ & _ & _ & _ & A & B & _).
  destruct (1 <? length (mins (make_phase ms)))%nat eqn:L.
  - apply Nat.ltb_lt in L. apply Nat.ltb_lt. specialize (B L). apply B.
  - apply Nat.ltb_ge in L. rewrite (A L). apply Nat.ltb_ge. exact L.
Qed.

Section Runs.
Variable track : nat -> minimum -> Z -> list minimum.
Variable glob : nat -> minimum -> bool.
Variable retrack : nat -> phase -> list minimum.
Variable cmp : nat -> nat -> phase -> phase -> compare_result.
Hypothesis RI : retracks_inside retrack.
Hypothesis CI : compares_inside cmp.
Variable Tlow Thigh one : Z.
Variable mid : nat -> Z -> list minimum.

Lemma mode0_statuses low high :
  inside Tlow Thigh low -> inside Tlow Thigh high -> (low = [] \/ In Tlow (map temp low)) -> (high = [] \/ In Thigh (map temp high)) ->
  exists ps st, MultiStepPTMode0 track glob retrack cmp low high [] TrSuccess = Ok (ps, st) /\
    (st = TrNoMinsAtBoundaries <-> no_length low \/ no_length high) /\
    (forall a b, ~ no_length low -> ~ no_length high -> highest a low -> lowest b high ->
      (st = TrNoCoverage <-> a <= b) /\
      (b < a -> exists m1 m2, st = if glob 0%nat m1 && glob 0%nat m2 then TrSuccess else TrNoGlobMinCoverage)) /\
    (st = TrSuccess -> long_from Tlow low -> long_from Thigh high -> covered 0 Tlow Thigh ps).
Proof.
  intros Il Ih Hl Hh. unfold MultiStepPTMode0.
  destruct (add_traced retrack cmp 0 (make_phase low) []) as [ps1 lp] eqn:E1.
  assert (G0 : allgood []) by (intros q []).
  pose proof (add_traced_mins _ _ RI CI _ _ _ _ _ G0 E1) as L1.
  destruct (add_traced_spec _ _ RI CI _ _ _ _ _ G0 E1) as (G1 & _ & A1 & B1 & _ & D1 & S1).
  destruct (add_traced retrack cmp 1 (make_phase high) ps1) as [ps2 hp] eqn:E2.
  pose proof (add_traced_mins _ _ RI CI _ _ _ _ _ G1 E2) as L2.
  destruct (add_traced_spec _ _ RI CI _ _ _ _ _ G1 E2) as (G2 & W2 & A2 & B2 & _ & D2 & S2).
  rewrite L1, L2.
  destruct (1 <? length (mins (make_phase low)))%nat eqn:N1.
  2:{ apply Nat.ltb_ge, mp_short in N1. cbn [andb]. exists ps2, TrNoMinsAtBoundaries. split; [reflexivity|]. split; [tauto|].
      split; [intros; tauto|discriminate]. }
  apply Nat.ltb_lt in N1. specialize (D1 N1).
  assert (M1 : ~ no_length low) by (rewrite <- mp_short; lia).
  destruct (1 <? length (mins (make_phase high)))%nat eqn:N2.
  2:{ apply Nat.ltb_ge, mp_short in N2. cbn [andb]. exists ps2, TrNoMinsAtBoundaries. split; [reflexivity|]. split; [tauto|].
      split; [intros; tauto|discriminate]. }
  apply Nat.ltb_lt in N2. specialize (D2 N2). cbn [andb].
  assert (M2 : ~ no_length high) by (rewrite <- mp_short; lia).
  destruct Hl as [->|Hl]; [cbn in N1; lia|]. destruct Hh as [->|Hh]; [cbn in N2; lia|].
  assert (X1 : low <> []) by (intros ->; destruct Hl). assert (X2 : high <> []) by (intros ->; destruct Hh).
  apply mp_in in Hl, Hh. pose proof (mp_inside _ _ _ X1 Il). pose proof (mp_inside _ _ _ X2 Ih).
  destruct (T_low (make_phase high) <? T_high (make_phase low)) eqn:C.
  - apply Z.ltb_lt in C. destruct (glob_total (track 0%nat) (glob 0%nat) lp hp D1 D2) as (b & Eb); [lia|]. rewrite Eb. cbn [bind].
    assert (O : overlap lp hp). { exists (T_high lp). pose proof (VacuumProofs.good_range _ D1). lia. }
    destruct (glob_verdict _ _ _ _ _ Eb (g_two _ D1) (g_two _ D2) O) as (m1 & m2 & Em).
    exists ps2, (if b then TrSuccess else TrNoGlobMinCoverage). split; [reflexivity|]. split; [split; [destruct b; discriminate|tauto]|]. split.
    + intros a' b' _ _ Ha Hb. rewrite (mp_high _ _ Ha), (mp_low _ _ Hb) in C. split; [split; [destruct b; discriminate|lia]|].
      intros _. exists m1, m2. now rewrite Em.
    + intros _ P Q t Ht. destruct (S1 (mp_long _ _ P)) as (q1 & I1 & R1). destruct (W2 _ I1) as (q1' & I1' & R1').
      destruct (S2 (mp_long _ _ Q)) as (q2 & I2 & R2). destruct (Z.le_gt_cases t (T_high lp)); [exists q1'|exists q2]; (split; [auto|lia]).
  - apply Z.ltb_ge in C. exists ps2, TrNoCoverage. split; [reflexivity|]. split; [split; [discriminate|tauto]|]. split; [|discriminate].
    intros a' b' _ _ Ha Hb. rewrite (mp_high _ _ Ha), (mp_low _ _ Hb) in C. split; [tauto|lia].
Qed.

(** * mode 1 *)
Lemma mid_phase_ok k T : Tlow <= T <= Thigh -> mid_phase Tlow Thigh mid k T = Ok (make_phase (mid k T)).
Proof.
  intro H. unfold mid_phase. destruct (T =? Tlow) eqn:A; [reflexivity|]. destruct (T =? Thigh) eqn:B; [reflexivity|].
  cbn [orb]. replace (T <? Thigh) with true by (symmetry; apply Z.ltb_lt; lia). replace (Tlow <? T) with true by (symmetry; apply Z.ltb_lt; lia). reflexivity.
Qed.
Lemma mid_phase_out k T : Tlow <= Thigh -> T < Tlow \/ Thigh < T -> mid_phase Tlow Thigh mid k T = Throw InvalidArgument.
Proof.
  intros L H. unfold mid_phase. replace (T =? Tlow) with false by (symmetry; apply Z.eqb_neq; lia). replace (T =? Thigh) with false by (symmetry; apply Z.eqb_neq; lia).
  cbn [orb]. destruct ((T <? Thigh) && (Tlow <? T)) eqn:A; [lia|]. destruct ((T <? Tlow) && (Thigh <? T)) eqn:B; [lia|]. reflexivity.
Qed.
Lemma mid_phase_inv k T p : mid_phase Tlow Thigh mid k T = Ok p -> p = make_phase (mid k T).
Proof. unfold mid_phase. destruct (_ || _); congruence. Qed.

Hypothesis ML : forall k T, long_from T (mid k T).
Hypothesis MI : forall k T, Tlow <= T <= Thigh -> inside Tlow Thigh (mid k T).

Lemma mp_long_good T ms : long_from T ms -> good (make_phase ms).
Proof. intro H. apply make_good. apply mp_long in H. lia. Qed.

Local Notation loop1 := (mode1_loop track glob retrack cmp Tlow Thigh mid).

Lemma loop1_covers : forall fuel k tl th lp hp ps st ps' st', allgood ps ->
  (forall t, Tlow <= t <= T_high lp -> exists q, In q ps /\ T_low q <= t <= T_high q) ->
  (forall t, T_low hp <= t <= Thigh -> exists q, In q ps /\ T_low q <= t <= T_high q) ->
  loop1 fuel k tl th lp hp ps st = Ok (ps', st') -> st' <> TrNoCoverage -> covered 0 Tlow Thigh ps'.
Proof.
  induction fuel as [|fuel IH]; intros k tl th lp hp ps st ps' st' G CL CH H N; [discriminate|]. cbn [mode1_loop] in H.
  destruct (mid_phase Tlow Thigh mid k th) as [lm0| | |] eqn:F1; try discriminate. apply mid_phase_inv in F1. subst lm0. cbn [bind] in H.
  destruct (mid_phase Tlow Thigh mid (S k) tl) as [hm0| | |] eqn:F2; try discriminate. apply mid_phase_inv in F2. subst hm0. cbn [bind] in H.
  destruct (add_traced retrack cmp k (make_phase (mid k th)) ps) as [ps1 lm] eqn:E1.
  destruct (add_traced_spec _ _ RI CI _ _ _ _ _ G E1) as (G1 & W1 & A1 & B1 & _ & D1 & S1).
  destruct (add_traced retrack cmp (S k) (make_phase (mid (S k) tl)) ps1) as [ps2 hm] eqn:E2.
  destruct (add_traced_spec _ _ RI CI _ _ _ _ _ G1 E2) as (G2 & W2 & A2 & B2 & _ & D2 & S2).
  pose proof (mp_long _ _ (ML k th)) as N1. pose proof (mp_long _ _ (ML (S k) tl)) as N2.
  specialize (S1 N1). specialize (S2 N2). apply (stored_grows _ _ _ W2) in S1.
  assert (W : grows ps ps2) by (eapply grows_trans; eauto).
  assert (CL' : forall t, Tlow <= t <= T_high lp -> exists q, In q ps2 /\ T_low q <= t <= T_high q).
  { intros t Ht. destruct (CL t Ht) as (q & Iq & Rq). destruct (W q Iq) as (q' & Iq' & Rq'). exists q'. split; [auto|lia]. }
  assert (CH' : forall t, T_low hp <= t <= Thigh -> exists q, In q ps2 /\ T_low q <= t <= T_high q).
  { intros t Ht. destruct (CH t Ht) as (q & Iq & Rq). destruct (W q Iq) as (q' & Iq' & Rq'). exists q'. split; [auto|lia]. }
  destruct (DoPhasesOverlap lp lm) eqn:O1; [|cbn [andb] in H; injection H as _ <-; congruence].
  destruct (DoPhasesOverlap hp hm) eqn:O2; [|cbn [andb] in H; injection H as _ <-; congruence]. cbn [andb] in H.
  unfold DoPhasesOverlap in O1, O2.
  assert (CL2 : forall t, Tlow <= t <= T_high lm -> exists q, In q ps2 /\ T_low q <= t <= T_high q).
  { intros t Ht. destruct (Z.le_gt_cases t (T_high lp)); [apply CL'; lia|]. destruct S1 as (q & Iq & Rq). exists q. split; [auto|lia]. }
  assert (CH2 : forall t, T_low hm <= t <= Thigh -> exists q, In q ps2 /\ T_low q <= t <= T_high q).
  { intros t Ht. destruct (Z.le_gt_cases (T_low hp) t); [apply CH'; lia|]. destruct S2 as (q & Iq & Rq). exists q. split; [auto|lia]. }
  destruct (DoPhasesOverlap lm hm) eqn:O3.
  - unfold DoPhasesOverlap in O3.
    assert (R : ps' = ps2).
    { destruct (DoGlobMinOverlap (track k) (glob k) lp lm) as [g1| | |]; cbn [bind] in H; try discriminate.
      destruct (if g1 then _ else _) as [g2| | |]; cbn [bind] in H; try discriminate. destruct g2; [|congruence].
      destruct (DoGlobMinOverlap _ _ lm hm) as [g3| | |]; cbn [bind] in H; try discriminate. destruct g3; congruence. }
    subst ps'. intros t Ht. destruct (Z.le_gt_cases t (T_high lm)); [destruct (CL2 t) as (q & I & R) | destruct (CH2 t) as (q & I & R)]; try lia; exists q; (split; [auto|lia]).
  - eapply IH; [exact G2|exact CL2|exact CH2|exact H|exact N].
Qed.

Lemma mode1_covers fuel low high ps st : long_from Tlow low -> long_from Thigh high ->
  MultiStepPTMode1 track glob retrack cmp Tlow Thigh one mid fuel low high [] TrSuccess = Ok (ps, st) ->
  st <> TrNoCoverage -> covered 0 Tlow Thigh ps.
Proof.
  intros Pl Ph H N. unfold MultiStepPTMode1 in H.
  destruct (add_traced retrack cmp 0 (make_phase low) []) as [ps1 lp] eqn:E1.
  assert (G0 : allgood []) by (intros q []).
  destruct (add_traced_spec _ _ RI CI _ _ _ _ _ G0 E1) as (G1 & _ & A1 & B1 & _ & D1 & S1).
  destruct (add_traced retrack cmp 1 (make_phase high) ps1) as [ps2 hp] eqn:E2.
  destruct (add_traced_spec _ _ RI CI _ _ _ _ _ G1 E2) as (G2 & W2 & A2 & B2 & _ & D2 & S2).
  specialize (S1 (mp_long _ _ Pl)). apply (stored_grows _ _ _ W2) in S1. specialize (S2 (mp_long _ _ Ph)).
  pose proof (mp_in _ _ (proj1 Pl)). pose proof (mp_in _ _ (proj1 Ph)). destruct S1 as (q1 & I1 & R1). destruct S2 as (q2 & I2 & R2).
  destruct (DoPhasesOverlap lp hp) eqn:O.
  - unfold DoPhasesOverlap in O. destruct (DoGlobMinOverlap _ _ lp hp) as [b| | |]; cbn [bind] in H; try discriminate.
    assert (ps = ps2) as -> by congruence.
    intros t Ht. destruct (Z.le_gt_cases t (T_high lp)); [exists q1|exists q2]; (split; [auto|lia]).
  - eapply loop1_covers; [exact G2| | |exact H|exact N]; intros t Ht; [exists q1|exists q2]; (split; [auto|lia]).
Qed.

(** no exception after the first search *)
Lemma glob_no_throw tr gl new old e : DoGlobMinOverlap tr gl new old <> Throw e.
Proof.
  unfold DoGlobMinOverlap, Get. intro H. destruct (_ && _); [|discriminate]. destruct (_ && _); [|discriminate].
  destruct (if T_high old <=? T_high new then _ else _) as (hi & lo).
  destruct (mins hi); [discriminate|]. repeat (match type of H with context [if ?c then _ else _] => destruct c | context [match ?l with [] => _ | _ :: _ => _ end] => destruct l end; cbn [bind fst snd] in H; try discriminate).
Qed.
Lemma loop1_no_throw : forall fuel k tl th lp hp ps st e, allgood ps -> Tlow <= tl <= Thigh -> Tlow <= th <= Thigh ->
  loop1 fuel k tl th lp hp ps st <> Throw e.
Proof.
  induction fuel as [|fuel IH]; intros k tl th lp hp ps st e G Hl Hh H; [discriminate|]. cbn [mode1_loop] in H.
  rewrite !mid_phase_ok in H by assumption. cbn [bind] in H.
  destruct (add_traced retrack cmp k (make_phase (mid k th)) ps) as [ps1 lm] eqn:E1.
  destruct (add_traced_spec _ _ RI CI _ _ _ _ _ G E1) as (G1 & W1 & A1 & B1 & _ & D1 & S1).
  destruct (add_traced retrack cmp (S k) (make_phase (mid (S k) tl)) ps1) as [ps2 hm] eqn:E2.
  destruct (add_traced_spec _ _ RI CI _ _ _ _ _ G1 E2) as (G2 & W2 & A2 & B2 & _ & D2 & S2).
  assert (X1 : mid k th <> []) by (intro X; destruct (ML k th) as (Y & _); rewrite X in Y; destruct Y).
  assert (X2 : mid (S k) tl <> []) by (intro X; destruct (ML (S k) tl) as (Y & _); rewrite X in Y; destruct Y).
  pose proof (mp_inside _ _ _ X1 (MI k th Hh)). pose proof (mp_inside _ _ _ X2 (MI (S k) tl Hl)).
  pose proof (mp_in _ _ (proj1 (ML k th))). pose proof (mp_in _ _ (proj1 (ML (S k) tl))).
  destruct (_ && _) in H; [|discriminate]. destruct (DoPhasesOverlap lm hm).
  - destruct (DoGlobMinOverlap (track k) (glob k) lp lm) as [g1|e'| |] eqn:Q1; cbn [bind] in H; try discriminate; [|now apply glob_no_throw in Q1].
    destruct g1; cbn [bind] in H; [|discriminate].
    destruct (DoGlobMinOverlap _ _ hp hm) as [g2|e'| |] eqn:Q2; cbn [bind] in H; try discriminate; [|now apply glob_no_throw in Q2].
    destruct g2; [|discriminate].
    destruct (DoGlobMinOverlap _ _ lm hm) as [g3|e'| |] eqn:Q3; cbn [bind] in H; try discriminate; now apply glob_no_throw in Q3.
  - apply IH in H; auto; lia.
Qed.

Lemma mode1_throws fuel low high a b : Tlow < Thigh -> 0 < one -> inside Tlow Thigh low -> inside Tlow Thigh high ->
  long_from Tlow low -> long_from Thigh high -> highest a low -> lowest b high -> a < b ->
  (MultiStepPTMode1 track glob retrack cmp Tlow Thigh one mid (S fuel) low high [] TrSuccess = Throw InvalidArgument <->
   Thigh < a + one \/ b - one < Tlow).
Proof.
  intros LT Ho Il Ih Pl Ph Ha Hb Lab. unfold MultiStepPTMode1.
  rewrite (mp_high _ _ Ha), (mp_low _ _ Hb).
  destruct (add_traced retrack cmp 0 (make_phase low) []) as [ps1 lp] eqn:E1.
  assert (G0 : allgood []) by (intros q []).
  destruct (add_traced_spec _ _ RI CI _ _ _ _ _ G0 E1) as (G1 & _ & A1 & B1 & _ & D1 & S1).
  destruct (add_traced retrack cmp 1 (make_phase high) ps1) as [ps2 hp] eqn:E2.
  destruct (add_traced_spec _ _ RI CI _ _ _ _ _ G1 E2) as (G2 & W2 & A2 & B2 & _ & D2 & S2).
  rewrite (mp_high _ _ Ha) in B1. rewrite (mp_low _ _ Hb) in A2.
  pose proof (mp_in _ _ (proj1 Pl)). pose proof (mp_in _ _ (proj1 Ph)).
  assert (Ra : Tlow <= a <= Thigh). { destruct Ha as (Ha & _). apply in_map_iff in Ha as (m & <- & I). now apply Il. }
  assert (Rb : Tlow <= b <= Thigh). { destruct Hb as (Hb & _). apply in_map_iff in Hb as (m & <- & I). now apply Ih. }
  replace (DoPhasesOverlap lp hp) with false by (symmetry; unfold DoPhasesOverlap; rewrite A2, B1; apply andb_false_iff; left; apply Z.leb_gt; lia).
  split.
  - intro HH. destruct (Z_lt_ge_dec Thigh (a + one)); [auto|]. destruct (Z_lt_ge_dec (b - one) Tlow); [auto|]. exfalso.
    eapply loop1_no_throw; [exact G2| | |exact HH]; lia.
  - intros HH. cbn [mode1_loop]. destruct (Z_lt_ge_dec Thigh (a + one)).
    + rewrite mid_phase_out by lia. reflexivity.
    + rewrite (mid_phase_ok 2) by lia. cbn [bind]. rewrite mid_phase_out by lia. reflexivity.
Qed.

(** termination *)
Hypothesis MP : forall k T, Tlow <= T < Thigh -> exists t, In t (map temp (mid k T)) /\ T < t.
Lemma mp_next k T : Tlow <= T < Thigh -> T < T_high (make_phase (mid k T)).
Proof. intro H. destruct (MP k T H) as (t & I & L). apply mp_in in I. lia. Qed.

Lemma loop1_stops : forall n k tl th lp hp ps st, allgood ps -> Tlow <= th -> tl <= Thigh -> th < tl -> tl - th <= Z.of_nat n ->
  loop1 (S n) k tl th lp hp ps st <> OutOfFuel.
Proof.
  induction n as [|n IH]; intros k tl th lp hp ps st G Hl Hh Lt Ln H; [lia|]. remember (S n) as n' eqn:En. cbn [mode1_loop] in H.
  rewrite !mid_phase_ok in H by lia. cbn [bind] in H.
  destruct (add_traced retrack cmp k (make_phase (mid k th)) ps) as [ps1 lm] eqn:E1.
  destruct (add_traced_spec _ _ RI CI _ _ _ _ _ G E1) as (G1 & W1 & A1 & B1 & _ & D1 & S1).
  destruct (add_traced retrack cmp (S k) (make_phase (mid (S k) tl)) ps1) as [ps2 hm] eqn:E2.
  destruct (add_traced_spec _ _ RI CI _ _ _ _ _ G1 E2) as (G2 & W2 & A2 & B2 & _ & D2 & S2).
  pose proof (mp_long _ _ (ML k th)) as N1. pose proof (mp_long _ _ (ML (S k) tl)) as N2.
  assert (X1 : mid k th <> []) by (intro X; destruct (ML k th) as (Y & _); rewrite X in Y; destruct Y).
  assert (X2 : mid (S k) tl <> []) by (intro X; destruct (ML (S k) tl) as (Y & _); rewrite X in Y; destruct Y).
  assert (Rh : Tlow <= th <= Thigh) by lia. assert (Rl : Tlow <= tl <= Thigh) by lia.
  pose proof (mp_inside _ _ _ X1 (MI k th Rh)). pose proof (mp_inside _ _ _ X2 (MI (S k) tl Rl)).
  pose proof (mp_in _ _ (proj1 (ML k th))). pose proof (mp_in _ _ (proj1 (ML (S k) tl))).
  assert (Rh' : Tlow <= th < Thigh) by lia. pose proof (mp_next k th Rh').
  destruct (_ && _) in H; [|discriminate]. destruct (DoPhasesOverlap lm hm) eqn:O.
  - assert (NF : forall tr gl x y, DoGlobMinOverlap tr gl x y <> OutOfFuel).
    { intros tr gl x y Hx. unfold DoGlobMinOverlap, Get in Hx. destruct (_ && _) in Hx; [|discriminate]. destruct (_ && _) in Hx; [|discriminate].
      destruct (if T_high y <=? T_high x then _ else _) as (hi & lo) in Hx.
      destruct (mins hi); [discriminate|]. repeat (match type of Hx with context [if ?c then _ else _] => destruct c | context [match ?l with [] => _ | _ :: _ => _ end] => destruct l end; cbn [bind fst snd] in Hx; try discriminate). }
    destruct (DoGlobMinOverlap (track k) (glob k) lp lm) as [g1|e'| |] eqn:Q1; cbn [bind] in H; try discriminate; [|now apply NF in Q1].
    destruct g1; cbn [bind] in H; [|discriminate].
    destruct (DoGlobMinOverlap _ _ hp hm) as [g2|e'| |] eqn:Q2; cbn [bind] in H; try discriminate; [|now apply NF in Q2].
    destruct g2; [|discriminate].
    destruct (DoGlobMinOverlap _ _ lm hm) as [g3|e'| |] eqn:Q3; cbn [bind] in H; try discriminate; now apply NF in Q3.
  - unfold DoPhasesOverlap in O. subst n'. eapply IH; [exact G2| | | | |exact H]; lia.
Qed.
Lemma mode1_terminates low high : Tlow < Thigh -> 0 < one -> inside Tlow Thigh low -> inside Tlow Thigh high ->
  long_from Tlow low -> long_from Thigh high ->
  exists fuel, MultiStepPTMode1 track glob retrack cmp Tlow Thigh one mid fuel low high [] TrSuccess <> OutOfFuel.
Proof.
  intros LT Ho Il Ih Pl Ph. unfold MultiStepPTMode1.
  destruct (add_traced retrack cmp 0 (make_phase low) []) as [ps1 lp] eqn:E1.
  assert (G0 : allgood []) by (intros q []).
  destruct (add_traced_spec _ _ RI CI _ _ _ _ _ G0 E1) as (G1 & _ & A1 & B1 & _ & D1 & S1).
  destruct (add_traced retrack cmp 1 (make_phase high) ps1) as [ps2 hp] eqn:E2.
  destruct (add_traced_spec _ _ RI CI _ _ _ _ _ G1 E2) as (G2 & W2 & A2 & B2 & _ & D2 & S2).
  assert (NF : forall tr gl x y, DoGlobMinOverlap tr gl x y <> OutOfFuel).
  { intros tr gl x y Hx. unfold DoGlobMinOverlap, Get in Hx. destruct (_ && _) in Hx; [|discriminate]. destruct (_ && _) in Hx; [|discriminate].
    destruct (if T_high y <=? T_high x then _ else _) as (hi & lo) in Hx.
    destruct (mins hi); [discriminate|]. repeat (match type of Hx with context [if ?c then _ else _] => destruct c | context [match ?l with [] => _ | _ :: _ => _ end] => destruct l end; cbn [bind fst snd] in Hx; try discriminate). }
  destruct (DoPhasesOverlap lp hp) eqn:O.
  { exists 0%nat. destruct (DoGlobMinOverlap _ _ lp hp) as [b|e| |] eqn:Q; cbn [bind]; try discriminate. now apply NF in Q. }
  set (a := T_high (make_phase low)) in *. set (b := T_low (make_phase high)) in *.
  destruct (Z_lt_ge_dec (a + one) (b - one)).
  - destruct (Z_lt_ge_dec Thigh (a + one)); [exists 1%nat; cbn [mode1_loop]; rewrite mid_phase_out by lia; discriminate|].
    destruct (Z_lt_ge_dec (b - one) Tlow); [exists 1%nat; cbn [mode1_loop]; rewrite (mid_phase_ok 2), mid_phase_out by (pose proof (mp_in _ _ (proj1 Pl)); lia); discriminate|].
    exists (S (Z.to_nat (b - one - (a + one)))). apply loop1_stops; auto; pose proof (mp_in _ _ (proj1 Pl)); pose proof (mp_in _ _ (proj1 Ph)); lia.
  - exists 1%nat. cbn [mode1_loop].
    destruct (mid_phase Tlow Thigh mid 2 (a + one)) as [lm0| | |] eqn:F1; cbn [bind]; try discriminate;
      [|unfold mid_phase in F1; destruct (_ || _) in F1; discriminate].
    destruct (mid_phase Tlow Thigh mid 3 (b - one)) as [hm0| | |] eqn:F2; cbn [bind]; try discriminate;
      [|unfold mid_phase in F2; destruct (_ || _) in F2; discriminate].
    apply mid_phase_inv in F1, F2. subst lm0 hm0.
    destruct (add_traced retrack cmp 2 (make_phase (mid 2%nat (a + one))) ps2) as [ps3 lm] eqn:E3.
    destruct (add_traced_spec _ _ RI CI _ _ _ _ _ G2 E3) as (G3 & W3 & A3 & B3 & _ & D3 & S3).
    destruct (add_traced retrack cmp 3 (make_phase (mid 3%nat (b - one))) ps3) as [ps4 hm] eqn:E4.
    destruct (add_traced_spec _ _ RI CI _ _ _ _ _ G3 E4) as (G4 & W4 & A4 & B4 & _ & D4 & S4).
    pose proof (mp_in _ _ (proj1 (ML 2%nat (a + one)))). pose proof (mp_in _ _ (proj1 (ML 3%nat (b - one)))).
    destruct (DoPhasesOverlap lp lm) eqn:O1; cbn [andb]; [|discriminate]. destruct (DoPhasesOverlap hp hm) eqn:O2; [|discriminate].
    assert (O3 : DoPhasesOverlap lm hm = true).
    { unfold DoPhasesOverlap in *. pose proof (mp_in _ _ (proj1 Pl)). pose proof (mp_in _ _ (proj1 Ph)).
      assert (X1 : low <> []) by (intros ->; destruct Pl as ([] & _)). pose proof (mp_inside _ _ _ X1 Il).
      assert (X2 : high <> []) by (intros ->; destruct Ph as ([] & _)). pose proof (mp_inside _ _ _ X2 Ih). fold a in B1. fold b in A2. lia. }
    rewrite O3.
    destruct (DoGlobMinOverlap _ _ lp lm) as [g1|e'| |] eqn:Q1; cbn [bind]; try discriminate; [|now apply NF in Q1].
    destruct g1; cbn [bind]; [|discriminate].
    destruct (DoGlobMinOverlap _ _ hp hm) as [g2|e'| |] eqn:Q2; cbn [bind]; try discriminate; [|now apply NF in Q2].
    destruct g2; [|discriminate].
    destruct (DoGlobMinOverlap _ _ lm hm) as [g3|e'| |] eqn:Q3; cbn [bind]; try discriminate. now apply NF in Q3.
Qed.
End Runs.

(** a loop that never closes in: the phases found from both sides end where they were found *)
Lemma loop1_stuck track glob retrack cmp Tlow Thigh (mid : Z -> list minimum) a b :
  retracks_inside retrack -> compares_inside cmp -> Tlow <= a -> a < b -> b <= Thigh ->
  long_from a (mid a) -> long_from b (mid b) -> highest a (mid a) -> lowest b (mid b) ->
  forall fuel k lp hp ps st, allgood ps ->
    T_low lp <= a -> T_low (make_phase (mid a)) <= T_high lp -> T_low hp <= T_high (make_phase (mid b)) -> b <= T_high hp ->
    mode1_loop track glob retrack cmp Tlow Thigh (fun _ => mid) fuel k b a lp hp ps st = OutOfFuel.
Proof.
  intros RI CI La Lab Lb Pa Pb Ha Hb. induction fuel as [|fuel IH]; intros k lp hp ps st G A1 A2 A3 A4; [reflexivity|]. cbn [mode1_loop].
  rewrite !mid_phase_ok by lia. cbn [bind].
  destruct (add_traced retrack cmp k (make_phase (mid a)) ps) as [ps1 lm] eqn:E1.
  destruct (add_traced_spec _ _ RI CI _ _ _ _ _ G E1) as (G1 & W1 & X1 & Y1 & _).
  destruct (add_traced retrack cmp (S k) (make_phase (mid b)) ps1) as [ps2 hm] eqn:E2.
  destruct (add_traced_spec _ _ RI CI _ _ _ _ _ G1 E2) as (G2 & W2 & X2 & Y2 & _).
  pose proof (mp_in _ _ (proj1 Pa)). pose proof (mp_in _ _ (proj1 Pb)).
  rewrite (mp_high _ _ Ha) in Y1. rewrite (mp_low _ _ Hb) in X2.
  replace (DoPhasesOverlap lp lm) with true by (symmetry; unfold DoPhasesOverlap; lia).
  replace (DoPhasesOverlap hp hm) with true by (symmetry; unfold DoPhasesOverlap; lia). cbn [andb].
  replace (DoPhasesOverlap lm hm) with false by (symmetry; unfold DoPhasesOverlap; apply andb_false_iff; left; apply Z.leb_gt; lia).
  rewrite X2, Y1. apply IH; auto; lia.
Qed.
