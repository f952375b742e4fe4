(** Proofs about mode 2. *)
From Coq Require Import Lia Sorted.
From Verif.Model Require Import Base Phase MultiStep Modes.
From Verif.Spec Require Import PhaseSpec MultiStepSpec ModesSpec.
From Verif.Proofs Require Import PhaseProofs VacuumProofs MultiStepProofs ModesProofs ModesRuns.
Open Scope Z_scope.

Section Two.
Variable retrack : nat -> phase -> list minimum.
Variable cmp : nat -> nat -> phase -> phase -> compare_result.
Hypothesis RI : retracks_inside retrack.
Hypothesis CI : compares_inside cmp.
Variable Tlow Thigh one : Z.
Variable mid2 : nat -> Z -> traced2.
Hypothesis ML : forall k T, long_from T (t2_mins (mid2 k T)).
Hypothesis ME : forall k T, ends_below T (mid2 k T).
Local Notation loop2 := (mode2_loop retrack cmp Tlow Thigh one mid2).

Lemma mid2_facts k T : let p := make_phase (t2_mins (mid2 k T)) in
  T_low p < T_high p /\ T_low p <= T <= T_high p /\ T_low p <= glob_end T (mid2 k T) <= T.
Proof.
  intro p. pose proof (mp_long_good _ _ (ML k T)) as G. fold p in G. split; [now apply VacuumProofs.good_range|].
  split; [apply mp_in, ML|]. destruct (ME k T) as (e & E & L & a & I & La). unfold glob_end. rewrite E. apply mp_in in I. fold p in I. lia.
Qed.
Lemma mid2_add k i T ps : allgood ps -> let ps' := fst (addPhase (retrack i) (cmp i) ps (make_phase (t2_mins (mid2 k T)))) in
  allgood ps' /\ grows ps ps' /\ stored ps' (make_phase (t2_mins (mid2 k T))).
Proof.
  intros G ps'. pose proof (mp_long _ _ (ML k T)) as L.
  assert (E : add_traced retrack cmp i (make_phase (t2_mins (mid2 k T))) ps = addPhase (retrack i) (cmp i) ps (make_phase (t2_mins (mid2 k T)))).
  { unfold add_traced. replace (1 <? _)%nat with true by (symmetry; apply Nat.ltb_lt; lia). reflexivity. }
  destruct (addPhase (retrack i) (cmp i) ps (make_phase (t2_mins (mid2 k T)))) as [a b] eqn:F.
  destruct (add_traced_spec _ _ RI CI _ _ _ _ _ G E) as (A & B & C & D & _ & _ & S). split; [exact A|]. split; [exact B|].
  destruct (S L) as (q & I & R). exists q. split; [exact I|lia].
Qed.

Lemma loop2_covers : forall fuel k tl th ps ps' log, allgood ps -> 0 <= one ->
  near_covered one Tlow tl ps -> near_covered one th Thigh ps ->
  loop2 fuel k tl th ps = Ok (ps', log) ->
  near_covered one Tlow Thigh ps' /\ (forall a b, In (a, b) log -> a <= tl) /\
  (forall i x y, nth_error log i = Some x -> nth_error log (S i) = Some y -> fst y <= fst x /\ snd y <= snd x).
Proof.
  induction fuel as [|fuel IH]; intros k tl th ps ps' log G O CL CH H; [discriminate|]. cbn [mode2_loop] in H.
  destruct (tl <? th) eqn:E.
  - destruct (mid2_facts k tl) as (A1 & A2 & A3). destruct (mid2_facts (S k) th) as (B1 & B2 & B3).
    apply Z.ltb_lt in A1. rewrite A1 in H. apply Z.ltb_lt in B1. rewrite B1 in H.
    destruct (mid2_add k k tl ps G) as (G1 & W1 & S1). set (ps1 := fst (addPhase _ _ ps _)) in *.
    destruct (mid2_add (S k) (S k) th ps1 G1) as (G2 & W2 & S2). set (ps2 := fst (addPhase (retrack (S k)) _ ps1 _)) in *.
    destruct (loop2 fuel (S (S k)) _ _ ps2) as [[psr logr]| | |] eqn:R; cbn [bind fst snd] in H; try discriminate.
    injection H as <- <-. pose proof (grows_trans _ _ _ W1 W2) as W.
    assert (M : forall a b, near_covered one a b ps -> near_covered one a b ps2).
    { intros a b C t Ht. destruct (C t Ht) as (q & I & X). destruct (W q I) as (q' & I' & X'). exists q'. split; [auto|lia]. }
    assert (CL2 : near_covered one Tlow (glob_end tl (mid2 k tl)) ps2) by (intros t Ht; apply (M _ _ CL); lia).
    assert (CH2 : near_covered one (glob_end th (mid2 (S k) th)) Thigh ps2).
    { intros t Ht. destruct (Z.le_gt_cases th t); [apply (M _ _ CH); lia|]. destruct S2 as (q & I & X). exists q. split; [auto|lia]. }
    destruct (IH _ _ _ _ _ _ G2 O CL2 CH2 R) as (C1 & C2 & C3).
    split; [exact C1|]. split.
    + intros a b [X|X]; [injection X as <- <-; lia|]. apply C2 in X. lia.
    + intros [|i] x y Hx Hy.
      * cbn in Hx. injection Hx as <-. cbn in Hy. destruct logr as [|z logr]; [discriminate|]. cbn in Hy. injection Hy as ->. destruct y as [a b]. cbn [fst snd].
           assert (Q : a = glob_end tl (mid2 k tl) /\ b = glob_end th (mid2 (S k) th)).
           { destruct fuel as [|f]; [discriminate|]. cbn [mode2_loop] in R. destruct (_ <? _) in R; [|discriminate].
             repeat match type of R with context [let '(_, _) := ?e in _] => destruct e end.
             destruct (loop2 f _ _ _ _) as [[u v]| | |] in R; cbn [bind fst snd] in R; try discriminate. injection R as _ X1 X2 _. auto. }
           lia.
      * cbn in Hx. cbn in Hy. eapply C3; eauto.
  - injection H as <- <-. split; [|split; [intros a b []|intros [|i]; discriminate]].
    intros t Ht. destruct (Z.le_gt_cases t tl); [apply CL; lia|apply CH; lia].
Qed.

Lemma mode2_covers fuel low high e1 e2 ps log : 0 <= one -> long_from Tlow low -> long_from Thigh high ->
  (exists a, In a (map temp low) /\ e1 <= a) -> (exists a, In a (map temp high) /\ a <= e2) ->
  MultiStepPTMode2 retrack cmp Tlow Thigh one mid2 fuel (low, Some e1) (high, Some e2) [] = Ok (ps, log) ->
  near_covered one Tlow Thigh ps /\
  (forall i x y, nth_error log i = Some x -> nth_error log (S i) = Some y -> fst y <= fst x /\ snd y <= snd x).
Proof.
  intros O Pl Ph (a & Ia & La) (b & Ib & Lb) H. unfold MultiStepPTMode2 in H. cbn [fst snd] in H.
  destruct (add_traced retrack cmp 0 (make_phase low) []) as [ps1 lp] eqn:E1.
  assert (G0 : allgood []) by (intros q []).
  destruct (add_traced_spec _ _ RI CI _ _ _ _ _ G0 E1) as (G1 & _ & A1 & B1 & _ & D1 & S1).
  destruct (add_traced retrack cmp 1 (make_phase high) ps1) as [ps2 hp] eqn:E2.
  destruct (add_traced_spec _ _ RI CI _ _ _ _ _ G1 E2) as (G2 & W2 & A2 & B2 & _ & D2 & S2).
  specialize (S1 (mp_long _ _ Pl)). apply (stored_grows _ _ _ W2) in S1. specialize (S2 (mp_long _ _ Ph)).
  pose proof (mp_in _ _ (proj1 Pl)). pose proof (mp_in _ _ (proj1 Ph)). apply mp_in in Ia, Ib.
  destruct S1 as (q1 & I1 & R1). destruct S2 as (q2 & I2 & R2).
  assert (CL : near_covered one Tlow (if e1 <? T_high lp then e1 else e1 + one) ps2).
  { intros t Ht. exists q1. split; [auto|]. destruct (e1 <? T_high lp); lia. }
  assert (CH : near_covered one (if T_low hp <? e2 then e2 else e2 - one) Thigh ps2).
  { intros t Ht. exists q2. split; [auto|]. destruct (T_low hp <? e2); lia. }
  destruct (loop2_covers _ _ _ _ _ _ _ G2 O CL CH H) as (X & _ & Y). auto.
Qed.

Hypothesis MD : forall k T e, Tlow <= T -> t2_down (mid2 k T) = Some e -> Tlow <= e /\ (Tlow < T -> e < T).
Lemma loop2_stops : forall n k tl th ps, Tlow <= tl -> th - Tlow <= Z.of_nat n -> loop2 (S n) k tl th ps <> OutOfFuel.
Proof.
  induction n as [|n IH]; intros k tl th ps Hl Hn H.
  - cbn [mode2_loop] in H. replace (tl <? th) with false in H by (symmetry; apply Z.ltb_ge; lia). discriminate.
  - remember (S n) as n' eqn:En. cbn [mode2_loop] in H. destruct (tl <? th) eqn:E; [|discriminate]. apply Z.ltb_lt in E.
    destruct (mid2_facts k tl) as (A1 & A2 & A3). destruct (mid2_facts (S k) th) as (B1 & B2 & B3).
    apply Z.ltb_lt in A1. rewrite A1 in H. apply Z.ltb_lt in B1. rewrite B1 in H.
    destruct (loop2 n' (S (S k)) _ _ _) as [[psr logr]| | |] eqn:R; cbn [bind fst snd] in H; try discriminate. subst n'.
    destruct (ME k tl) as (e & Ee & _). pose proof (MD k tl e Hl Ee).
    destruct (ME (S k) th) as (f & Ef & _). assert (Hh : Tlow <= th) by lia. pose proof (MD (S k) th f Hh Ef).
    unfold glob_end in R. rewrite Ee, Ef in R. apply IH in R; [destruct R|lia|lia].
Qed.
Lemma mode2_stops low high e1 e2 : 0 <= one -> Tlow <= e1 ->
  exists fuel, MultiStepPTMode2 retrack cmp Tlow Thigh one mid2 fuel (low, Some e1) (high, Some e2) [] <> OutOfFuel.
Proof.
  intros O L. unfold MultiStepPTMode2. cbn [fst snd].
  destruct (add_traced retrack cmp 0 (make_phase low) []) as [ps1 lp].
  destruct (add_traced retrack cmp 1 (make_phase high) ps1) as [ps2 hp].
  exists (S (Z.to_nat ((if T_low hp <? e2 then e2 else e2 - one) - Tlow))). apply loop2_stops; [destruct (_ <? _); lia|lia].
Qed.
End Two.

(** never closing in: the phases found from above are not confirmed as global minima at their starting temperature *)
Lemma loop2_stuck retrack cmp Tlow Thigh one tl th t1 t2 mid2 : tl < th ->
  (forall k T, mid2 k T = if T =? tl then t1 else t2) -> T_low (make_phase (t2_mins t1)) < T_high (make_phase (t2_mins t1)) ->
  T_low (make_phase (t2_mins t2)) < T_high (make_phase (t2_mins t2)) -> glob_end tl t1 = tl -> glob_end th t2 = th ->
  forall fuel k ps, mode2_loop retrack cmp Tlow Thigh one mid2 fuel k tl th ps = OutOfFuel.
Proof.
  intros L M L1 L2 E1 E2. induction fuel as [|fuel IH]; intros k ps; [reflexivity|]. cbn [mode2_loop].
  replace (tl <? th) with true by (symmetry; apply Z.ltb_lt; lia). rewrite !M, Z.eqb_refl. replace (th =? tl) with false by (symmetry; apply Z.eqb_neq; lia).
  apply Z.ltb_lt in L1, L2. rewrite L1, L2, E1, E2, IH. reflexivity.
Qed.
