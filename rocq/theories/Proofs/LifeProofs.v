(** Life cycle of a model object. *)
From Coq Require Import List Bool.
From Verif.Model Require Import Base LifeCycle.
From Verif.Spec Require Import LifeSpec.
Import ListNotations.

Ltac finish_it := eexists; split; [vm_compute; reflexivity|]; repeat split; vm_compute; reflexivity.
Ltac finish_it2 := eexists _, _; split; [vm_compute; reflexivity|]; repeat split; vm_compute; reflexivity.

Section Life.
  Variables P C S L : Type.
  Variable own_scale : P -> S.
  Variable first_scale : S.
  Variables gen_sets_curvature caches_triple : bool.
  Variable counterterms : S -> P -> P -> C.
  Variable read : L -> outcome P.
  Notation object := (object P C S).
  Notation initModel := (initModel P C S own_scale gen_sets_curvature counterterms).
  Notation initModel_line := (initModel_line P C S L own_scale gen_sets_curvature counterterms read).
  Notation resetScale := (resetScale P C S counterterms).
  Notation set_All := (set_All P C S own_scale gen_sets_curvature).
  Notation TripleHiggsCouplings := (TripleHiggsCouplings P C S caches_triple).
  Notation fresh := (fresh P C S first_scale).
  Notation perform := (perform P C S L own_scale gen_sets_curvature caches_triple counterterms read).
  Notation run := (run P C S L own_scale gen_sets_curvature caches_triple counterterms read).
  Notation call := (call P C S L).

  Definition good (o : object) (p : P) (c : C) : Prop :=
    consistent (members _ _ _ o) (tensors _ _ _ o) (couplings _ _ _ o) (parStored _ _ _ o) (debye _ _ _ o) (ct_tensors _ _ _ o) (parCTStored _ _ _ o) p c.
  Definition ready (o : object) : Prop := SetCurvatureDone _ _ _ o = true /\ CalcCouplingsdone _ _ _ o = true.

  Lemma init_spec p (o : object) : exists o', initModel p o = (o', Ok (counterterms (own_scale p) p p)) /\
    good o' p (counterterms (own_scale p) p p) /\ ready o' /\ scale _ _ _ o' = own_scale p /\ CalculatedTripleCopulings _ _ _ o' = false.
  Proof. destruct o. destruct gen_sets_curvature; finish_it. Qed.
  Lemma init_line_spec l p (o : object) : read l = Ok p -> exists o', initModel_line l o = (o', Ok (p, counterterms (own_scale p) p p)) /\
    good o' p (counterterms (own_scale p) p p) /\ ready o' /\ scale _ _ _ o' = own_scale p /\ CalculatedTripleCopulings _ _ _ o' = false.
  Proof.
    intro E. destruct o. unfold LifeCycle.initModel_line, ReadAndSet, seq at 1, resetbools. unfold seq at 1. rewrite E. destruct gen_sets_curvature; finish_it.
  Qed.
  (** a line that cannot be read leaves an object without stored parameters that refuses to compute counterterms *)
  Lemma init_line_throws l e (o : object) : read l = Throw e -> exists o', initModel_line l o = (o', Throw e) /\
    parStored _ _ _ o' = None /\ parCTStored _ _ _ o' = None /\ forall s, snd (resetScale s o') = Throw RuntimeError.
  Proof. intro E. destruct o. unfold LifeCycle.initModel_line, ReadAndSet, seq at 1, resetbools. unfold seq at 1. rewrite E. finish_it. Qed.
  Lemma rescale_spec s p c (o : object) : good o p c -> ready o -> exists o', resetScale s o = (o', Ok (counterterms s p p)) /\
    good o' p (counterterms s p p) /\ ready o' /\ scale _ _ _ o' = s.
  Proof.
    destruct o. unfold good, consistent, ready. cbn. intros (-> & -> & -> & -> & -> & -> & ->) (-> & ->).
    finish_it.
  Qed.
  Lemma triple_keeps p c (o : object) : good o p c -> ready o -> exists o', TripleHiggsCouplings o = (o', Ok tt) /\ good o' p c /\ ready o' /\ scale _ _ _ o' = scale _ _ _ o.
  Proof.
    destruct o. unfold good, consistent, ready. cbn. intros (-> & -> & -> & -> & -> & -> & ->) (-> & ->).
    unfold LifeCycle.TripleHiggsCouplings, seq, ensure_curvature. cbn. destruct (caches_triple && CalculatedTripleCopulings); finish_it.
  Qed.
  Lemma triple_spec p c (o : object) : caches_triple = false -> good o p c -> ready o -> exists o', TripleHiggsCouplings o = (o', Ok tt) /\
    triple _ _ _ o' = Some (scale _ _ _ o, p, Some c).
  Proof.
    destruct o. unfold good, consistent, ready. cbn. intros E (-> & -> & -> & -> & -> & -> & ->) (-> & ->).
    unfold LifeCycle.TripleHiggsCouplings, seq, ensure_curvature. cbn. rewrite E. eexists. split; reflexivity.
  Qed.
  Lemma triple_stale p s : caches_triple = true -> exists o, run [Init _ _ _ _ p; Triple _ _ _ _; Rescale _ _ _ _ s; Triple _ _ _ _] fresh = Some o /\
    good o p (counterterms s p p) /\ scale _ _ _ o = s /\
    triple _ _ _ o = Some (own_scale p, p, Some (counterterms (own_scale p) p p)).
  Proof. intros ->. destruct gen_sets_curvature; finish_it. Qed.

  (** histories *)
  Definition no_set_All (k : call) : Prop := match k with SetAll _ _ _ _ _ _ => False | _ => True end.
  Definition reads_defined (k : call) : Prop := match k with InitLine _ _ _ _ l => match read l with Ok _ | Throw _ => True | _ => False end | _ => True end.
  Definition Inv (o : object) : Prop := match parStored _ _ _ o with Some p => good o p (counterterms (scale _ _ _ o) p p) /\ ready o | None => True end.
  Lemma perform_inv (o o' : object) k : Inv o -> no_set_All k -> perform o k = Some o' -> Inv o'.
  Proof.
    intros I N E. destruct k as [p|l|s| |p c]; cbn [LifeCycle.perform] in E; [| | | |destruct N].
    - destruct (init_spec p o) as (o1 & E1 & G & R & Sc & _). rewrite E1 in E. injection E as <-. unfold Inv. destruct G as (G1 & G2 & G3 & G4 & G5). rewrite G4.
      split; [|exact R]. rewrite Sc. unfold good, consistent. tauto.
    - destruct (read l) as [p|e| |] eqn:El.
      + destruct (init_line_spec l p o El) as (o1 & E1 & G & R & Sc & _). rewrite E1 in E. injection E as <-. unfold Inv. destruct G as (G1 & G2 & G3 & G4 & G5). rewrite G4.
        split; [|exact R]. rewrite Sc. unfold good, consistent. tauto.
      + destruct (init_line_throws l e o El) as (o1 & E1 & G & _). rewrite E1 in E. injection E as <-. unfold Inv. now rewrite G.
      + destruct o. unfold LifeCycle.initModel_line, ReadAndSet, seq at 1, resetbools in E. unfold seq at 1 in E. rewrite El in E. discriminate E.
      + destruct o. unfold LifeCycle.initModel_line, ReadAndSet, seq at 1, resetbools in E. unfold seq at 1 in E. rewrite El in E. discriminate E.
    - unfold Inv in I. destruct (parStored _ _ _ o) as [p|] eqn:Ep.
      + destruct I as (G & R). destruct (rescale_spec s p _ o G R) as (o1 & E1 & G1 & R1 & Sc). rewrite E1 in E. injection E as <-. unfold Inv.
        assert (parStored _ _ _ o1 = Some p) as -> by apply G1. rewrite Sc. now split.
      + assert (parStored _ _ _ o' = None) as X; [|unfold Inv; now rewrite X].
        destruct o. cbn in Ep. subst. unfold LifeCycle.resetScale, seq, set_scale, calc_CT, set_CT_Pot_Par, store in E. cbn in E.
        destruct SetCurvatureDone; cbn in E; [|injection E as <-; reflexivity]. destruct CalcCouplingsdone; cbn in E; [|injection E as <-; reflexivity].
        destruct members; [|discriminate E]. destruct couplings; [|discriminate E]. cbn in E. destruct tensors; [|discriminate E]. injection E as <-. reflexivity.
    - unfold Inv in I. destruct (parStored _ _ _ o) as [p|] eqn:Ep.
      + destruct I as (G & R). destruct (triple_keeps p _ o G R) as (o1 & E1 & G1 & R1 & Sc). rewrite E1 in E. injection E as <-. unfold Inv.
        assert (parStored _ _ _ o1 = Some p) as -> by apply G1. rewrite Sc. now split.
      + assert (parStored _ _ _ o' = None) as X; [|unfold Inv; now rewrite X].
        destruct o. cbn in Ep. subst. unfold LifeCycle.TripleHiggsCouplings, seq, ensure_curvature, CalculatePhysicalCouplings, SetCurvatureArrays, seq, ensure_curvature in E. cbn in E.
        destruct SetCurvatureDone; cbn in E.
        * destruct CalcCouplingsdone; cbn in E; destruct (caches_triple && CalculatedTripleCopulings); try (injection E as <-; reflexivity);
            [destruct couplings|destruct tensors]; try discriminate E; injection E as <-; reflexivity.
        * destruct members; cbn in E; [|discriminate E]. destruct CalcCouplingsdone; cbn in E; destruct (caches_triple && CalculatedTripleCopulings); try (injection E as <-; reflexivity).
          destruct couplings; [injection E as <-; reflexivity|discriminate E].
  Qed.
  Lemma run_inv ks : forall o o', Inv o -> Forall no_set_All ks -> run ks o = Some o' -> Inv o'.
  Proof.
    induction ks as [|k ks IH]; intros o o' I F E; cbn in E; [now injection E as <-|]. inversion F; subst.
    destruct (perform o k) as [o1|] eqn:E1; [|discriminate E]. apply (IH o1); try assumption. now apply (perform_inv o o1 k).
  Qed.
  Lemma history ks o p : Forall no_set_All ks -> run ks fresh = Some o -> parStored _ _ _ o = Some p ->
    good o p (counterterms (scale _ _ _ o) p p) /\ ready o.
  Proof. intros F E Ep. assert (I : Inv o) by (apply (run_inv ks fresh o); [exact Logic.I|exact F|exact E]). unfold Inv in I. now rewrite Ep in I. Qed.
  Lemma run_app ks1 : forall ks2 (o : object), run (ks1 ++ ks2) o = match run ks1 o with Some o' => run ks2 o' | None => None end.
  Proof. induction ks1 as [|k ks IH]; intros ks2 o; [reflexivity|]. cbn. destruct (perform o k); [apply IH|reflexivity]. Qed.
  Lemma allowed ks : Forall (fun k : call => forall q c, k <> SetAll _ _ _ _ q c) ks -> Forall no_set_All ks.
  Proof. intro F. refine (Forall_impl _ _ F). intros [| | | |q c] N; cbn; try exact I. exact (N q c eq_refl). Qed.
  Lemma rescale_history ks s o o' p : Forall (fun k => forall q c, k <> SetAll _ _ _ _ q c) ks -> run ks fresh = Some o -> parStored _ _ _ o = Some p ->
    run (ks ++ [Rescale _ _ _ _ s]) fresh = Some o' -> good o' p (counterterms s p p) /\ scale _ _ _ o' = s.
  Proof.
    intros F E H E'. rewrite run_app, E in E'. destruct (history ks o p (allowed _ F) E H) as (G & R).
    destruct (rescale_spec s p _ o G R) as (o1 & E1 & G1 & R1 & Sc). cbn [LifeCycle.run LifeCycle.perform] in E'. rewrite E1 in E'. cbn in E'. injection E' as <-. now split.
  Qed.
  Lemma triple_history ks o p : caches_triple = false -> Forall (fun k => forall q c, k <> SetAll _ _ _ _ q c) ks -> run ks fresh = Some o -> parStored _ _ _ o = Some p ->
    exists o', run (ks ++ [Triple _ _ _ _]) fresh = Some o' /\ triple _ _ _ o' = Some (scale _ _ _ o, p, Some (counterterms (scale _ _ _ o) p p)).
  Proof.
    intros K F E H. destruct (history ks o p (allowed _ F) E H) as (G & R). destruct (triple_spec p _ o K G R) as (o1 & E1 & T). exists o1. split; [|exact T].
    rewrite run_app, E. cbn [LifeCycle.run LifeCycle.perform]. rewrite E1. reflexivity.
  Qed.

  (** after the first initialisation no call meets uninitialised data *)
  Definition alive (o : object) : Prop := members _ _ _ o <> None /\ tensors _ _ _ o <> None /\ couplings _ _ _ o <> None.
  Lemma init_alive p (o : object) : exists o', perform o (Init _ _ _ _ p) = Some o' /\ alive o'.
  Proof.
    destruct (init_spec p o) as (o1 & E1 & G & _). exists o1. cbn [LifeCycle.perform]. rewrite E1. split; [reflexivity|].
    destruct G as (G1 & G2 & G3 & _). unfold alive. rewrite G1, G2, G3. repeat split; discriminate.
  Qed.
  Lemma perform_alive (o : object) k : alive o -> reads_defined k -> exists o', perform o k = Some o' /\ alive o'.
  Proof.
    intros A N. destruct k as [p|l|s| |p c].
    - apply init_alive.
    - cbn in N. destruct (read l) as [p|e| |] eqn:El; try destruct N.
      + destruct (init_line_spec l p o El) as (o1 & E1 & G & _). exists o1. cbn [LifeCycle.perform]. rewrite E1. split; [reflexivity|].
        destruct G as (G1 & G2 & G3 & _). unfold alive. rewrite G1, G2, G3. repeat split; discriminate.
      + destruct o. eexists. cbn [LifeCycle.perform]. unfold LifeCycle.initModel_line, ReadAndSet, seq at 1, resetbools. unfold seq at 1. rewrite El.
        split; [vm_compute; reflexivity|]. exact A.
    - destruct o as [m sc t ct d co cd db tr td ps pc]. destruct A as (A1 & A2 & A3). cbn in A1, A2, A3. destruct m, t, co; try congruence.
      destruct d, cd; (eexists; split; [vm_compute; reflexivity|]); repeat split; discriminate.
    - destruct o as [m sc t ct d co cd db tr td ps pc]. destruct A as (A1 & A2 & A3). cbn in A1, A2, A3. destruct m, t, co; try congruence.
      destruct d, cd, td, caches_triple; (eexists; split; [vm_compute; reflexivity|]); repeat split; discriminate.
    - destruct o as [m sc t ct d co cd db tr td ps pc]. destruct A as (A1 & A2 & A3). cbn in A1, A2, A3. destruct m, t, co; try congruence.
      destruct d, gen_sets_curvature; (eexists; split; [vm_compute; reflexivity|]); repeat split; discriminate.
  Qed.
  Lemma run_alive ks : forall o, alive o -> Forall reads_defined ks -> exists o', run ks o = Some o' /\ alive o'.
  Proof.
    induction ks as [|k ks IH]; intros o A F; [exists o; now split|]. inversion F; subst. destruct (perform_alive o k A H1) as (o1 & E1 & A1).
    destruct (IH o1 A1 H2) as (o2 & E2 & A2). exists o2. cbn. now rewrite E1.
  Qed.
  Lemma never_uninitialised p ks : Forall reads_defined ks -> run (Init _ _ _ _ p :: ks) fresh <> None.
  Proof.
    intro F. destruct (init_alive p fresh) as (o1 & E1 & A1). destruct (run_alive ks o1 A1 F) as (o2 & E2 & _). cbn [LifeCycle.run]. rewrite E1, E2. discriminate.
  Qed.

  (** set_All *)
  Lemma set_All_unset p c (o : object) : SetCurvatureDone _ _ _ o = false -> exists o', set_All p c o = (o', Ok tt) /\
    members _ _ _ o' = Some p /\ tensors _ _ _ o' = Some p /\ debye _ _ _ o' = Some (p, p) /\ ct_tensors _ _ _ o' = Some c /\ scale _ _ _ o' = own_scale p.
  Proof. destruct o. cbn. intros ->. destruct gen_sets_curvature; finish_it. Qed.
  Lemma set_All_stale p q c : exists o, run [Init _ _ _ _ p; SetAll _ _ _ _ q c] fresh = Some o /\
    members _ _ _ o = Some q /\ tensors _ _ _ o = Some p /\ parStored _ _ _ o = Some p /\ debye _ _ _ o = Some (q, p).
  Proof. destruct gen_sets_curvature; finish_it. Qed.
  Lemma set_All_no_rescale p c s : exists o o', set_All p c fresh = (o, Ok tt) /\ parStored _ _ _ o = None /\
    resetScale s o = (o', Throw RuntimeError) /\ scale _ _ _ o' = s /\ ct_tensors _ _ _ o' = Some c.
  Proof. destruct gen_sets_curvature; finish_it2. Qed.
End Life.
