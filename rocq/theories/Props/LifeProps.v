(** C101: a model object is consistent after every history of calls without set_All. *)
From Coq Require Import List Bool ZArith.
From Verif.Model Require Import Base LifeCycle.
From Verif.Spec Require Import LifeSpec.
From Verif.Proofs Require Import LifeProofs.
Import ListNotations.

Section C101.
  Variables P C S L : Type.
  Variable own_scale : P -> S.
  Variable first_scale : S.
  Variables gen_sets_curvature caches_triple : bool.
  Variable counterterms : S -> P -> P -> C.
  Variable read : L -> outcome P.
  Notation object := (object P C S).
  Notation initModel := (initModel P C S own_scale gen_sets_curvature counterterms).
  Notation initModel_line := (initModel_line P C S L own_scale gen_sets_curvature counterterms read).
  Notation resetScale := (resetScale P C S counterterms).
  Notation set_All := (set_All P C S own_scale gen_sets_curvature).
  Notation TripleHiggsCouplings := (TripleHiggsCouplings P C S caches_triple).
  Notation fresh := (fresh P C S first_scale).
  Notation run := (run P C S L own_scale gen_sets_curvature caches_triple counterterms read).
  Notation Init := (Init P C S L).
  Notation InitLine := (InitLine P C S L).
  Notation Rescale := (Rescale P C S L).
  Notation Triple := (Triple P C S L).
  Notation SetAll := (SetAll P C S L).
  Notation all_parts o := (consistent (members _ _ _ o) (tensors _ _ _ o) (couplings _ _ _ o) (parStored _ _ _ o) (debye _ _ _ o) (ct_tensors _ _ _ o) (parCTStored _ _ _ o)).

  Theorem C101_initModel : forall p (o : object), exists o', initModel p o = (o', Ok (counterterms (own_scale p) p p)) /\
    all_parts o' p (counterterms (own_scale p) p p) /\ scale _ _ _ o' = own_scale p.
  Proof. intros p o. destruct (init_spec P C S own_scale gen_sets_curvature counterterms p o) as (o' & E & G & _ & H & _). exists o'. exact (conj E (conj G H)). Qed.

  Theorem C101_initModel_line : forall l p (o : object), read l = Ok p -> exists o', initModel_line l o = (o', Ok (p, counterterms (own_scale p) p p)) /\
    all_parts o' p (counterterms (own_scale p) p p) /\ scale _ _ _ o' = own_scale p.
  Proof. intros l p o R. destruct (init_line_spec P C S L own_scale gen_sets_curvature counterterms read l p o R) as (o' & E & G & _ & H & _). exists o'. exact (conj E (conj G H)). Qed.

  Theorem C101_unreadable_line : forall l e (o : object), read l = Throw e -> exists o', initModel_line l o = (o', Throw e) /\
    parStored _ _ _ o' = None /\ parCTStored _ _ _ o' = None /\ forall s, snd (resetScale s o') = Throw RuntimeError.
  Proof. exact (init_line_throws P C S L own_scale gen_sets_curvature counterterms read). Qed.

  Theorem C101_history_partial : forall ks o p, Forall (fun k => forall q c, k <> SetAll q c) ks -> run ks fresh = Some o -> parStored _ _ _ o = Some p ->
    all_parts o p (counterterms (scale _ _ _ o) p p).
  Proof.
    intros ks o p F E H. refine (proj1 (history P C S L own_scale first_scale gen_sets_curvature caches_triple counterterms read ks o p _ E H)).
    refine (Forall_impl _ _ F). intros [| | | |q c] N; cbn; try exact I. exact (N q c eq_refl).
  Qed.

  Theorem C101_rescale : forall ks s o o' p, Forall (fun k => forall q c, k <> SetAll q c) ks -> run ks fresh = Some o -> parStored _ _ _ o = Some p ->
    run (ks ++ [Rescale s]) fresh = Some o' -> all_parts o' p (counterterms s p p) /\ scale _ _ _ o' = s.
  Proof. exact (rescale_history P C S L own_scale first_scale gen_sets_curvature caches_triple counterterms read). Qed.

  Theorem C101_never_uninitialised : forall p ks, Forall (fun k => forall l, k = InitLine l -> exists r, read l = r /\ r <> UB /\ r <> OutOfFuel) ks ->
    run (Init p :: ks) fresh <> None.
  Proof.
    intros p ks F. apply (never_uninitialised P C S L own_scale first_scale gen_sets_curvature caches_triple counterterms read p ks).
    refine (Forall_impl _ _ F). intros [|l| | |] N; cbn; try exact I. destruct (N l eq_refl) as (r & -> & N1 & N2). destruct r; try exact I; congruence.
  Qed.

  Theorem C101_set_All_partial : forall p c (o : object), SetCurvatureDone _ _ _ o = false -> exists o', set_All p c o = (o', Ok tt) /\
    members _ _ _ o' = Some p /\ tensors _ _ _ o' = Some p /\ debye _ _ _ o' = Some (p, p) /\ ct_tensors _ _ _ o' = Some c /\ scale _ _ _ o' = own_scale p.
  Proof. exact (set_All_unset P C S own_scale gen_sets_curvature). Qed.

  Theorem C101_set_All_no_rescale : forall p c s, exists o o', set_All p c fresh = (o, Ok tt) /\ parStored _ _ _ o = None /\
    resetScale s o = (o', Throw RuntimeError) /\ scale _ _ _ o' = s /\ ct_tensors _ _ _ o' = Some c.
  Proof. exact (set_All_no_rescale P C S own_scale first_scale gen_sets_curvature counterterms). Qed.

  Theorem C101_triple_partial : forall ks o p, caches_triple = false -> Forall (fun k => forall q c, k <> SetAll q c) ks ->
    run ks fresh = Some o -> parStored _ _ _ o = Some p -> exists o', run (ks ++ [Triple]) fresh = Some o' /\
      triple _ _ _ o' = Some (scale _ _ _ o, p, Some (counterterms (scale _ _ _ o) p p)).
  Proof. exact (triple_history P C S L own_scale first_scale gen_sets_curvature caches_triple counterterms read). Qed.
End C101.

Theorem C101_set_All_refuted : exists (p q : nat) (c : nat) o,
  run nat nat nat nat (fun p => p) false false (fun s p q => s + p + q) (fun l => Ok l) [Init _ _ _ _ p; SetAll _ _ _ _ q c] (fresh nat nat nat 0) = Some o /\
  members _ _ _ o = Some q /\ tensors _ _ _ o = Some p /\ parStored _ _ _ o = Some p /\ p <> q.
Proof.
  destruct (set_All_stale nat nat nat nat (fun p => p) 0 false false (fun s p q => s + p + q) (fun l => Ok l) 1 2 0) as (o & H1 & H2 & H3 & H4 & _).
  exists 1, 2, 0, o. repeat split; try assumption. discriminate.
Qed.

Theorem C101_triple_refuted : exists (p s : nat) o,
  run nat nat nat nat (fun p => p) true true (fun s p q => s + p + q) (fun l => Ok l) [Init _ _ _ _ p; Triple _ _ _ _; Rescale _ _ _ _ s; Triple _ _ _ _] (fresh nat nat nat 0) = Some o /\
  scale _ _ _ o = s /\ ct_tensors _ _ _ o = Some (s + p + p) /\ triple _ _ _ o = Some (p, p, Some (p + p + p)) /\ s <> p.
Proof.
  destruct (triple_stale nat nat nat nat (fun p => p) 0 true true (fun s p q => s + p + q) (fun l => Ok l) 1 5 eq_refl) as (o & H1 & H2 & H3 & H4).
  exists 1, 5, o. repeat split; try assumption; [apply H2|discriminate].
Qed.

(** a history with a failed line, two points and a changed scale *)
Example C101_nonvacuous : exists o,
  run nat nat nat nat (fun p => p * 10) true true (fun s p q => s + p + q) (fun l => if Nat.eqb l 0 then Throw OutOfRange else Ok l)
    [Init _ _ _ _ 1; InitLine _ _ _ _ 0; InitLine _ _ _ _ 2; Triple _ _ _ _; Rescale _ _ _ _ 7] (fresh nat nat nat 0) = Some o /\
  parStored _ _ _ o = Some 2 /\ parCTStored _ _ _ o = Some 11 /\ tensors _ _ _ o = Some 2 /\ debye _ _ _ o = Some (2, 2).
Proof. eexists. split; [vm_compute; reflexivity|]. repeat split. Qed.
Example C101_nonvacuous_uninitialised :
  run nat nat nat nat (fun p => p) false false (fun s p q => s + p + q) (fun l => Ok l) [Triple _ _ _ _] (fresh nat nat nat 0) = None.
Proof. vm_compute. reflexivity. Qed.

Print Assumptions C101_initModel.
Print Assumptions C101_initModel_line.
Print Assumptions C101_unreadable_line.
Print Assumptions C101_history_partial.
Print Assumptions C101_rescale.
Print Assumptions C101_never_uninitialised.
Print Assumptions C101_set_All_partial.
Print Assumptions C101_set_All_no_rescale.
Print Assumptions C101_triple_partial.
Print Assumptions C101_set_All_refuted.
Print Assumptions C101_triple_refuted.
