(** C96, C97: the coupling tensors of the models encode the textbook scalar potentials, which are gauge invariant. *)
From Coq Require Import Reals Lra Lia ZArith List Permutation.
From Coquelicot Require Import Complex.
From Verif.Model Require Import Base Potential Tables.
From Verif.Model Require PotSM PotCxSM PotR2HDM PotC2HDM PotN2HDM PotCPintheDark.
From Verif.Spec Require Import NumDerivSpec PotentialSpec ScalarSpec.
From Verif.Proofs Require Import TabTac ScalarProofs ModelDeriv.
From Verif.Proofs Require PotSMProofs PotCxSMProofs PotR2HDMProofs PotC2HDMProofs PotN2HDMProofs PotCPintheDarkProofs.
Import ListNotations.
Local Open Scope R_scope.

(** ** C96 *)
Theorem C96_SM_tree :
  forall p v, length v = PotSM.N -> tree PotSM.N (PotSM.SetCurvatureArrays p) v 0 =
  Ok (V_doublet (PotSM.p_muSq p) (PotSM.p_lambda p) (sm_doublet v)).
Proof. exact PotSMProofs.tree_value. Qed.
Print Assumptions C96_SM_tree.

Theorem C96_SM_counterterms :
  forall par c v, length v = PotSM.N -> PotSM.set_CT_Pot_Par par = Ok c -> counterterm PotSM.N c v 0 =
  Ok (V_doublet (nth 0 par 0) (nth 1 par 0) (sm_doublet v)
      + tadpoles [(0%nat, nth 2 par 0); (1%nat, nth 3 par 0); (2%nat, nth 4 par 0); (3%nat, nth 5 par 0)] v).
Proof. exact PotSMProofs.ct_value. Qed.
Print Assumptions C96_SM_counterterms.

Theorem C96_CxSM_tree :
  forall p v, length v = PotCxSM.N -> tree PotCxSM.N (PotCxSM.SetCurvatureArrays p) v 0 =
  Ok (V_complex_singlet (PotCxSM.p_msq p) (PotCxSM.p_lambda p) (PotCxSM.p_delta2 p) (PotCxSM.p_b2 p) (PotCxSM.p_d2 p) ((PotCxSM.p_Reb1 p), (PotCxSM.p_Imb1 p)) ((PotCxSM.p_Rea1 p), (PotCxSM.p_Ima1 p))
      (cxsm_doublet v) (cxsm_singlet v)).
Proof. exact PotCxSMProofs.tree_value. Qed.
Print Assumptions C96_CxSM_tree.

Theorem C96_CxSM_counterterms :
  forall par c v, length v = PotCxSM.N -> PotCxSM.set_CT_Pot_Par par = Ok c -> counterterm PotCxSM.N c v 0 =
  Ok (V_complex_singlet (nth 0 par 0) (nth 1 par 0) (nth 2 par 0) (nth 3 par 0) (nth 4 par 0) ((nth 5 par 0), (nth 6 par 0)) ((nth 7 par 0), (nth 8 par 0))
      (cxsm_doublet v) (cxsm_singlet v)
      + tadpoles [(0%nat, nth 9 par 0); (1%nat, nth 10 par 0); (2%nat, nth 11 par 0); (3%nat, nth 12 par 0); (4%nat, nth 13 par 0); (5%nat, nth 14 par 0)] v).
Proof. exact PotCxSMProofs.ct_value. Qed.
Print Assumptions C96_CxSM_counterterms.

Theorem C96_R2HDM_tree :
  forall p v, length v = PotR2HDM.N -> tree PotR2HDM.N (PotR2HDM.SetCurvatureArrays p) v 0 =
  Ok (V_two_doublets (PotR2HDM.p_u1 p) (PotR2HDM.p_u2 p) ((PotR2HDM.p_RealMMix p), 0) (PotR2HDM.p_L1 p) (PotR2HDM.p_L2 p) (PotR2HDM.p_L3 p) (PotR2HDM.p_L4 p) ((PotR2HDM.p_RL5 p), 0) (0, 0)
      (first_doublet v) (second_doublet v)).
Proof. exact PotR2HDMProofs.tree_value. Qed.
Print Assumptions C96_R2HDM_tree.

Theorem C96_R2HDM_counterterms :
  forall par c v, length v = PotR2HDM.N -> PotR2HDM.set_CT_Pot_Par par = Ok c -> counterterm PotR2HDM.N c v 0 =
  Ok (V_two_doublets (nth 0 par 0) (nth 1 par 0) ((nth 2 par 0), 0) (nth 3 par 0) (nth 4 par 0) (nth 5 par 0) (nth 6 par 0) ((nth 7 par 0), 0) (0, 0)
      (first_doublet v) (second_doublet v)
      + tadpoles [(4%nat, nth 8 par 0); (6%nat, nth 9 par 0); (7%nat, nth 10 par 0)] v).
Proof. exact PotR2HDMProofs.ct_value. Qed.
Print Assumptions C96_R2HDM_counterterms.

Theorem C96_C2HDM_tree :
  forall p v, length v = PotC2HDM.N -> tree PotC2HDM.N (PotC2HDM.SetCurvatureArrays p) v 0 =
  Ok (V_two_doublets (PotC2HDM.p_u1 p) (PotC2HDM.p_u2 p) ((PotC2HDM.p_RealMMix p), (PotC2HDM.p_Iu3 p)) (PotC2HDM.p_L1 p) (PotC2HDM.p_L2 p) (PotC2HDM.p_L3 p) (PotC2HDM.p_L4 p) ((PotC2HDM.p_RL5 p), (PotC2HDM.p_IL5 p)) (0, 0)
      (first_doublet v) (second_doublet v)).
Proof. exact PotC2HDMProofs.tree_value. Qed.
Print Assumptions C96_C2HDM_tree.

Theorem C96_C2HDM_counterterms :
  forall par c v, length v = PotC2HDM.N -> PotC2HDM.set_CT_Pot_Par par = Ok c -> counterterm PotC2HDM.N c v 0 =
  Ok (V_two_doublets (nth 0 par 0) (nth 1 par 0) ((nth 3 par 0), (nth 2 par 0)) (nth 4 par 0) (nth 5 par 0) (nth 6 par 0) (nth 7 par 0) ((nth 8 par 0), (nth 9 par 0)) (0, (nth 14 par 0))
      (first_doublet v) (second_doublet v)
      + tadpoles [(2%nat, nth 10 par 0); (4%nat, nth 11 par 0); (6%nat, nth 12 par 0); (7%nat, nth 13 par 0)] v).
Proof. exact PotC2HDMProofs.ct_value. Qed.
Print Assumptions C96_C2HDM_counterterms.

Theorem C96_N2HDM_tree :
  forall p v, length v = PotN2HDM.N -> tree PotN2HDM.N (PotN2HDM.SetCurvatureArrays p) v 0 =
  Ok (V_two_doublets (PotN2HDM.p_u1 p) (PotN2HDM.p_u2 p) ((PotN2HDM.p_RealMMix p), 0) (PotN2HDM.p_L1 p) (PotN2HDM.p_L2 p) (PotN2HDM.p_L3 p) (PotN2HDM.p_L4 p) ((PotN2HDM.p_RL5 p), 0) (0, 0)
      (n2hdm_first v) (n2hdm_second v)
      + V_singlet (PotN2HDM.p_Nus p) (PotN2HDM.p_NL6 p) (PotN2HDM.p_NL7 p) (PotN2HDM.p_NL8 p) (0, 0) (n2hdm_first v) (n2hdm_second v) (nth 8 v 0)).
Proof. exact PotN2HDMProofs.tree_value. Qed.
Print Assumptions C96_N2HDM_tree.

Theorem C96_N2HDM_counterterms :
  forall par c v, length v = PotN2HDM.N -> PotN2HDM.set_CT_Pot_Par par = Ok c -> counterterm PotN2HDM.N c v 0 =
  Ok (V_two_doublets (nth 0 par 0) (nth 1 par 0) ((nth 2 par 0), 0) (nth 3 par 0) (nth 4 par 0) (nth 5 par 0) (nth 6 par 0) ((nth 7 par 0), 0) (0, 0)
      (n2hdm_first v) (n2hdm_second v)
      + V_singlet (nth 8 par 0) (nth 9 par 0) (nth 10 par 0) (nth 11 par 0) (0, 0) (n2hdm_first v) (n2hdm_second v) (nth 8 v 0)
      + tadpoles [(6%nat, nth 12 par 0); (7%nat, nth 13 par 0); (8%nat, nth 14 par 0)] v).
Proof. exact PotN2HDMProofs.ct_value. Qed.
Print Assumptions C96_N2HDM_counterterms.

Theorem C96_CPintheDark_tree :
  forall p v, length v = PotCPintheDark.N -> tree PotCPintheDark.N (PotCPintheDark.SetCurvatureArrays p) v 0 =
  Ok (V_two_doublets (PotCPintheDark.p_m11s p) (PotCPintheDark.p_m22s p) (0, 0) (PotCPintheDark.p_L1 p) (PotCPintheDark.p_L2 p) (PotCPintheDark.p_L3 p) (PotCPintheDark.p_L4 p) ((PotCPintheDark.p_L5 p), 0) (0, 0)
      (first_doublet v) (second_doublet v)
      + V_singlet (PotCPintheDark.p_mSs p) (2 * (PotCPintheDark.p_L6 p)) (PotCPintheDark.p_L7 p) (PotCPintheDark.p_L8 p) ((PotCPintheDark.p_ReA p), (PotCPintheDark.p_ImA p)) (first_doublet v) (second_doublet v) (nth 8 v 0)).
Proof. exact PotCPintheDarkProofs.tree_value. Qed.
Print Assumptions C96_CPintheDark_tree.

Theorem C96_CPintheDark_counterterms :
  forall par c v, length v = PotCPintheDark.N -> PotCPintheDark.set_CT_Pot_Par par = Ok c -> counterterm PotCPintheDark.N c v 0 =
  Ok (V_two_doublets (nth 0 par 0) (nth 1 par 0) (0, 0) (nth 5 par 0) (nth 6 par 0) (nth 7 par 0) (nth 8 par 0) ((nth 9 par 0), (nth 18 par 0)) (0, 0)
      (first_doublet v) (second_doublet v)
      + V_singlet (nth 2 par 0) (2 * (nth 10 par 0)) (nth 11 par 0) (nth 12 par 0) ((nth 3 par 0), (nth 4 par 0)) (first_doublet v) (second_doublet v) (nth 8 v 0)
      + tadpoles [(2%nat, nth 13 par 0); (4%nat, nth 14 par 0); (6%nat, nth 15 par 0); (7%nat, nth 16 par 0); (8%nat, nth 17 par 0)] v).
Proof. exact PotCPintheDarkProofs.ct_value. Qed.
Print Assumptions C96_CPintheDark_counterterms.

(** the entries of all tensors are unchanged by permutations of their indices *)
Theorem C96_symmetric_tensors :
  (forall p, symmetric_tensor PotSM.N 2 (tL2 (PotSM.SetCurvatureArrays p)) /\ symmetric_tensor PotSM.N 3 (tL3 (PotSM.SetCurvatureArrays p)) /\
     symmetric_tensor PotSM.N 4 (tL4 (PotSM.SetCurvatureArrays p))) /\
  (forall par c, PotSM.set_CT_Pot_Par par = Ok c ->
     symmetric_tensor PotSM.N 2 (tL2 c) /\ symmetric_tensor PotSM.N 3 (tL3 c) /\ symmetric_tensor PotSM.N 4 (tL4 c)) /\
  (forall p, symmetric_tensor PotCxSM.N 2 (tL2 (PotCxSM.SetCurvatureArrays p)) /\ symmetric_tensor PotCxSM.N 3 (tL3 (PotCxSM.SetCurvatureArrays p)) /\
     symmetric_tensor PotCxSM.N 4 (tL4 (PotCxSM.SetCurvatureArrays p))) /\
  (forall par c, PotCxSM.set_CT_Pot_Par par = Ok c ->
     symmetric_tensor PotCxSM.N 2 (tL2 c) /\ symmetric_tensor PotCxSM.N 3 (tL3 c) /\ symmetric_tensor PotCxSM.N 4 (tL4 c)) /\
  (forall p, symmetric_tensor PotR2HDM.N 2 (tL2 (PotR2HDM.SetCurvatureArrays p)) /\ symmetric_tensor PotR2HDM.N 3 (tL3 (PotR2HDM.SetCurvatureArrays p)) /\
     symmetric_tensor PotR2HDM.N 4 (tL4 (PotR2HDM.SetCurvatureArrays p))) /\
  (forall par c, PotR2HDM.set_CT_Pot_Par par = Ok c ->
     symmetric_tensor PotR2HDM.N 2 (tL2 c) /\ symmetric_tensor PotR2HDM.N 3 (tL3 c) /\ symmetric_tensor PotR2HDM.N 4 (tL4 c)) /\
  (forall p, symmetric_tensor PotC2HDM.N 2 (tL2 (PotC2HDM.SetCurvatureArrays p)) /\ symmetric_tensor PotC2HDM.N 3 (tL3 (PotC2HDM.SetCurvatureArrays p)) /\
     symmetric_tensor PotC2HDM.N 4 (tL4 (PotC2HDM.SetCurvatureArrays p))) /\
  (forall par c, PotC2HDM.set_CT_Pot_Par par = Ok c ->
     symmetric_tensor PotC2HDM.N 2 (tL2 c) /\ symmetric_tensor PotC2HDM.N 3 (tL3 c) /\ symmetric_tensor PotC2HDM.N 4 (tL4 c)) /\
  (forall p, symmetric_tensor PotN2HDM.N 2 (tL2 (PotN2HDM.SetCurvatureArrays p)) /\ symmetric_tensor PotN2HDM.N 3 (tL3 (PotN2HDM.SetCurvatureArrays p)) /\
     symmetric_tensor PotN2HDM.N 4 (tL4 (PotN2HDM.SetCurvatureArrays p))) /\
  (forall par c, PotN2HDM.set_CT_Pot_Par par = Ok c ->
     symmetric_tensor PotN2HDM.N 2 (tL2 c) /\ symmetric_tensor PotN2HDM.N 3 (tL3 c) /\ symmetric_tensor PotN2HDM.N 4 (tL4 c)) /\
  (forall p, symmetric_tensor PotCPintheDark.N 2 (tL2 (PotCPintheDark.SetCurvatureArrays p)) /\ symmetric_tensor PotCPintheDark.N 3 (tL3 (PotCPintheDark.SetCurvatureArrays p)) /\
     symmetric_tensor PotCPintheDark.N 4 (tL4 (PotCPintheDark.SetCurvatureArrays p))) /\
  (forall par c, PotCPintheDark.set_CT_Pot_Par par = Ok c ->
     symmetric_tensor PotCPintheDark.N 2 (tL2 c) /\ symmetric_tensor PotCPintheDark.N 3 (tL3 c) /\ symmetric_tensor PotCPintheDark.N 4 (tL4 c)).
Proof.
  split; [intro p; destruct (PotSMProofs.tree_ok p); auto|].
  split; [intros par c E; apply (bind_Ok _ PotSMProofs.ct_tensors) in E as (cc & E & ->); destruct (PotSMProofs.ct_ok cc); auto|].
  split; [intro p; destruct (PotCxSMProofs.tree_ok p); auto|].
  split; [intros par c E; apply (bind_Ok _ PotCxSMProofs.ct_tensors) in E as (cc & E & ->); destruct (PotCxSMProofs.ct_ok cc); auto|].
  split; [intro p; destruct (PotR2HDMProofs.tree_ok p); auto|].
  split; [intros par c E; apply (bind_Ok _ PotR2HDMProofs.ct_tensors) in E as (cc & E & ->); destruct (PotR2HDMProofs.ct_ok cc); auto|].
  split; [intro p; destruct (PotC2HDMProofs.tree_ok p); auto|].
  split; [intros par c E; apply (bind_Ok _ PotC2HDMProofs.ct_tensors) in E as (cc & E & ->); destruct (PotC2HDMProofs.ct_ok cc); auto|].
  split; [intro p; destruct (PotN2HDMProofs.tree_ok p); auto|].
  split; [intros par c E; apply (bind_Ok _ PotN2HDMProofs.ct_tensors) in E as (cc & E & ->); destruct (PotN2HDMProofs.ct_ok cc); auto|].
  split; [intro p; destruct (PotCPintheDarkProofs.tree_ok p); auto|].
  intros par c E; apply (bind_Ok _ PotCPintheDarkProofs.ct_tensors) in E as (cc & E & ->); destruct (PotCPintheDarkProofs.ct_ok cc); auto.
Qed.
Print Assumptions C96_symmetric_tensors.

(** VTree and CounterTerm called with diff = i + 1 return the derivatives of these potentials, HiggsMassMatrix and
    HessianCT their second derivatives *)
Theorem C96_derivatives :
  (forall p, let t := PotSM.SetCurvatureArrays p in
     first_derivatives Ok PotSM.N (tree PotSM.N t) /\ second_derivatives Ok Ok PotSM.N (tree PotSM.N t) (mass_matrix PotSM.N t)) /\
  (forall par c, PotSM.set_CT_Pot_Par par = Ok c ->
     first_derivatives Ok PotSM.N (counterterm PotSM.N c) /\ second_derivatives Ok Ok PotSM.N (counterterm PotSM.N c) (hessian_ct PotSM.N c)) /\
  (forall p, let t := PotCxSM.SetCurvatureArrays p in
     first_derivatives Ok PotCxSM.N (tree PotCxSM.N t) /\ second_derivatives Ok Ok PotCxSM.N (tree PotCxSM.N t) (mass_matrix PotCxSM.N t)) /\
  (forall par c, PotCxSM.set_CT_Pot_Par par = Ok c ->
     first_derivatives Ok PotCxSM.N (counterterm PotCxSM.N c) /\ second_derivatives Ok Ok PotCxSM.N (counterterm PotCxSM.N c) (hessian_ct PotCxSM.N c)) /\
  (forall p, let t := PotR2HDM.SetCurvatureArrays p in
     first_derivatives Ok PotR2HDM.N (tree PotR2HDM.N t) /\ second_derivatives Ok Ok PotR2HDM.N (tree PotR2HDM.N t) (mass_matrix PotR2HDM.N t)) /\
  (forall par c, PotR2HDM.set_CT_Pot_Par par = Ok c ->
     first_derivatives Ok PotR2HDM.N (counterterm PotR2HDM.N c) /\ second_derivatives Ok Ok PotR2HDM.N (counterterm PotR2HDM.N c) (hessian_ct PotR2HDM.N c)) /\
  (forall p, let t := PotC2HDM.SetCurvatureArrays p in
     first_derivatives Ok PotC2HDM.N (tree PotC2HDM.N t) /\ second_derivatives Ok Ok PotC2HDM.N (tree PotC2HDM.N t) (mass_matrix PotC2HDM.N t)) /\
  (forall par c, PotC2HDM.set_CT_Pot_Par par = Ok c ->
     first_derivatives Ok PotC2HDM.N (counterterm PotC2HDM.N c) /\ second_derivatives Ok Ok PotC2HDM.N (counterterm PotC2HDM.N c) (hessian_ct PotC2HDM.N c)) /\
  (forall p, let t := PotN2HDM.SetCurvatureArrays p in
     first_derivatives Ok PotN2HDM.N (tree PotN2HDM.N t) /\ second_derivatives Ok Ok PotN2HDM.N (tree PotN2HDM.N t) (mass_matrix PotN2HDM.N t)) /\
  (forall par c, PotN2HDM.set_CT_Pot_Par par = Ok c ->
     first_derivatives Ok PotN2HDM.N (counterterm PotN2HDM.N c) /\ second_derivatives Ok Ok PotN2HDM.N (counterterm PotN2HDM.N c) (hessian_ct PotN2HDM.N c)) /\
  (forall p, let t := PotCPintheDark.SetCurvatureArrays p in
     first_derivatives Ok PotCPintheDark.N (tree PotCPintheDark.N t) /\ second_derivatives Ok Ok PotCPintheDark.N (tree PotCPintheDark.N t) (mass_matrix PotCPintheDark.N t)) /\
  (forall par c, PotCPintheDark.set_CT_Pot_Par par = Ok c ->
     first_derivatives Ok PotCPintheDark.N (counterterm PotCPintheDark.N c) /\ second_derivatives Ok Ok PotCPintheDark.N (counterterm PotCPintheDark.N c) (hessian_ct PotCPintheDark.N c)).
Proof.
  split; [intros p t; split; [exact (tree_derivatives _ _ _ _ _ _ (PotSMProofs.tree_ok p))|exact (tree_second _ _ _ _ _ _ (PotSMProofs.tree_ok p))]|].
  split; [intros par c E; apply (bind_Ok _ PotSMProofs.ct_tensors) in E as (cc & _ & ->);
    split; [exact (ct_derivatives _ _ _ _ _ _ (PotSMProofs.ct_ok cc))|exact (ct_second _ _ _ _ _ _ (PotSMProofs.ct_ok cc))]|].
  split; [intros p t; split; [exact (tree_derivatives _ _ _ _ _ _ (PotCxSMProofs.tree_ok p))|exact (tree_second _ _ _ _ _ _ (PotCxSMProofs.tree_ok p))]|].
  split; [intros par c E; apply (bind_Ok _ PotCxSMProofs.ct_tensors) in E as (cc & _ & ->);
    split; [exact (ct_derivatives _ _ _ _ _ _ (PotCxSMProofs.ct_ok cc))|exact (ct_second _ _ _ _ _ _ (PotCxSMProofs.ct_ok cc))]|].
  split; [intros p t; split; [exact (tree_derivatives _ _ _ _ _ _ (PotR2HDMProofs.tree_ok p))|exact (tree_second _ _ _ _ _ _ (PotR2HDMProofs.tree_ok p))]|].
  split; [intros par c E; apply (bind_Ok _ PotR2HDMProofs.ct_tensors) in E as (cc & _ & ->);
    split; [exact (ct_derivatives _ _ _ _ _ _ (PotR2HDMProofs.ct_ok cc))|exact (ct_second _ _ _ _ _ _ (PotR2HDMProofs.ct_ok cc))]|].
  split; [intros p t; split; [exact (tree_derivatives _ _ _ _ _ _ (PotC2HDMProofs.tree_ok p))|exact (tree_second _ _ _ _ _ _ (PotC2HDMProofs.tree_ok p))]|].
  split; [intros par c E; apply (bind_Ok _ PotC2HDMProofs.ct_tensors) in E as (cc & _ & ->);
    split; [exact (ct_derivatives _ _ _ _ _ _ (PotC2HDMProofs.ct_ok cc))|exact (ct_second _ _ _ _ _ _ (PotC2HDMProofs.ct_ok cc))]|].
  split; [intros p t; split; [exact (tree_derivatives _ _ _ _ _ _ (PotN2HDMProofs.tree_ok p))|exact (tree_second _ _ _ _ _ _ (PotN2HDMProofs.tree_ok p))]|].
  split; [intros par c E; apply (bind_Ok _ PotN2HDMProofs.ct_tensors) in E as (cc & _ & ->);
    split; [exact (ct_derivatives _ _ _ _ _ _ (PotN2HDMProofs.ct_ok cc))|exact (ct_second _ _ _ _ _ _ (PotN2HDMProofs.ct_ok cc))]|].
  split; [intros p t; split; [exact (tree_derivatives _ _ _ _ _ _ (PotCPintheDarkProofs.tree_ok p))|exact (tree_second _ _ _ _ _ _ (PotCPintheDarkProofs.tree_ok p))]|].
  intros par c E; apply (bind_Ok _ PotCPintheDarkProofs.ct_tensors) in E as (cc & _ & ->);
    split; [exact (ct_derivatives _ _ _ _ _ _ (PotCPintheDarkProofs.ct_ok cc))|exact (ct_second _ _ _ _ _ _ (PotCPintheDarkProofs.ct_ok cc))].
Qed.
Print Assumptions C96_derivatives.

Example C96_nonvacuous :
  tree PotR2HDM.N (PotR2HDM.SetCurvatureArrays (PotR2HDM.mkP 1 2 3 4 5 6 7 8)) [0; 0; 0; 0; 1; 0; 2; 0] 0 = Ok 30 /\
  (exists c, PotR2HDM.set_CT_Pot_Par [1; 2; 3; 4; 5; 6; 7; 8; 9; 10; 11] = Ok c) /\
  PotR2HDM.set_CT_Pot_Par [1; 2; 3] = UB.
Proof.
  split; [|split; [eexists; reflexivity|reflexivity]].
  rewrite PotR2HDMProofs.tree_value by reflexivity. f_equal.
  unfold first_doublet, second_doublet, V_two_doublets. rewrite !inner_ok, ?Re_mult3, ?Re_mult2, !norm2_ok, !abs2_pair. tabcbv. field.
Qed.

(** ** C97 *)
Theorem C97_SM :
  forall U v w, unitary U -> length v = PotSM.N -> length w = PotSM.N ->
    sm_doublet w = apply22 U (sm_doublet v) ->
    (forall p, tree PotSM.N (PotSM.SetCurvatureArrays p) w 0 = tree PotSM.N (PotSM.SetCurvatureArrays p) v 0) /\
    (forall par c, PotSM.set_CT_Pot_Par par = Ok c -> exists x,
       let t := [(0%nat, nth 2 par 0); (1%nat, nth 3 par 0); (2%nat, nth 4 par 0); (3%nat, nth 5 par 0)] in
       counterterm PotSM.N c w 0 = Ok (x + tadpoles t w) /\ counterterm PotSM.N c v 0 = Ok (x + tadpoles t v)).
Proof.
  intros U v w HU Lv Lw E0. split.
  - intro p. rewrite !PotSMProofs.tree_value, E0 by assumption. rewrite V_doublet_inv by exact HU. reflexivity.
  - intros par c E. eexists. cbv zeta. rewrite !(PotSMProofs.ct_value par c) by assumption. rewrite E0. rewrite V_doublet_inv by exact HU.
    split; reflexivity.
Qed.
Print Assumptions C97_SM.

Theorem C97_CxSM :
  forall U v w, unitary U -> length v = PotCxSM.N -> length w = PotCxSM.N ->
    cxsm_doublet w = apply22 U (cxsm_doublet v) -> cxsm_singlet w = cxsm_singlet v ->
    (forall p, tree PotCxSM.N (PotCxSM.SetCurvatureArrays p) w 0 = tree PotCxSM.N (PotCxSM.SetCurvatureArrays p) v 0) /\
    (forall par c, PotCxSM.set_CT_Pot_Par par = Ok c -> exists x,
       let t := [(0%nat, nth 9 par 0); (1%nat, nth 10 par 0); (2%nat, nth 11 par 0); (3%nat, nth 12 par 0); (4%nat, nth 13 par 0); (5%nat, nth 14 par 0)] in
       counterterm PotCxSM.N c w 0 = Ok (x + tadpoles t w) /\ counterterm PotCxSM.N c v 0 = Ok (x + tadpoles t v)).
Proof.
  intros U v w HU Lv Lw E0 E1. split.
  - intro p. rewrite !PotCxSMProofs.tree_value, E0, E1 by assumption. rewrite V_complex_singlet_inv by exact HU. reflexivity.
  - intros par c E. eexists. cbv zeta. rewrite !(PotCxSMProofs.ct_value par c) by assumption. rewrite E0, E1. rewrite V_complex_singlet_inv by exact HU.
    split; reflexivity.
Qed.
Print Assumptions C97_CxSM.

Theorem C97_R2HDM :
  forall U v w, unitary U -> length v = PotR2HDM.N -> length w = PotR2HDM.N ->
    first_doublet w = apply22 U (first_doublet v) -> second_doublet w = apply22 U (second_doublet v) ->
    (forall p, tree PotR2HDM.N (PotR2HDM.SetCurvatureArrays p) w 0 = tree PotR2HDM.N (PotR2HDM.SetCurvatureArrays p) v 0) /\
    (forall par c, PotR2HDM.set_CT_Pot_Par par = Ok c -> exists x,
       let t := [(4%nat, nth 8 par 0); (6%nat, nth 9 par 0); (7%nat, nth 10 par 0)] in
       counterterm PotR2HDM.N c w 0 = Ok (x + tadpoles t w) /\ counterterm PotR2HDM.N c v 0 = Ok (x + tadpoles t v)).
Proof.
  intros U v w HU Lv Lw E0 E1. split.
  - intro p. rewrite !PotR2HDMProofs.tree_value, E0, E1 by assumption. rewrite V_two_doublets_inv by exact HU. reflexivity.
  - intros par c E. eexists. cbv zeta. rewrite !(PotR2HDMProofs.ct_value par c) by assumption. rewrite E0, E1. rewrite V_two_doublets_inv by exact HU.
    split; reflexivity.
Qed.
Print Assumptions C97_R2HDM.

Theorem C97_C2HDM :
  forall U v w, unitary U -> length v = PotC2HDM.N -> length w = PotC2HDM.N ->
    first_doublet w = apply22 U (first_doublet v) -> second_doublet w = apply22 U (second_doublet v) ->
    (forall p, tree PotC2HDM.N (PotC2HDM.SetCurvatureArrays p) w 0 = tree PotC2HDM.N (PotC2HDM.SetCurvatureArrays p) v 0) /\
    (forall par c, PotC2HDM.set_CT_Pot_Par par = Ok c -> exists x,
       let t := [(2%nat, nth 10 par 0); (4%nat, nth 11 par 0); (6%nat, nth 12 par 0); (7%nat, nth 13 par 0)] in
       counterterm PotC2HDM.N c w 0 = Ok (x + tadpoles t w) /\ counterterm PotC2HDM.N c v 0 = Ok (x + tadpoles t v)).
Proof.
  intros U v w HU Lv Lw E0 E1. split.
  - intro p. rewrite !PotC2HDMProofs.tree_value, E0, E1 by assumption. rewrite V_two_doublets_inv by exact HU. reflexivity.
  - intros par c E. eexists. cbv zeta. rewrite !(PotC2HDMProofs.ct_value par c) by assumption. rewrite E0, E1. rewrite V_two_doublets_inv by exact HU.
    split; reflexivity.
Qed.
Print Assumptions C97_C2HDM.

Theorem C97_N2HDM :
  forall U v w, unitary U -> length v = PotN2HDM.N -> length w = PotN2HDM.N ->
    n2hdm_first w = apply22 U (n2hdm_first v) -> n2hdm_second w = apply22 U (n2hdm_second v) -> nth 8 w 0 = nth 8 v 0 ->
    (forall p, tree PotN2HDM.N (PotN2HDM.SetCurvatureArrays p) w 0 = tree PotN2HDM.N (PotN2HDM.SetCurvatureArrays p) v 0) /\
    (forall par c, PotN2HDM.set_CT_Pot_Par par = Ok c -> exists x,
       let t := [(6%nat, nth 12 par 0); (7%nat, nth 13 par 0); (8%nat, nth 14 par 0)] in
       counterterm PotN2HDM.N c w 0 = Ok (x + tadpoles t w) /\ counterterm PotN2HDM.N c v 0 = Ok (x + tadpoles t v)).
Proof.
  intros U v w HU Lv Lw E0 E1 E2. split.
  - intro p. rewrite !PotN2HDMProofs.tree_value, E0, E1, E2 by assumption. rewrite V_two_doublets_inv, V_singlet_inv by exact HU. reflexivity.
  - intros par c E. eexists. cbv zeta. rewrite !(PotN2HDMProofs.ct_value par c) by assumption. rewrite E0, E1, E2. rewrite V_two_doublets_inv, V_singlet_inv by exact HU.
    split; reflexivity.
Qed.
Print Assumptions C97_N2HDM.

Theorem C97_CPintheDark :
  forall U v w, unitary U -> length v = PotCPintheDark.N -> length w = PotCPintheDark.N ->
    first_doublet w = apply22 U (first_doublet v) -> second_doublet w = apply22 U (second_doublet v) -> nth 8 w 0 = nth 8 v 0 ->
    (forall p, tree PotCPintheDark.N (PotCPintheDark.SetCurvatureArrays p) w 0 = tree PotCPintheDark.N (PotCPintheDark.SetCurvatureArrays p) v 0) /\
    (forall par c, PotCPintheDark.set_CT_Pot_Par par = Ok c -> exists x,
       let t := [(2%nat, nth 13 par 0); (4%nat, nth 14 par 0); (6%nat, nth 15 par 0); (7%nat, nth 16 par 0); (8%nat, nth 17 par 0)] in
       counterterm PotCPintheDark.N c w 0 = Ok (x + tadpoles t w) /\ counterterm PotCPintheDark.N c v 0 = Ok (x + tadpoles t v)).
Proof.
  intros U v w HU Lv Lw E0 E1 E2. split.
  - intro p. rewrite !PotCPintheDarkProofs.tree_value, E0, E1, E2 by assumption. rewrite V_two_doublets_inv, V_singlet_inv by exact HU. reflexivity.
  - intros par c E. eexists. cbv zeta. rewrite !(PotCPintheDarkProofs.ct_value par c) by assumption. rewrite E0, E1, E2. rewrite V_two_doublets_inv, V_singlet_inv by exact HU.
    split; reflexivity.
Qed.
Print Assumptions C97_CPintheDark.

Example C97_nonvacuous :
  let U : matrix22 := (((0, 1), RtoC 0), (RtoC 0, RtoC 1)) in
  unitary U /\ sm_doublet [-2; 1; 3; 4] = apply22 U (sm_doublet [1; 2; 3; 4]) /\ [-2; 1; 3; 4] <> [1; 2; 3; 4].
Proof.
  cbn zeta. split; [|split].
  - unfold unitary. repeat split; unfold Cconj, Cmult, Cplus, RtoC; cbn [fst snd]; f_equal; ring.
  - unfold sm_doublet, mkdoublet, apply22, cfield, Cmult, Cplus, RtoC. cbn [fst snd nth]. repeat apply f_equal2; unfold Rdiv; ring.
  - intro E. apply (f_equal (fun l => nth 0 l 0)) in E. cbn in E. lra.
Qed.
