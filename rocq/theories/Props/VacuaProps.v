(** C98: the vacuum that set_gen stores is a stationary point of the tree-level potential with the given vacuum expectation
    value, and the directions of the gauge group have mass zero there. *)
From Coq Require Import Reals Lra Lia ZArith List.
From Verif.Model Require Import Base Potential Tables Vacua.
From Verif.Model Require PotSM PotCxSM PotR2HDM PotC2HDM PotN2HDM PotCPintheDark.
From Verif.Spec Require Import NumDerivSpec PotentialSpec ScalarSpec WardSpec.
From Verif.Proofs Require Import TabTac VacTac VacuumCore VacuaProofs.
Import ListNotations.
Local Open Scope R_scope.

Theorem C98_SM_vacuum :
  forall v0 MH par p vev w, v0 <> 0 -> set_gen_SM v0 MH par = Ok (p, vev) -> placed 0 PotSM.N order_SM vev w ->
  proper_vacuum Ok Ok PotSM.N slots_SM (tree PotSM.N (PotSM.SetCurvatureArrays p)) (mass_matrix PotSM.N (PotSM.SetCurvatureArrays p)) w (v0 ^ 2).
Proof. exact SM_vacuum. Qed.
Print Assumptions C98_SM_vacuum.

(** the Higgs mass of the input is the mass of the neutral CP-even field, the other three fields are massless *)
Theorem C98_SM_masses :
  forall v0 MH par p vev w, v0 <> 0 -> set_gen_SM v0 MH par = Ok (p, vev) -> placed 0 PotSM.N order_SM vev w ->
  exists M, mass_matrix PotSM.N (PotSM.SetCurvatureArrays p) w = Ok M /\
    forall i j, (i < 4)%nat -> (j < 4)%nat -> M i j = if (Nat.eqb i 2 && Nat.eqb j 2)%bool then MH ^ 2 else 0.
Proof. exact SM_mass. Qed.
Print Assumptions C98_SM_masses.
Example C98_nonvacuous_SM : exists p vev w, set_gen_SM 246 125 [] = Ok (p, vev) /\ placed 0 PotSM.N order_SM vev w /\ w = [0; 0; 246; 0].
Proof.
  do 2 eexists. exists [0; 0; 246; 0]. split; [reflexivity|]. split; [|reflexivity].
  exact (spread_placed 4 [2]%nat [246] ltac:(nodup) eq_refl ltac:(repeat constructor)).
Qed.

Theorem C98_R2HDM_vacuum :
  forall v0 par p vev cs w, nth 6 par 0 <> 0 -> set_gen_R2HDM v0 par = Ok (p, vev, cs) -> placed 0 PotR2HDM.N order_R2HDM vev w ->
  proper_vacuum Ok Ok PotR2HDM.N slots_2HDM (tree PotR2HDM.N (PotR2HDM.SetCurvatureArrays p)) (mass_matrix PotR2HDM.N (PotR2HDM.SetCurvatureArrays p)) w (v0 ^ 2).
Proof. exact R2HDM_vacuum. Qed.
Print Assumptions C98_R2HDM_vacuum.
Example C98_nonvacuous_R2HDM : exists p vev cs w, set_gen_R2HDM 246 [3; 1; -1; 2; 1; 5000; -2; 1] = Ok (p, vev, cs) /\ placed 0 PotR2HDM.N order_R2HDM vev w.
Proof.
  do 4 eexists. split; [reflexivity|].
  apply (spread_placed 8 [2; 4; 6; 7]%nat); [nodup|reflexivity|repeat constructor].
Qed.

Theorem C98_CxSM_vacuum :
  forall par p vev w, set_gen_CxSM par = Ok (p, vev) -> placed 0 PotCxSM.N order_CxSM vev w ->
  proper_vacuum Ok Ok PotCxSM.N slots_CxSM (tree PotCxSM.N (PotCxSM.SetCurvatureArrays p)) (mass_matrix PotCxSM.N (PotCxSM.SetCurvatureArrays p)) w (nth 0 par 0 ^ 2).
Proof. exact CxSM_vacuum. Qed.
Print Assumptions C98_CxSM_vacuum.
Example C98_nonvacuous_CxSM : exists p vev w, set_gen_CxSM [246; 100; 50; 1; 1; 2; 3; 4; 5; 6; 7; 8] = Ok (p, vev) /\ placed 0 PotCxSM.N order_CxSM vev w /\ w = [0; 0; 0; 246; 100; 50].
Proof.
  unfold set_gen_CxSM. destruct (Req_EM_T 50 0); [lra|]. destruct (Req_EM_T 100 0); [lra|]. do 2 eexists. exists [0; 0; 0; 246; 100; 50].
  split; [reflexivity|]. split; [|reflexivity]. exact (spread_placed 6 [3; 4; 5]%nat [246; 100; 50] ltac:(nodup) eq_refl ltac:(repeat constructor)).
Qed.

(** missing: negative TanBeta, see the refutation *)
Theorem C98_C2HDM_vacuum_partial :
  forall cb v0 par p vev cs w, 0 < nth 7 par 0 -> set_gen_C2HDM cb v0 par = Ok (p, vev, cs) -> placed 0 PotC2HDM.N (order_C2HDM cb) vev w ->
  proper_vacuum Ok Ok PotC2HDM.N slots_2HDM (tree PotC2HDM.N (PotC2HDM.SetCurvatureArrays p)) (mass_matrix PotC2HDM.N (PotC2HDM.SetCurvatureArrays p)) w (v0 ^ 2).
Proof. exact C2HDM_vacuum. Qed.
Print Assumptions C98_C2HDM_vacuum_partial.
Theorem C98_C2HDM_negative_TanBeta_refuted :
  forall v0 cb, 0 < v0 -> exists par p vev cs w, set_gen_C2HDM cb v0 par = Ok (p, vev, cs) /\ nth 7 par 0 = -1 /\
  placed 0 PotC2HDM.N (order_C2HDM cb) vev w /\ ~ stationary Ok PotC2HDM.N (tree PotC2HDM.N (PotC2HDM.SetCurvatureArrays p)) w.
Proof. exact C2HDM_negative. Qed.
Print Assumptions C98_C2HDM_negative_TanBeta_refuted.
Example C98_nonvacuous_C2HDM : exists p vev cs w, set_gen_C2HDM true 246 [3; 1; -1; 2; 1; 1; 5000; 2; 1] = Ok (p, vev, cs) /\ placed 0 PotC2HDM.N (order_C2HDM true) vev w.
Proof.
  do 4 eexists. split; [reflexivity|].
  apply (spread_placed 8 [2; 4; 6; 7]%nat); [nodup|reflexivity|repeat constructor].
Qed.

Theorem C98_N2HDM_vacuum_partial :
  forall v0 par p vev cs w, 0 < nth 8 par 0 -> set_gen_N2HDM v0 par = Ok (p, vev, cs) -> placed 0 PotN2HDM.N order_N2HDM vev w ->
  proper_vacuum Ok Ok PotN2HDM.N slots_N2HDM (tree PotN2HDM.N (PotN2HDM.SetCurvatureArrays p)) (mass_matrix PotN2HDM.N (PotN2HDM.SetCurvatureArrays p)) w (v0 ^ 2).
Proof. exact N2HDM_vacuum. Qed.
Print Assumptions C98_N2HDM_vacuum_partial.
Theorem C98_N2HDM_negative_TanBeta_refuted :
  forall v0, 0 < v0 -> exists par p vev cs w, set_gen_N2HDM v0 par = Ok (p, vev, cs) /\ nth 8 par 0 = -1 /\
  placed 0 PotN2HDM.N order_N2HDM vev w /\ ~ stationary Ok PotN2HDM.N (tree PotN2HDM.N (PotN2HDM.SetCurvatureArrays p)) w.
Proof. exact N2HDM_negative. Qed.
Print Assumptions C98_N2HDM_negative_TanBeta_refuted.
Example C98_nonvacuous_N2HDM : exists p vev cs w, set_gen_N2HDM 246 [3; 1; -1; 2; 1; 4; 5; 6; 2; 300; 5000; 1] = Ok (p, vev, cs) /\ placed 0 PotN2HDM.N order_N2HDM vev w.
Proof.
  do 4 eexists. split; [reflexivity|].
  apply (spread_placed 9 [1; 5; 6; 7; 8]%nat); [nodup|reflexivity|repeat constructor].
Qed.

(** the mass parameter of the first doublet is an input; the vacuum is stationary exactly for one value of it *)
Theorem C98_CPintheDark_vacuum_partial :
  forall v0 par p vev w, set_gen_CPintheDark v0 par = Ok (p, vev) -> placed 0 PotCPintheDark.N order_CPintheDark vev w ->
  nth 0 par 0 = - nth 5 par 0 * v0 ^ 2 / 2 ->
  proper_vacuum Ok Ok PotCPintheDark.N slots_2HDM (tree PotCPintheDark.N (PotCPintheDark.SetCurvatureArrays p)) (mass_matrix PotCPintheDark.N (PotCPintheDark.SetCurvatureArrays p)) w (v0 ^ 2).
Proof. exact CPintheDark_vacuum. Qed.
Print Assumptions C98_CPintheDark_vacuum_partial.
Theorem C98_CPintheDark_needs_the_mass_partial :
  forall v0 par p vev w, v0 <> 0 -> set_gen_CPintheDark v0 par = Ok (p, vev) -> placed 0 PotCPintheDark.N order_CPintheDark vev w ->
  stationary Ok PotCPintheDark.N (tree PotCPintheDark.N (PotCPintheDark.SetCurvatureArrays p)) w -> nth 0 par 0 = - nth 5 par 0 * v0 ^ 2 / 2.
Proof. exact CPintheDark_offshell. Qed.
Print Assumptions C98_CPintheDark_needs_the_mass_partial.
Theorem C98_CPintheDark_free_mass_refuted :
  forall v0, v0 <> 0 -> exists par p vev w, set_gen_CPintheDark v0 par = Ok (p, vev) /\ placed 0 PotCPintheDark.N order_CPintheDark vev w /\
  ~ stationary Ok PotCPintheDark.N (tree PotCPintheDark.N (PotCPintheDark.SetCurvatureArrays p)) w.
Proof. exact CPintheDark_free. Qed.
Print Assumptions C98_CPintheDark_free_mass_refuted.
Example C98_nonvacuous_CPintheDark : exists p vev w, set_gen_CPintheDark 2 [-4; 0; 0; 0; 0; 2; 0; 0; 0; 0; 0; 0; 0] = Ok (p, vev) /\ placed 0 PotCPintheDark.N order_CPintheDark vev w
  /\ nth 0 [-4; 0; 0; 0; 0; 2; 0; 0; 0; 0; 0; 0; 0] 0 = - nth 5 [-4; 0; 0; 0; 0; 2; 0; 0; 0; 0; 0; 0; 0] 0 * 2 ^ 2 / 2.
Proof.
  do 3 eexists. split; [reflexivity|]. split; [|cbn [nth]; lra].
  apply (spread_placed 9 [2; 4; 6; 7; 8]%nat); [nodup|reflexivity|repeat constructor].
Qed.
