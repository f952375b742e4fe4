(** C106: the fermion couplings of the six models are those of the Yukawa Lagrangian with a unitary mixing matrix, and the stored vacuum gives the
    fermion masses of the input. *)
From Coq Require Import Reals Lra Lia ZArith List.
From Coquelicot Require Import Complex.
From Verif.Model Require Import Base Potential Tables Vacua SMConst Yukawa.
From Verif.Model Require PotSM PotCxSM PotR2HDM PotC2HDM PotN2HDM PotCPintheDark.
From Verif.Spec Require Import PotentialSpec ScalarSpec GaugeSpec YukawaSpec.
From Verif.Proofs Require Import TabTac VacTac VacuumCore VacuaProofs GaugeMass CKMProofs YukawaProofs YukawaMass.
Import ListNotations.
Local Open Scope R_scope.

(** for every value of the four parameters *)
Theorem C106_mixing_matrix_unitary : forall i, unitary33 (CKM (GetSMConstants i)).
Proof. exact CKM_unitary. Qed.
Print Assumptions C106_mixing_matrix_unitary.
(** the definition of the Wolfenstein parameters to all orders *)
Theorem C106_wolfenstein_parameters :
  forall i, let K := GetSMConstants i in let z := (RtoC (i_A i * i_lambda i ^ 3) * (i_rho i, i_eta i))%C in
  -1 <= i_lambda i <= 1 -> -1 <= i_A i * i_lambda i ^ 2 <= 1 -> Cmod z <= 1 ->
  V13 K = Cconj z /\ V23 K = (RtoC (i_A i * i_lambda i) * V12 K)%C /\
  abs2 (V12 K) = i_lambda i ^ 2 * (abs2 (V11 K) + abs2 (V12 K)).
Proof. exact wolfenstein. Qed.
Print Assumptions C106_wolfenstein_parameters.
Example C106_nonvacuous_wolfenstein : let i := the_input in
  -1 <= i_lambda i <= 1 /\ -1 <= i_A i * i_lambda i ^ 2 <= 1 /\ Cmod (RtoC (i_A i * i_lambda i ^ 3) * (i_rho i, i_eta i))%C <= 1.
Proof.
  cbv zeta. cbn [the_input i_lambda i_A i_rho i_eta]. split; [lra|]. split; [lra|]. rewrite Cmod_mult. unfold Cmod, RtoC. cbn [fst snd].
  rewrite <- sqrt_mult by nra. rewrite <- sqrt_1. apply sqrt_le_1_alt. lra.
Qed.

Theorem C106_SM_lagrangian :
  forall i w, let K := GetSMConstants i in vev0 K <> 0 -> length w = PotSM.N ->
  mass_matrix_of 12 layout_q (fermion_mass PotSM.N (of_table (SM_quarks K (vev0 K))) w)
    (quark_yukawas (CKM K) (fun g => yukawa ((three (MassUp K) (MassCharm K) (MassTop K)) g) (vev0 K)) (fun g => yukawa ((three (MassDown K) (MassStrange K) (MassBottom K)) g) (vev0 K)) (sm_doublet w) (sm_doublet w)) /\
  mass_matrix_of 9 layout_l (fermion_mass PotSM.N (of_table (SM_leptons K (vev0 K))) w)
    (lepton_yukawas (fun g => yukawa ((three (MassElectron K) (MassMu K) (MassTau K)) g) (vev0 K)) (sm_doublet w)).
Proof. exact SM_lagrangian. Qed.
Print Assumptions C106_SM_lagrangian.
Theorem C106_CxSM_lagrangian :
  forall i vh w, let K := GetSMConstants i in vh <> 0 -> length w = PotCxSM.N ->
  mass_matrix_of 12 layout_q (fermion_mass PotCxSM.N (of_table (CxSM_quarks K vh)) w)
    (quark_yukawas (CKM K) (fun g => yukawa ((three (MassUp K) (MassCharm K) (MassTop K)) g) vh) (fun g => yukawa ((three (MassDown K) (MassStrange K) (MassBottom K)) g) vh) (cxsm_doublet w) (cxsm_doublet w)) /\
  mass_matrix_of 9 layout_l (fermion_mass PotCxSM.N (of_table (CxSM_leptons K vh)) w)
    (lepton_yukawas (fun g => yukawa ((three (MassElectron K) (MassMu K) (MassTau K)) g) vh) (cxsm_doublet w)).
Proof. exact CxSM_lagrangian. Qed.
Print Assumptions C106_CxSM_lagrangian.
Theorem C106_CPintheDark_lagrangian :
  forall i w, let K := GetSMConstants i in vev0 K <> 0 -> length w = PotCPintheDark.N ->
  mass_matrix_of 12 layout_q' (fermion_mass PotCPintheDark.N (of_table (CPintheDark_quarks K (vev0 K))) w)
    (quark_yukawas (CKM K) (fun g => yukawa ((three (MassUp K) (MassCharm K) (MassTop K)) g) (vev0 K)) (fun g => yukawa ((three (MassDown K) (MassStrange K) (MassBottom K)) g) (vev0 K)) (first_doublet w) (first_doublet w)) /\
  mass_matrix_of 9 layout_l (fermion_mass PotCPintheDark.N (of_table (CPintheDark_leptons K (vev0 K))) w)
    (lepton_yukawas (fun g => yukawa ((three (MassElectron K) (MassMu K) (MassTau K)) g) (vev0 K)) (first_doublet w)).
Proof. exact CPintheDark_lagrangian. Qed.
Print Assumptions C106_CPintheDark_lagrangian.
(** the C2HDM has the same code *)
Theorem C106_R2HDM_lagrangian :
  forall i t c s w, let K := GetSMConstants i in let v1 := vev0 K * c in let v2 := vev0 K * s in v1 <> 0 -> v2 <> 0 -> length w = PotR2HDM.N ->
  mass_matrix_of 12 layout_q (fermion_mass PotR2HDM.N (R2HDM_quarks K (type_number t) c s) w)
    (quark_yukawas (CKM K) (fun g => yukawa ((three (MassUp K) (MassCharm K) (MassTop K)) g) v2) (fun g => yukawa ((three (MassDown K) (MassStrange K) (MassBottom K)) g) (down_couples t v1 v2)) (second_doublet w) (down_couples t (first_doublet w) (second_doublet w))) /\
  mass_matrix_of 9 layout_l (fermion_mass PotR2HDM.N (R2HDM_leptons K (type_number t) c s) w)
    (lepton_yukawas (fun g => yukawa ((three (MassElectron K) (MassMu K) (MassTau K)) g) (lepton_couples t v1 v2)) (lepton_couples t (first_doublet w) (second_doublet w))).
Proof. exact R2HDM_lagrangian. Qed.
Print Assumptions C106_R2HDM_lagrangian.
Theorem C106_N2HDM_lagrangian :
  forall i t c s w, let K := GetSMConstants i in let v1 := vev0 K * c in let v2 := vev0 K * s in v1 <> 0 -> v2 <> 0 -> length w = PotN2HDM.N ->
  mass_matrix_of 12 layout_q (fermion_mass PotN2HDM.N (N2HDM_quarks K (type_number t) c s) w)
    (quark_yukawas (CKM K) (fun g => yukawa ((three (MassUp K) (MassCharm K) (MassTop K)) g) v2) (fun g => yukawa ((three (MassDown K) (MassStrange K) (MassBottom K)) g) (down_couples t v1 v2)) (n2hdm_second w) (down_couples t (n2hdm_first w) (n2hdm_second w))) /\
  mass_matrix_of 9 layout_l (fermion_mass PotN2HDM.N (N2HDM_leptons K (type_number t) c s) w)
    (lepton_yukawas (fun g => yukawa ((three (MassElectron K) (MassMu K) (MassTau K)) g) (lepton_couples t v1 v2)) (lepton_couples t (n2hdm_first w) (n2hdm_second w))).
Proof. exact N2HDM_lagrangian. Qed.
Print Assumptions C106_N2HDM_lagrangian.

(** the masses in the stored vacuum *)
Theorem C106_SM_masses :
  forall i MH par p vev w, let K := GetSMConstants i in vev0 K <> 0 ->
  set_gen_SM (vev0 K) MH par = Ok (p, vev) -> placed 0 PotSM.N order_SM vev w ->
    has_masses 12 (fermion_mass_squared 12 PotSM.N (of_table (SM_quarks K (vev0 K))) w) (fun a => quark_mass (three (MassUp K) (MassCharm K) (MassTop K)) (three (MassDown K) (MassStrange K) (MassBottom K)) (layout_q a)) /\
    has_masses 9 (fermion_mass_squared 9 PotSM.N (of_table (SM_leptons K (vev0 K))) w) (fun a => lepton_mass (three (MassElectron K) (MassMu K) (MassTau K)) (layout_l a)).
Proof. exact SM_fermions. Qed.
Print Assumptions C106_SM_masses.
Theorem C106_CxSM_masses :
  forall i par p vev w, let K := GetSMConstants i in let vh := nth 0 par 0 in vh <> 0 ->
  set_gen_CxSM par = Ok (p, vev) -> placed 0 PotCxSM.N order_CxSM vev w ->
    has_masses 12 (fermion_mass_squared 12 PotCxSM.N (of_table (CxSM_quarks K vh)) w) (fun a => quark_mass (three (MassUp K) (MassCharm K) (MassTop K)) (three (MassDown K) (MassStrange K) (MassBottom K)) (layout_q a)) /\
    has_masses 9 (fermion_mass_squared 9 PotCxSM.N (of_table (CxSM_leptons K vh)) w) (fun a => lepton_mass (three (MassElectron K) (MassMu K) (MassTau K)) (layout_l a)).
Proof. exact CxSM_fermions. Qed.
Print Assumptions C106_CxSM_masses.
Theorem C106_CPintheDark_masses :
  forall i par p vev w, let K := GetSMConstants i in vev0 K <> 0 ->
  set_gen_CPintheDark (vev0 K) par = Ok (p, vev) -> placed 0 PotCPintheDark.N order_CPintheDark vev w ->
    has_masses 12 (fermion_mass_squared 12 PotCPintheDark.N (of_table (CPintheDark_quarks K (vev0 K))) w) (fun a => quark_mass (three (MassUp K) (MassCharm K) (MassTop K)) (three (MassDown K) (MassStrange K) (MassBottom K)) (layout_q' a)) /\
    has_masses 9 (fermion_mass_squared 9 PotCPintheDark.N (of_table (CPintheDark_leptons K (vev0 K))) w) (fun a => lepton_mass (three (MassElectron K) (MassMu K) (MassTau K)) (layout_l a)).
Proof. exact CPintheDark_fermions. Qed.
Print Assumptions C106_CPintheDark_masses.
(** missing: a Type outside 1 .. 4 is accepted but gives other masses *)
Theorem C106_R2HDM_masses_partial :
  forall i, 0 < i_GF i -> let K := GetSMConstants i in forall par p vev c s w, nth 6 par 0 <> 0 ->
  set_gen_R2HDM (vev0 K) par = Ok (p, vev, (c, s)) -> placed 0 PotR2HDM.N order_R2HDM vev w -> let T := Type_of (nth 7 par 0) in
  (forall t, T = type_number t ->
    has_masses 12 (fermion_mass_squared 12 PotR2HDM.N (R2HDM_quarks K T c s) w) (fun a => quark_mass (three (MassUp K) (MassCharm K) (MassTop K)) (three (MassDown K) (MassStrange K) (MassBottom K)) (layout_q a)) /\
    has_masses 9 (fermion_mass_squared 9 PotR2HDM.N (R2HDM_leptons K T c s) w) (fun a => lepton_mass (three (MassElectron K) (MassMu K) (MassTau K)) (layout_l a))) /\
  (T <> 1%Z -> T <> 2%Z -> T <> 3%Z -> T <> 4%Z ->
    has_masses 12 (fermion_mass_squared 12 PotR2HDM.N (R2HDM_quarks K T c s) w) (fun a => quark_mass (three (MassUp K) (MassCharm K) (MassTop K)) (fun g => (three (MassDown K) (MassStrange K) (MassBottom K)) g * (c / s)) (layout_q a)) /\
    has_masses 9 (fermion_mass_squared 9 PotR2HDM.N (R2HDM_leptons K T c s) w) (fun a => lepton_mass (fun g => (three (MassElectron K) (MassMu K) (MassTau K)) g * (c / s)) (layout_l a))).
Proof. exact R2HDM_fermions. Qed.
Print Assumptions C106_R2HDM_masses_partial.
(** missing: a Type outside 1 .. 4 is accepted but gives other masses *)
Theorem C106_C2HDM_masses_partial :
  forall i, 0 < i_GF i -> let K := GetSMConstants i in forall cb par p vev c s w, nth 7 par 0 <> 0 ->
  set_gen_C2HDM cb (vev0 K) par = Ok (p, vev, (c, s)) -> placed 0 PotC2HDM.N (order_C2HDM cb) vev w -> let T := Type_of (nth 8 par 0) in
  (forall t, T = type_number t ->
    has_masses 12 (fermion_mass_squared 12 PotC2HDM.N (R2HDM_quarks K T c s) w) (fun a => quark_mass (three (MassUp K) (MassCharm K) (MassTop K)) (three (MassDown K) (MassStrange K) (MassBottom K)) (layout_q a)) /\
    has_masses 9 (fermion_mass_squared 9 PotC2HDM.N (R2HDM_leptons K T c s) w) (fun a => lepton_mass (three (MassElectron K) (MassMu K) (MassTau K)) (layout_l a))) /\
  (T <> 1%Z -> T <> 2%Z -> T <> 3%Z -> T <> 4%Z ->
    has_masses 12 (fermion_mass_squared 12 PotC2HDM.N (R2HDM_quarks K T c s) w) (fun a => quark_mass (three (MassUp K) (MassCharm K) (MassTop K)) (fun g => (three (MassDown K) (MassStrange K) (MassBottom K)) g * (c / s)) (layout_q a)) /\
    has_masses 9 (fermion_mass_squared 9 PotC2HDM.N (R2HDM_leptons K T c s) w) (fun a => lepton_mass (fun g => (three (MassElectron K) (MassMu K) (MassTau K)) g * (c / s)) (layout_l a))).
Proof. exact C2HDM_fermions. Qed.
Print Assumptions C106_C2HDM_masses_partial.
(** missing: a Type outside 1 .. 4 is accepted but gives other masses *)
Theorem C106_N2HDM_masses_partial :
  forall i, 0 < i_GF i -> let K := GetSMConstants i in forall par p vev c s n w, nth 8 par 0 <> 0 ->
  set_gen_N2HDM (vev0 K) par = Ok (p, vev, (c, s, n)) -> placed 0 PotN2HDM.N order_N2HDM vev w -> let T := Type_of (nth 11 par 0) in
  (forall t, T = type_number t ->
    has_masses 12 (fermion_mass_squared 12 PotN2HDM.N (N2HDM_quarks K T c s) w) (fun a => quark_mass (three (MassUp K) (MassCharm K) (MassTop K)) (three (MassDown K) (MassStrange K) (MassBottom K)) (layout_q a)) /\
    has_masses 9 (fermion_mass_squared 9 PotN2HDM.N (N2HDM_leptons K T c s) w) (fun a => lepton_mass (three (MassElectron K) (MassMu K) (MassTau K)) (layout_l a))) /\
  (T <> 1%Z -> T <> 2%Z -> T <> 3%Z -> T <> 4%Z ->
    has_masses 12 (fermion_mass_squared 12 PotN2HDM.N (N2HDM_quarks K T c s) w) (fun a => quark_mass (three (MassUp K) (MassCharm K) (MassTop K)) (fun g => (three (MassDown K) (MassStrange K) (MassBottom K)) g * (c / s)) (layout_q a)) /\
    has_masses 9 (fermion_mass_squared 9 PotN2HDM.N (N2HDM_leptons K T c s) w) (fun a => lepton_mass (fun g => (three (MassElectron K) (MassMu K) (MassTau K)) g * (c / s)) (layout_l a))).
Proof. exact N2HDM_fermions. Qed.
Print Assumptions C106_N2HDM_masses_partial.
Theorem C106_R2HDM_masses_refuted :
  forall i, 0 < i_GF i -> i_MassBottom i <> 0 -> exists par p vev c s w, let K := GetSMConstants i in
  set_gen_R2HDM (vev0 K) par = Ok (p, vev, (c, s)) /\ placed 0 PotR2HDM.N order_R2HDM vev w /\ nth 6 par 0 <> 0 /\ Type_of (nth 7 par 0) = 5%Z /\
  ~ has_masses 12 (fermion_mass_squared 12 PotR2HDM.N (R2HDM_quarks K 5 c s) w) (fun a => quark_mass (three (MassUp K) (MassCharm K) (MassTop K)) (three (MassDown K) (MassStrange K) (MassBottom K)) (layout_q a)).
Proof. exact R2HDM_other_type. Qed.
Print Assumptions C106_R2HDM_masses_refuted.

(** the numbers in the library meet the hypotheses; a line of Type 2 *)
Example C106_nonvacuous_input : 0 < i_GF the_input /\ i_MassBottom the_input <> 0.
Proof. cbn. lra. Qed.
Example C106_nonvacuous_R2HDM : exists p vev c s w, set_gen_R2HDM (vev0 (GetSMConstants the_input)) [3; 1; -1; 2; 1; 5000; -2; 2] = Ok (p, vev, (c, s)) /\
  placed 0 PotR2HDM.N order_R2HDM vev w /\ Type_of (nth 7 [3; 1; -1; 2; 1; 5000; -2; 2] 0) = type_number TypeII.
Proof.
  do 5 eexists. split; [reflexivity|]. split; [apply (spread_placed 8 [2; 4; 6; 7]%nat); [nodup|reflexivity|repeat constructor]|]. apply (Type_of_IZR 2).
Qed.
