(** C105: the gauge boson mass matrix is the one of the covariant derivative, and in the stored vacuum it has the masses of W and Z of the
    input and a massless photon. *)
From Coq Require Import Reals Lra Lia ZArith List.
From Coquelicot Require Import Complex.
From Verif.Model Require Import Base Potential Tables Vacua Gauge SMConst.
From Verif.Model Require PotSM PotCxSM PotR2HDM PotC2HDM PotN2HDM PotCPintheDark.
From Verif.Spec Require Import PotentialSpec ScalarSpec WardSpec GaugeSpec.
From Verif.Proofs Require Import TabTac VacTac VacuumCore VacuaProofs GaugeProofs GaugeMass.
Import ListNotations.
Local Open Scope R_scope.

(** for every field configuration, in every model *)
Theorem C105_covariant_derivative :
  forall g gs DebyeGauge v a b,
  (length v = PotSM.N -> gauge_mass PotSM.N (assign (SM_G2H2 g gs) zero_tensor) DebyeGauge v 0 (index a) (index b) = kinetic_mass g gs slots_SM v a b) /\
  (length v = PotCxSM.N -> gauge_mass PotCxSM.N (assign (CxSM_G2H2 g gs) zero_tensor) DebyeGauge v 0 (index a) (index b) = kinetic_mass g gs slots_CxSM v a b) /\
  (length v = PotR2HDM.N -> gauge_mass PotR2HDM.N (assign (R2HDM_G2H2 g gs) zero_tensor) DebyeGauge v 0 (index a) (index b) = kinetic_mass g gs slots_2HDM v a b) /\
  (length v = PotC2HDM.N -> gauge_mass PotC2HDM.N (assign (C2HDM_G2H2 g gs) zero_tensor) DebyeGauge v 0 (index a) (index b) = kinetic_mass g gs slots_2HDM v a b) /\
  (length v = PotN2HDM.N -> gauge_mass PotN2HDM.N (assign (N2HDM_G2H2 g gs) zero_tensor) DebyeGauge v 0 (index a) (index b) = kinetic_mass g gs slots_N2HDM v a b) /\
  (length v = PotCPintheDark.N -> gauge_mass PotCPintheDark.N (assign (CPintheDark_G2H2 g gs) zero_tensor) DebyeGauge v 0 (index a) (index b) = kinetic_mass g gs slots_2HDM v a b).
Proof. exact all_kinetic. Qed.
Print Assumptions C105_covariant_derivative.
Example C105_nonvacuous_matrix : kinetic_mass 2 1 slots_2HDM [1; 0; 0; 0; 2; 0; 3; 0] W3 B = - 6 /\ kinetic_mass 2 1 slots_2HDM [1; 0; 0; 0; 2; 0; 3; 0] W1 B = 2.
Proof. unfold kinetic_mass, slots_2HDM; cbn [fold_right]; unfold doublet_at; rewrite !kinetic_comp; cbn [nth]; unfold comp; lra. Qed.

Theorem C105_SM_bosons :
  forall i MH par p vev w DebyeGauge, 0 < i_GF i /\ 0 < i_MassW i /\ i_MassW i <= i_MassZ i -> let K := GetSMConstants i in
  set_gen_SM (vev0 K) MH par = Ok (p, vev) -> placed 0 PotSM.N order_SM vev w ->
  physical_bosons (gauge_mass PotSM.N (assign (SM_G2H2 (C_g K) (C_gs K)) zero_tensor) DebyeGauge w 0) (C_g K) (C_gs K) (i_MassW i ^ 2) (i_MassZ i ^ 2).
Proof. exact SM_bosons. Qed.
Print Assumptions C105_SM_bosons.
Theorem C105_R2HDM_bosons :
  forall i par p vev cs w DebyeGauge, 0 < i_GF i /\ 0 < i_MassW i /\ i_MassW i <= i_MassZ i -> let K := GetSMConstants i in
  set_gen_R2HDM (vev0 K) par = Ok (p, vev, cs) -> placed 0 PotR2HDM.N order_R2HDM vev w ->
  physical_bosons (gauge_mass PotR2HDM.N (assign (R2HDM_G2H2 (C_g K) (C_gs K)) zero_tensor) DebyeGauge w 0) (C_g K) (C_gs K) (i_MassW i ^ 2) (i_MassZ i ^ 2).
Proof. exact R2HDM_bosons. Qed.
Print Assumptions C105_R2HDM_bosons.
Theorem C105_C2HDM_bosons :
  forall i cb par p vev cs w DebyeGauge, 0 < i_GF i /\ 0 < i_MassW i /\ i_MassW i <= i_MassZ i -> let K := GetSMConstants i in
  set_gen_C2HDM cb (vev0 K) par = Ok (p, vev, cs) -> placed 0 PotC2HDM.N (order_C2HDM cb) vev w ->
  physical_bosons (gauge_mass PotC2HDM.N (assign (C2HDM_G2H2 (C_g K) (C_gs K)) zero_tensor) DebyeGauge w 0) (C_g K) (C_gs K) (i_MassW i ^ 2) (i_MassZ i ^ 2).
Proof. exact C2HDM_bosons. Qed.
Print Assumptions C105_C2HDM_bosons.
Theorem C105_N2HDM_bosons :
  forall i par p vev cs w DebyeGauge, 0 < i_GF i /\ 0 < i_MassW i /\ i_MassW i <= i_MassZ i -> let K := GetSMConstants i in
  set_gen_N2HDM (vev0 K) par = Ok (p, vev, cs) -> placed 0 PotN2HDM.N order_N2HDM vev w ->
  physical_bosons (gauge_mass PotN2HDM.N (assign (N2HDM_G2H2 (C_g K) (C_gs K)) zero_tensor) DebyeGauge w 0) (C_g K) (C_gs K) (i_MassW i ^ 2) (i_MassZ i ^ 2).
Proof. exact N2HDM_bosons. Qed.
Print Assumptions C105_N2HDM_bosons.
Theorem C105_CPintheDark_bosons :
  forall i par p vev w DebyeGauge, 0 < i_GF i /\ 0 < i_MassW i /\ i_MassW i <= i_MassZ i -> let K := GetSMConstants i in
  set_gen_CPintheDark (vev0 K) par = Ok (p, vev) -> placed 0 PotCPintheDark.N order_CPintheDark vev w ->
  physical_bosons (gauge_mass PotCPintheDark.N (assign (CPintheDark_G2H2 (C_g K) (C_gs K)) zero_tensor) DebyeGauge w 0) (C_g K) (C_gs K) (i_MassW i ^ 2) (i_MassZ i ^ 2).
Proof. exact CPintheDark_bosons. Qed.
Print Assumptions C105_CPintheDark_bosons.

(** missing: in the CxSM the vacuum expectation value comes from the input line, so the masses are right only up to its ratio to C_vev0 *)
Theorem C105_CxSM_bosons_partial :
  forall i par p vev w DebyeGauge, 0 < i_GF i /\ 0 < i_MassW i /\ i_MassW i <= i_MassZ i ->
  let K := GetSMConstants i in let r := (nth 0 par 0 / vev0 K) ^ 2 in
  set_gen_CxSM par = Ok (p, vev) -> placed 0 PotCxSM.N order_CxSM vev w ->
  physical_bosons (gauge_mass PotCxSM.N (assign (CxSM_G2H2 (C_g K) (C_gs K)) zero_tensor) DebyeGauge w 0) (C_g K) (C_gs K) (i_MassW i ^ 2 * r) (i_MassZ i ^ 2 * r).
Proof. exact CxSM_bosons. Qed.
Print Assumptions C105_CxSM_bosons_partial.
Theorem C105_CxSM_bosons_refuted :
  forall i DebyeGauge, 0 < i_GF i /\ 0 < i_MassW i /\ i_MassW i <= i_MassZ i -> exists par p vev w, let K := GetSMConstants i in
  set_gen_CxSM par = Ok (p, vev) /\ placed 0 PotCxSM.N order_CxSM vev w /\
  ~ physical_bosons (gauge_mass PotCxSM.N (assign (CxSM_G2H2 (C_g K) (C_gs K)) zero_tensor) DebyeGauge w 0) (C_g K) (C_gs K) (i_MassW i ^ 2) (i_MassZ i ^ 2).
Proof. exact CxSM_bosons_refuted. Qed.
Print Assumptions C105_CxSM_bosons_refuted.

(** the numbers in the library meet the hypotheses *)
Example C105_nonvacuous_input : 0 < i_GF the_input /\ 0 < i_MassW the_input /\ i_MassW the_input <= i_MassZ the_input.
Proof. cbn. lra. Qed.
Example C105_nonvacuous_R2HDM : exists p vev cs w, set_gen_R2HDM (vev0 (GetSMConstants the_input)) [3; 1; -1; 2; 1; 5000; -2; 1] = Ok (p, vev, cs) /\ placed 0 PotR2HDM.N order_R2HDM vev w.
Proof.
  do 4 eexists. split; [reflexivity|].
  apply (spread_placed 8 [2; 4; 6; 7]%nat); [nodup|reflexivity|repeat constructor].
Qed.
