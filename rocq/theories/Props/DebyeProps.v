(** C107: the thermal masses of the scalars are the second derivatives of the part of the thermal potential that grows like T^2, and those of the gauge
    bosons are the screening masses of the Standard Model fermions and the doublets of the model. *)
From Coq Require Import Reals Lra Lia ZArith List.
From Coquelicot Require Import Complex.
From Verif.Model Require Import Base Potential Tables Gauge SMConst Yukawa Debye.
From Verif.Model Require PotSM PotCxSM PotR2HDM PotC2HDM PotN2HDM PotCPintheDark.
From Verif.Spec Require Import NumDerivSpec PotentialSpec ScalarSpec YukawaSpec DebyeSpec.
From Verif.Proofs Require Import TabTac YukawaMass DebyeProofs DebyeModels DebyeMass DebyeGauge.
Import ListNotations.
Local Open Scope R_scope.

(** the leading thermal potential at the field values w, from the mass matrices the library uses: scalars, gauge bosons, quarks, leptons *)
Notation thermal_potential n c G Yq Yl := (fun w => bind (mass_matrix n c w) (fun S => Ok (leading n 4 12 9 S
  (gauge_mass n (assign G zero_tensor) (fun _ _ => 0) w 0)
  (fun a b => Re (fermion_mass_squared 12 n Yq w a b)) (fun a b => Re (fermion_mass_squared 9 n Yl w a b))))).
(** CalculateDebye in the models without a formula of their own *)
Notation debye_higgs b n c G Yq Yl := (CalculateDebye b None n 4 12 9 (tL4 c) (assign G zero_tensor) Yq Yl).

(** missing: the entries up to 1e-5, which are set to zero *)
Theorem C107_SM_scalars_partial :
  forall force K p v i j, vev0 K <> 0 -> length v = PotSM.N -> (i < PotSM.N)%nat -> (j < PotSM.N)%nat ->
  exists d, second_partial Ok PotSM.N (thermal_potential PotSM.N (PotSM.SetCurvatureArrays p) (SM_G2H2 (C_g K) (C_gs K)) (of_table (SM_quarks K (vev0 K))) (of_table (SM_leptons K (vev0 K)))) v i j d /\
    (1 / 100000 < Rabs d -> debye_higgs force PotSM.N (PotSM.SetCurvatureArrays p) (SM_G2H2 (C_g K) (C_gs K)) (of_table (SM_quarks K (vev0 K))) (of_table (SM_leptons K (vev0 K))) i j = d) /\
    (Rabs d <= 1 / 100000 -> debye_higgs force PotSM.N (PotSM.SetCurvatureArrays p) (SM_G2H2 (C_g K) (C_gs K)) (of_table (SM_quarks K (vev0 K))) (of_table (SM_leptons K (vev0 K))) i j = 0).
Proof. intros force K p v i j V L Hi Hj. destruct (SM_final force K p v i j V L Hi Hj) as (d & S & E). exists d. split; [exact S|]. unfold stored in E. rewrite E. split; intro; now apply cut_spec. Qed.
Print Assumptions C107_SM_scalars_partial.
Theorem C107_CxSM_scalars_partial :
  forall force K vh p v i j, vh <> 0 -> length v = PotCxSM.N -> (i < PotCxSM.N)%nat -> (j < PotCxSM.N)%nat ->
  exists d, second_partial Ok PotCxSM.N (thermal_potential PotCxSM.N (PotCxSM.SetCurvatureArrays p) (CxSM_G2H2 (C_g K) (C_gs K)) (of_table (CxSM_quarks K vh)) (of_table (CxSM_leptons K vh))) v i j d /\
    (1 / 100000 < Rabs d -> debye_higgs force PotCxSM.N (PotCxSM.SetCurvatureArrays p) (CxSM_G2H2 (C_g K) (C_gs K)) (of_table (CxSM_quarks K vh)) (of_table (CxSM_leptons K vh)) i j = d) /\
    (Rabs d <= 1 / 100000 -> debye_higgs force PotCxSM.N (PotCxSM.SetCurvatureArrays p) (CxSM_G2H2 (C_g K) (C_gs K)) (of_table (CxSM_quarks K vh)) (of_table (CxSM_leptons K vh)) i j = 0).
Proof. intros force K vh p v i j V L Hi Hj. destruct (CxSM_final force K vh p v i j V L Hi Hj) as (d & S & E). exists d. split; [exact S|]. unfold stored in E. rewrite E. split; intro; now apply cut_spec. Qed.
Print Assumptions C107_CxSM_scalars_partial.
Theorem C107_CPintheDark_scalars_partial :
  forall force K p v i j, vev0 K <> 0 -> length v = PotCPintheDark.N -> (i < PotCPintheDark.N)%nat -> (j < PotCPintheDark.N)%nat ->
  exists d, second_partial Ok PotCPintheDark.N (thermal_potential PotCPintheDark.N (PotCPintheDark.SetCurvatureArrays p) (CPintheDark_G2H2 (C_g K) (C_gs K)) (of_table (CPintheDark_quarks K (vev0 K))) (of_table (CPintheDark_leptons K (vev0 K)))) v i j d /\
    (1 / 100000 < Rabs d -> debye_higgs force PotCPintheDark.N (PotCPintheDark.SetCurvatureArrays p) (CPintheDark_G2H2 (C_g K) (C_gs K)) (of_table (CPintheDark_quarks K (vev0 K))) (of_table (CPintheDark_leptons K (vev0 K))) i j = d) /\
    (Rabs d <= 1 / 100000 -> debye_higgs force PotCPintheDark.N (PotCPintheDark.SetCurvatureArrays p) (CPintheDark_G2H2 (C_g K) (C_gs K)) (of_table (CPintheDark_quarks K (vev0 K))) (of_table (CPintheDark_leptons K (vev0 K))) i j = 0).
Proof. intros force K p v i j V L Hi Hj. destruct (CPintheDark_final force K p v i j V L Hi Hj) as (d & S & E). exists d. split; [exact S|]. unfold stored in E. rewrite E. split; intro; now apply cut_spec. Qed.
Print Assumptions C107_CPintheDark_scalars_partial.
(** a singlet with quartic coupling 1e-5 *)
Theorem C107_CxSM_scalars_refuted :
  forall K vh v, vh <> 0 -> length v = PotCxSM.N -> exists p d, 0 < d /\
  second_partial Ok PotCxSM.N (thermal_potential PotCxSM.N (PotCxSM.SetCurvatureArrays p) (CxSM_G2H2 (C_g K) (C_gs K)) (of_table (CxSM_quarks K vh)) (of_table (CxSM_leptons K vh))) v 4 4 d /\
  forall force, debye_higgs force PotCxSM.N (PotCxSM.SetCurvatureArrays p) (CxSM_G2H2 (C_g K) (C_gs K)) (of_table (CxSM_quarks K vh)) (of_table (CxSM_leptons K vh)) 4 4 = 0.
Proof. intros K vh v V L. exists tiny. exact (CxSM_cut K vh v V L). Qed.
Print Assumptions C107_CxSM_scalars_refuted.
(** missing: the light quarks and the leptons, which the formula leaves out; the four types *)
Theorem C107_R2HDM_scalars_partial :
  forall i0 t c s p v i j, let K := GetSMConstants i0 in vev0 K * c <> 0 -> vev0 K * s <> 0 -> length v = PotR2HDM.N -> (i < PotR2HDM.N)%nat -> (j < PotR2HDM.N)%nat ->
  second_partial Ok PotR2HDM.N (thermal_potential PotR2HDM.N (PotR2HDM.SetCurvatureArrays p) (R2HDM_G2H2 (C_g K) (C_gs K)) (R2HDM_quarks K (type_number t) c s) (R2HDM_leptons K (type_number t) c s)) v i j
    (CalculateDebye false (Some (R2HDM_debye K (type_number t) c s (PotR2HDM.p_L1 p) (PotR2HDM.p_L2 p) (PotR2HDM.p_L3 p) (PotR2HDM.p_L4 p))) PotR2HDM.N 4 12 9 (tL4 (PotR2HDM.SetCurvatureArrays p)) (assign (R2HDM_G2H2 (C_g K) (C_gs K)) zero_tensor) (R2HDM_quarks K (type_number t) c s) (R2HDM_leptons K (type_number t) c s) i j
     + on_diagonal [0; 1; 4; 5]%nat (forgotten_first t [MassDown K; MassStrange K] [MassElectron K; MassMu K; MassTau K] (vev0 K * c)) i j
     + on_diagonal [2; 3; 6; 7]%nat (forgotten_second t [MassUp K; MassCharm K] [MassDown K; MassStrange K] [MassElectron K; MassMu K; MassTau K] (vev0 K * s)) i j).
Proof. intros i0 t c s p v i j K V1 V2 L Hi Hj. pose proof (R2HDM_second K (type_number t) c s V1 V2 p v i j L Hi Hj) as P. unfold K in P. rewrite (R2HDM_formula i0 t c s V1 V2 p i j Hi Hj) in P. rewrite Rplus_assoc. exact P. Qed.
Print Assumptions C107_R2HDM_scalars_partial.
(** wherever the charm quark has a mass *)
Theorem C107_R2HDM_scalars_refuted :
  forall i0 t c s p v, let K := GetSMConstants i0 in vev0 K * c <> 0 -> vev0 K * s <> 0 -> length v = PotR2HDM.N -> i_MassCharm i0 <> 0 ->
  ~ second_partial Ok PotR2HDM.N (thermal_potential PotR2HDM.N (PotR2HDM.SetCurvatureArrays p) (R2HDM_G2H2 (C_g K) (C_gs K)) (R2HDM_quarks K (type_number t) c s) (R2HDM_leptons K (type_number t) c s)) v 2 2 (CalculateDebye false (Some (R2HDM_debye K (type_number t) c s (PotR2HDM.p_L1 p) (PotR2HDM.p_L2 p) (PotR2HDM.p_L3 p) (PotR2HDM.p_L4 p))) PotR2HDM.N 4 12 9 (tL4 (PotR2HDM.SetCurvatureArrays p)) (assign (R2HDM_G2H2 (C_g K) (C_gs K)) zero_tensor) (R2HDM_quarks K (type_number t) c s) (R2HDM_leptons K (type_number t) c s) 2%nat 2%nat).
Proof. intros i0 t c s p v K V1 V2 L M S. pose proof (C107_R2HDM_scalars_partial i0 t c s p v 2 2 V1 V2 L ltac:(unfold PotR2HDM.N; lia) ltac:(unfold PotR2HDM.N; lia)) as P. pose proof (forgotten_charm i0 t c s V1 V2 M) as F. fold K in P. pose proof (second_unique Ok PotR2HDM.N _ v 2 2 _ _ (Ok_inj (A := R)) L ltac:(unfold PotR2HDM.N; lia) S P) as E. unfold light_up, light_down, mlep in F. fold K in F. cbn [on_diagonal Nat.eqb existsb orb] in E. lra. Qed.
Print Assumptions C107_R2HDM_scalars_refuted.
(** missing: the light quarks and the leptons, which the formula leaves out; the four types *)
Theorem C107_C2HDM_scalars_partial :
  forall i0 t c s p v i j, let K := GetSMConstants i0 in vev0 K * c <> 0 -> vev0 K * s <> 0 -> length v = PotC2HDM.N -> (i < PotC2HDM.N)%nat -> (j < PotC2HDM.N)%nat ->
  second_partial Ok PotC2HDM.N (thermal_potential PotC2HDM.N (PotC2HDM.SetCurvatureArrays p) (C2HDM_G2H2 (C_g K) (C_gs K)) (R2HDM_quarks K (type_number t) c s) (R2HDM_leptons K (type_number t) c s)) v i j
    (CalculateDebye false (Some (R2HDM_debye K (type_number t) c s (PotC2HDM.p_L1 p) (PotC2HDM.p_L2 p) (PotC2HDM.p_L3 p) (PotC2HDM.p_L4 p))) PotC2HDM.N 4 12 9 (tL4 (PotC2HDM.SetCurvatureArrays p)) (assign (C2HDM_G2H2 (C_g K) (C_gs K)) zero_tensor) (R2HDM_quarks K (type_number t) c s) (R2HDM_leptons K (type_number t) c s) i j
     + on_diagonal [0; 1; 4; 5]%nat (forgotten_first t [MassDown K; MassStrange K] [MassElectron K; MassMu K; MassTau K] (vev0 K * c)) i j
     + on_diagonal [2; 3; 6; 7]%nat (forgotten_second t [MassUp K; MassCharm K] [MassDown K; MassStrange K] [MassElectron K; MassMu K; MassTau K] (vev0 K * s)) i j).
Proof. intros i0 t c s p v i j K V1 V2 L Hi Hj. pose proof (C2HDM_second K (type_number t) c s V1 V2 p v i j L Hi Hj) as P. unfold K in P. rewrite (C2HDM_formula i0 t c s V1 V2 p i j Hi Hj) in P. rewrite Rplus_assoc. exact P. Qed.
Print Assumptions C107_C2HDM_scalars_partial.
Theorem C107_C2HDM_scalars_refuted :
  forall i0 t c s p v, let K := GetSMConstants i0 in vev0 K * c <> 0 -> vev0 K * s <> 0 -> length v = PotC2HDM.N -> i_MassCharm i0 <> 0 ->
  ~ second_partial Ok PotC2HDM.N (thermal_potential PotC2HDM.N (PotC2HDM.SetCurvatureArrays p) (C2HDM_G2H2 (C_g K) (C_gs K)) (R2HDM_quarks K (type_number t) c s) (R2HDM_leptons K (type_number t) c s)) v 2 2 (CalculateDebye false (Some (R2HDM_debye K (type_number t) c s (PotC2HDM.p_L1 p) (PotC2HDM.p_L2 p) (PotC2HDM.p_L3 p) (PotC2HDM.p_L4 p))) PotC2HDM.N 4 12 9 (tL4 (PotC2HDM.SetCurvatureArrays p)) (assign (C2HDM_G2H2 (C_g K) (C_gs K)) zero_tensor) (R2HDM_quarks K (type_number t) c s) (R2HDM_leptons K (type_number t) c s) 2%nat 2%nat).
Proof. intros i0 t c s p v K V1 V2 L M S. pose proof (C107_C2HDM_scalars_partial i0 t c s p v 2 2 V1 V2 L ltac:(unfold PotC2HDM.N; lia) ltac:(unfold PotC2HDM.N; lia)) as P. pose proof (forgotten_charm i0 t c s V1 V2 M) as F. fold K in P. pose proof (second_unique Ok PotC2HDM.N _ v 2 2 _ _ (Ok_inj (A := R)) L ltac:(unfold PotC2HDM.N; lia) S P) as E. unfold light_up, light_down, mlep in F. fold K in F. cbn [on_diagonal Nat.eqb existsb orb] in E. lra. Qed.
Print Assumptions C107_C2HDM_scalars_refuted.
(** missing: the light quarks and the leptons, which the formula leaves out; the four types *)
Theorem C107_N2HDM_scalars_partial :
  forall i0 t c s p v i j, let K := GetSMConstants i0 in vev0 K * c <> 0 -> vev0 K * s <> 0 -> length v = PotN2HDM.N -> (i < PotN2HDM.N)%nat -> (j < PotN2HDM.N)%nat ->
  second_partial Ok PotN2HDM.N (thermal_potential PotN2HDM.N (PotN2HDM.SetCurvatureArrays p) (N2HDM_G2H2 (C_g K) (C_gs K)) (N2HDM_quarks K (type_number t) c s) (N2HDM_leptons K (type_number t) c s)) v i j
    (CalculateDebye false (Some (N2HDM_debye K (type_number t) c s (PotN2HDM.p_L1 p) (PotN2HDM.p_L2 p) (PotN2HDM.p_L3 p) (PotN2HDM.p_L4 p) (PotN2HDM.p_NL6 p) (PotN2HDM.p_NL7 p) (PotN2HDM.p_NL8 p))) PotN2HDM.N 4 12 9 (tL4 (PotN2HDM.SetCurvatureArrays p)) (assign (N2HDM_G2H2 (C_g K) (C_gs K)) zero_tensor) (N2HDM_quarks K (type_number t) c s) (N2HDM_leptons K (type_number t) c s) i j
     + on_diagonal [0; 2; 4; 6]%nat (forgotten_first t [MassDown K; MassStrange K] [MassElectron K; MassMu K; MassTau K] (vev0 K * c)) i j
     + on_diagonal [1; 3; 5; 7]%nat (forgotten_second t [MassUp K; MassCharm K] [MassDown K; MassStrange K] [MassElectron K; MassMu K; MassTau K] (vev0 K * s)) i j).
Proof. intros i0 t c s p v i j K V1 V2 L Hi Hj. pose proof (N2HDM_second K (type_number t) c s V1 V2 p v i j L Hi Hj) as P. unfold K in P. rewrite (N2HDM_formula i0 t c s V1 V2 p i j Hi Hj) in P. rewrite Rplus_assoc. exact P. Qed.
Print Assumptions C107_N2HDM_scalars_partial.
Theorem C107_N2HDM_scalars_refuted :
  forall i0 t c s p v, let K := GetSMConstants i0 in vev0 K * c <> 0 -> vev0 K * s <> 0 -> length v = PotN2HDM.N -> i_MassCharm i0 <> 0 ->
  ~ second_partial Ok PotN2HDM.N (thermal_potential PotN2HDM.N (PotN2HDM.SetCurvatureArrays p) (N2HDM_G2H2 (C_g K) (C_gs K)) (N2HDM_quarks K (type_number t) c s) (N2HDM_leptons K (type_number t) c s)) v 1 1 (CalculateDebye false (Some (N2HDM_debye K (type_number t) c s (PotN2HDM.p_L1 p) (PotN2HDM.p_L2 p) (PotN2HDM.p_L3 p) (PotN2HDM.p_L4 p) (PotN2HDM.p_NL6 p) (PotN2HDM.p_NL7 p) (PotN2HDM.p_NL8 p))) PotN2HDM.N 4 12 9 (tL4 (PotN2HDM.SetCurvatureArrays p)) (assign (N2HDM_G2H2 (C_g K) (C_gs K)) zero_tensor) (N2HDM_quarks K (type_number t) c s) (N2HDM_leptons K (type_number t) c s) 1%nat 1%nat).
Proof. intros i0 t c s p v K V1 V2 L M S. pose proof (C107_N2HDM_scalars_partial i0 t c s p v 1 1 V1 V2 L ltac:(unfold PotN2HDM.N; lia) ltac:(unfold PotN2HDM.N; lia)) as P. pose proof (forgotten_charm i0 t c s V1 V2 M) as F. fold K in P. pose proof (second_unique Ok PotN2HDM.N _ v 1 1 _ _ (Ok_inj (A := R)) L ltac:(unfold PotN2HDM.N; lia) S P) as E. unfold light_up, light_down, mlep in F. fold K in F. cbn [on_diagonal Nat.eqb existsb orb] in E. lra. Qed.
Print Assumptions C107_N2HDM_scalars_refuted.
Theorem C107_SM_gauge :
  forall g gs, g <> 0 -> exists D, CalculateDebyeGauge None PotSM.N (assign (SM_G2H2 g gs) zero_tensor) = Some D /\
  forall a b, (a < 4)%nat -> (b < 4)%nat -> let m := screening g gs 1 a b in (1 / 100000 < Rabs m -> D a b = m) /\ (Rabs m <= 1 / 100000 -> D a b = 0).
Proof. intros g gs G. destruct (SM_gauge g gs G) as (D & E & H). exists D. split; [exact E|]. intros a b Ha Hb m. rewrite H by assumption. split; intro; now apply cut_spec. Qed.
Print Assumptions C107_SM_gauge.
Theorem C107_CxSM_gauge :
  forall g gs, g <> 0 -> exists D, CalculateDebyeGauge None PotCxSM.N (assign (CxSM_G2H2 g gs) zero_tensor) = Some D /\
  forall a b, (a < 4)%nat -> (b < 4)%nat -> let m := screening g gs 1 a b in (1 / 100000 < Rabs m -> D a b = m) /\ (Rabs m <= 1 / 100000 -> D a b = 0).
Proof. intros g gs G. destruct (CxSM_gauge g gs G) as (D & E & H). exists D. split; [exact E|]. intros a b Ha Hb m. rewrite H by assumption. split; intro; now apply cut_spec. Qed.
Print Assumptions C107_CxSM_gauge.
Theorem C107_CPintheDark_gauge :
  forall g gs, g <> 0 -> exists D, CalculateDebyeGauge None PotCPintheDark.N (assign (CPintheDark_G2H2 g gs) zero_tensor) = Some D /\
  forall a b, (a < 4)%nat -> (b < 4)%nat -> let m := screening g gs 2 a b in (1 / 100000 < Rabs m -> D a b = m) /\ (Rabs m <= 1 / 100000 -> D a b = 0).
Proof. intros g gs G. destruct (CPintheDark_gauge g gs G) as (D & E & H). exists D. split; [exact E|]. intros a b Ha Hb m. rewrite H by assumption. split; intro; now apply cut_spec. Qed.
Print Assumptions C107_CPintheDark_gauge.
Theorem C107_two_doublets_gauge :
  forall K n G, exists D, CalculateDebyeGauge (Some (two_doublet_gauge K)) n G = Some D /\
  forall a b, (a < 4)%nat -> (b < 4)%nat -> D a b = screening (C_g K) (C_gs K) 2 a b.
Proof. exact two_doublets_gauge. Qed.
Print Assumptions C107_two_doublets_gauge.

(** the numbers in the library, and tan beta = 2 *)
Example C107_nonvacuous : let K := GetSMConstants the_input in vev0 K <> 0 /\ vev0 K * (1 / sqrt 5) <> 0 /\ vev0 K * (2 / sqrt 5) <> 0 /\ i_MassCharm the_input <> 0 /\ C_g K <> 0.
Proof.
  intro K. assert (V : 0 < vev0 K) by (apply vev_pos; cbn; lra). assert (S : 0 < / sqrt 5) by (apply Rinv_0_lt_compat, sqrt_lt_R0; lra).
  repeat split.
  - lra.
  - apply Rgt_not_eq, Rmult_lt_0_compat; lra.
  - apply Rgt_not_eq, Rmult_lt_0_compat; lra.
  - cbn. lra.
  - change (2 * (80385 / 1000) / vev0 K <> 0). apply Rgt_not_eq. apply Rmult_lt_0_compat; [lra|]. now apply Rinv_0_lt_compat.
Qed.
(** the screening masses 11/6 g^2 and 2 g^2 *)
Example C107_nonvacuous_screening : forall g gp, screening g gp 1 0 0 = 11 / 6 * g ^ 2 /\ screening g gp 1 3 3 = 11 / 6 * gp ^ 2 /\ screening g gp 2 1 1 = 2 * g ^ 2.
Proof. intros. unfold screening, su2_screening, u1_screening. cbn [Nat.eqb Nat.ltb Nat.leb INR]. repeat split; field. Qed.
