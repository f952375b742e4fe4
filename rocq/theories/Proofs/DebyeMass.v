(** Debye masses of the six models. *)
From Coq Require Import Reals Lra Lia ZArith List Permutation Arith.
From Coquelicot Require Import Complex.
From Verif.Model Require Import Base Potential Tables Gauge SMConst Yukawa Debye.
From Verif.Model Require PotSM PotCxSM PotR2HDM PotC2HDM PotN2HDM PotCPintheDark.
From Verif.Spec Require Import NumDerivSpec PotentialSpec ScalarSpec GaugeSpec YukawaSpec DebyeSpec.
From Verif.Proofs Require Import DerivLib NumDerivProofs PotentialProofs VevProofs TensorProofs Contract Contract2 TabTac CKMProofs YukawaProofs DebyeProofs DebyeModels DebyeTables.
From Verif.Proofs Require PotSMProofs PotCxSMProofs PotR2HDMProofs PotC2HDMProofs PotN2HDMProofs PotCPintheDarkProofs.
Import ListNotations.
Open Scope R_scope.

Notation TH n c G := (thermal n 4 12 9 c (assign G zero_tensor)).
Notation DS n c G := (debye_sum n 4 12 9 (tL4 c) (assign G zero_tensor)).

Lemma SM_second K p v i j : vev0 K <> 0 -> length v = PotSM.N -> (i < PotSM.N)%nat -> (j < PotSM.N)%nat ->
  second_partial Ok PotSM.N (TH PotSM.N (PotSM.SetCurvatureArrays p) (SM_G2H2 (C_g K) (C_gs K)) (of_table (SM_quarks K (vev0 K))) (of_table (SM_leptons K (vev0 K)))) v i j
    (DS PotSM.N (PotSM.SetCurvatureArrays p) (SM_G2H2 (C_g K) (C_gs K)) (of_table (SM_quarks K (vev0 K))) (of_table (SM_leptons K (vev0 K))) i j).
Proof.
  intros V. apply debye_is_second; [apply (s4 _ _ _ _ _ _ (PotSMProofs.tree_ok p))|apply SM_G| |]; apply sym_of_mass; intros w a b L Ha Hb.
  - exact (sym_q _ _ _ _ _ _ _ _ _ a b (SM_quarks_entries K (vev0 K) w V L) Ha Hb).
  - exact (sym_l _ _ _ _ _ _ a b (SM_leptons_entries K (vev0 K) w V L) Ha Hb).
Qed.
Lemma CxSM_second K vh p v i j : vh <> 0 -> length v = PotCxSM.N -> (i < PotCxSM.N)%nat -> (j < PotCxSM.N)%nat ->
  second_partial Ok PotCxSM.N (TH PotCxSM.N (PotCxSM.SetCurvatureArrays p) (CxSM_G2H2 (C_g K) (C_gs K)) (of_table (CxSM_quarks K vh)) (of_table (CxSM_leptons K vh))) v i j
    (DS PotCxSM.N (PotCxSM.SetCurvatureArrays p) (CxSM_G2H2 (C_g K) (C_gs K)) (of_table (CxSM_quarks K vh)) (of_table (CxSM_leptons K vh)) i j).
Proof.
  intros V. apply debye_is_second; [apply (s4 _ _ _ _ _ _ (PotCxSMProofs.tree_ok p))|apply CxSM_G| |]; apply sym_of_mass; intros w a b L Ha Hb.
  - exact (sym_q _ _ _ _ _ _ _ _ _ a b (CxSM_quarks_entries K vh w V L) Ha Hb).
  - exact (sym_l _ _ _ _ _ _ a b (CxSM_leptons_entries K vh w V L) Ha Hb).
Qed.
Lemma CPintheDark_second K p v i j : vev0 K <> 0 -> length v = PotCPintheDark.N -> (i < PotCPintheDark.N)%nat -> (j < PotCPintheDark.N)%nat ->
  second_partial Ok PotCPintheDark.N (TH PotCPintheDark.N (PotCPintheDark.SetCurvatureArrays p) (CPintheDark_G2H2 (C_g K) (C_gs K)) (of_table (CPintheDark_quarks K (vev0 K))) (of_table (CPintheDark_leptons K (vev0 K)))) v i j
    (DS PotCPintheDark.N (PotCPintheDark.SetCurvatureArrays p) (CPintheDark_G2H2 (C_g K) (C_gs K)) (of_table (CPintheDark_quarks K (vev0 K))) (of_table (CPintheDark_leptons K (vev0 K))) i j).
Proof.
  intros V. apply debye_is_second; [apply (s4 _ _ _ _ _ _ (PotCPintheDarkProofs.tree_ok p))|apply CPintheDark_G| |]; apply sym_of_mass; intros w a b L Ha Hb.
  - exact (sym_q _ _ _ _ _ _ _ _ _ a b (CPintheDark_quarks_entries K (vev0 K) w V L) Ha Hb).
  - exact (sym_l _ _ _ _ _ _ a b (CPintheDark_leptons_entries K (vev0 K) w V L) Ha Hb).
Qed.
Section Two.
  Variables (K : constants) (T : Z) (c s : R).
  Notation v1 := (vev0 K * c).
  Notation v2 := (vev0 K * s).
  Hypothesis V1 : v1 <> 0.
  Hypothesis V2 : v2 <> 0.
  Lemma vDne : v_down T v1 v2 <> 0. Proof. unfold v_down. repeat destruct (Z.eqb _ _); assumption. Qed.
  Lemma vLne : v_lepton T v1 v2 <> 0. Proof. unfold v_lepton. repeat destruct (Z.eqb _ _); assumption. Qed.
  Lemma R2HDM_second p v i j : length v = PotR2HDM.N -> (i < PotR2HDM.N)%nat -> (j < PotR2HDM.N)%nat ->
    second_partial Ok PotR2HDM.N (TH PotR2HDM.N (PotR2HDM.SetCurvatureArrays p) (R2HDM_G2H2 (C_g K) (C_gs K)) (R2HDM_quarks K T c s) (R2HDM_leptons K T c s)) v i j
      (DS PotR2HDM.N (PotR2HDM.SetCurvatureArrays p) (R2HDM_G2H2 (C_g K) (C_gs K)) (R2HDM_quarks K T c s) (R2HDM_leptons K T c s) i j).
  Proof.
    apply debye_is_second; [apply (s4 _ _ _ _ _ _ (PotR2HDMProofs.tree_ok p))|apply R2HDM_G| |]; apply sym_of_mass; intros w a b L Ha Hb.
    - exact (sym_q _ _ _ _ _ _ _ _ _ a b (R2HDM_quarks_entries K T c s w V2 vDne L) Ha Hb).
    - exact (sym_l _ _ _ _ _ _ a b (R2HDM_leptons_entries K T c s w vLne L) Ha Hb).
  Qed.
  Lemma C2HDM_second p v i j : length v = PotC2HDM.N -> (i < PotC2HDM.N)%nat -> (j < PotC2HDM.N)%nat ->
    second_partial Ok PotC2HDM.N (TH PotC2HDM.N (PotC2HDM.SetCurvatureArrays p) (C2HDM_G2H2 (C_g K) (C_gs K)) (R2HDM_quarks K T c s) (R2HDM_leptons K T c s)) v i j
      (DS PotC2HDM.N (PotC2HDM.SetCurvatureArrays p) (C2HDM_G2H2 (C_g K) (C_gs K)) (R2HDM_quarks K T c s) (R2HDM_leptons K T c s) i j).
  Proof.
    apply debye_is_second; [apply (s4 _ _ _ _ _ _ (PotC2HDMProofs.tree_ok p))|apply C2HDM_G| |]; apply sym_of_mass; intros w a b L Ha Hb.
    - exact (sym_q _ _ _ _ _ _ _ _ _ a b (R2HDM_quarks_entries K T c s w V2 vDne L) Ha Hb).
    - exact (sym_l _ _ _ _ _ _ a b (R2HDM_leptons_entries K T c s w vLne L) Ha Hb).
  Qed.
  Lemma N2HDM_second p v i j : length v = PotN2HDM.N -> (i < PotN2HDM.N)%nat -> (j < PotN2HDM.N)%nat ->
    second_partial Ok PotN2HDM.N (TH PotN2HDM.N (PotN2HDM.SetCurvatureArrays p) (N2HDM_G2H2 (C_g K) (C_gs K)) (N2HDM_quarks K T c s) (N2HDM_leptons K T c s)) v i j
      (DS PotN2HDM.N (PotN2HDM.SetCurvatureArrays p) (N2HDM_G2H2 (C_g K) (C_gs K)) (N2HDM_quarks K T c s) (N2HDM_leptons K T c s) i j).
  Proof.
    apply debye_is_second; [apply (s4 _ _ _ _ _ _ (PotN2HDMProofs.tree_ok p))|apply N2HDM_G| |]; apply sym_of_mass; intros w a b L Ha Hb.
    - exact (sym_q _ _ _ _ _ _ _ _ _ a b (N2HDM_quarks_entries K T c s w V2 vDne L) Ha Hb).
    - exact (sym_l _ _ _ _ _ _ a b (N2HDM_leptons_entries K T c s w vLne L) Ha Hb).
  Qed.
End Two.

(** ** the formulas of the models with two doublets *)
Definition light_up (K : constants) : list R := [MassUp K; MassCharm K].
Definition light_down (K : constants) : list R := [MassDown K; MassStrange K].
Definition forgotten (first second : list nat) (K : constants) (t : yukawa_type) (c s : R) (i j : nat) : R :=
  on_diagonal first (forgotten_first t (light_down K) (mlep K) (vev0 K * c)) i j
  + on_diagonal second (forgotten_second t (light_up K) (light_down K) (mlep K) (vev0 K * s)) i j.
Lemma root_two x y : (sqrt 2 * x / y) * (sqrt 2 * x / y) = 2 * (x * x) * (/ y * / y).
Proof. unfold Rdiv. replace (sqrt 2 * x * / y * (sqrt 2 * x * / y)) with (sqrt 2 * sqrt 2 * (x * x) * (/ y * / y)) by ring. rewrite sqrt_sqrt by lra. reflexivity. Qed.
Section Formula.
  Variables (i0 : input) (t : yukawa_type) (c s : R).
  Notation K := (GetSMConstants i0).
  Notation T := (type_number t).
  Notation v1 := (vev0 K * c).
  Notation v2 := (vev0 K * s).
  Hypothesis V1 : v1 <> 0.
  Hypothesis V2 : v2 <> 0.
  Lemma R2HDM_formula p i j : (i < PotR2HDM.N)%nat -> (j < PotR2HDM.N)%nat ->
    DS PotR2HDM.N (PotR2HDM.SetCurvatureArrays p) (R2HDM_G2H2 (C_g K) (C_gs K)) (R2HDM_quarks K T c s) (R2HDM_leptons K T c s) i j =
    R2HDM_debye K T c s (PotR2HDM.p_L1 p) (PotR2HDM.p_L2 p) (PotR2HDM.p_L3 p) (PotR2HDM.p_L4 p) i j
    + forgotten [0; 1; 4; 5]%nat [2; 3; 6; 7]%nat K t c s i j.
  Proof.
    intros Hi Hj. rewrite sum_form. fold (pairing 12 (R2HDM_quarks K T c s) i j) (pairing 9 (R2HDM_leptons K T c s) i j). unfold PotR2HDM.N in *.
    rewrite (R2HDM_contract p i j Hi Hj), (R2HDM_gdiag _ _ i j Hi Hj), (R2HDM_pair_q i0 T c s V1 V2 i j Hi Hj), (R2HDM_pair_l i0 T c s V1 V2 i j Hi Hj).
    unfold R2HDM_debye, CTempC, forgotten, forgotten_first, forgotten_second, quark_share, lepton_share, mup, mdown, mlep, light_up, light_down, squares. cbn [fold_right].
    revert V1 V2. generalize (vev0 K * c) (vev0 K * s). intros v1 v2 V1 V2.
    destruct t; cbn [type_number Z.eqb Pos.eqb orb down_couples lepton_couples v_down v_lepton]; cbv zeta;
      cases_of i Hi; cases_of j Hj; cbn [on_diagonal Nat.eqb existsb orb]; rewrite ?(Rmult_assoc _ (sqrt 2 * _ / _) (sqrt 2 * _ / _)), ?root_two; field; auto.
  Qed.
  Lemma C2HDM_formula p i j : (i < PotC2HDM.N)%nat -> (j < PotC2HDM.N)%nat ->
    DS PotC2HDM.N (PotC2HDM.SetCurvatureArrays p) (C2HDM_G2H2 (C_g K) (C_gs K)) (R2HDM_quarks K T c s) (R2HDM_leptons K T c s) i j =
    R2HDM_debye K T c s (PotC2HDM.p_L1 p) (PotC2HDM.p_L2 p) (PotC2HDM.p_L3 p) (PotC2HDM.p_L4 p) i j
    + forgotten [0; 1; 4; 5]%nat [2; 3; 6; 7]%nat K t c s i j.
  Proof.
    intros Hi Hj. rewrite sum_form. fold (pairing 12 (R2HDM_quarks K T c s) i j) (pairing 9 (R2HDM_leptons K T c s) i j). unfold PotC2HDM.N in *.
    rewrite (C2HDM_contract p i j Hi Hj), (C2HDM_gdiag _ _ i j Hi Hj), (R2HDM_pair_q i0 T c s V1 V2 i j Hi Hj), (R2HDM_pair_l i0 T c s V1 V2 i j Hi Hj).
    unfold R2HDM_debye, CTempC, forgotten, forgotten_first, forgotten_second, quark_share, lepton_share, mup, mdown, mlep, light_up, light_down, squares. cbn [fold_right].
    revert V1 V2. generalize (vev0 K * c) (vev0 K * s). intros v1 v2 V1 V2.
    destruct t; cbn [type_number Z.eqb Pos.eqb orb down_couples lepton_couples v_down v_lepton]; cbv zeta;
      cases_of i Hi; cases_of j Hj; cbn [on_diagonal Nat.eqb existsb orb]; rewrite ?(Rmult_assoc _ (sqrt 2 * _ / _) (sqrt 2 * _ / _)), ?root_two; field; auto.
  Qed.
  Lemma N2HDM_formula p i j : (i < PotN2HDM.N)%nat -> (j < PotN2HDM.N)%nat ->
    DS PotN2HDM.N (PotN2HDM.SetCurvatureArrays p) (N2HDM_G2H2 (C_g K) (C_gs K)) (N2HDM_quarks K T c s) (N2HDM_leptons K T c s) i j =
    N2HDM_debye K T c s (PotN2HDM.p_L1 p) (PotN2HDM.p_L2 p) (PotN2HDM.p_L3 p) (PotN2HDM.p_L4 p) (PotN2HDM.p_NL6 p) (PotN2HDM.p_NL7 p) (PotN2HDM.p_NL8 p) i j
    + forgotten [0; 2; 4; 6]%nat [1; 3; 5; 7]%nat K t c s i j.
  Proof.
    intros Hi Hj. rewrite sum_form. fold (pairing 12 (N2HDM_quarks K T c s) i j) (pairing 9 (N2HDM_leptons K T c s) i j). unfold PotN2HDM.N in *.
    rewrite (N2HDM_contract p i j Hi Hj), (N2HDM_gdiag _ _ i j Hi Hj), (N2HDM_pair_q i0 T c s V1 V2 i j Hi Hj), (N2HDM_pair_l i0 T c s V1 V2 i j Hi Hj).
    unfold N2HDM_debye, CTempC, forgotten, forgotten_first, forgotten_second, quark_share, lepton_share, mup, mdown, mlep, light_up, light_down, squares. cbn [fold_right].
    revert V1 V2. generalize (vev0 K * c) (vev0 K * s). intros v1 v2 V1 V2.
    destruct t; cbn [type_number Z.eqb Pos.eqb orb down_couples lepton_couples v_down v_lepton]; cbv zeta;
      cases_of i Hi; cases_of j Hj; cbn [on_diagonal Nat.eqb existsb orb]; rewrite ?(Rmult_assoc _ (sqrt 2 * _ / _) (sqrt 2 * _ / _)), ?root_two; field; auto.
  Qed.
End Formula.
