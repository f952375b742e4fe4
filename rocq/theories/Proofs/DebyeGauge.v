(** Uniqueness of second derivatives, the cut, and the screening masses of the gauge bosons. *)
From Coq Require Import Reals Lra Lia ZArith List Permutation Arith.
From Coquelicot Require Import Complex.
From Verif.Model Require Import Base Potential Tables Gauge SMConst Yukawa Debye.
From Verif.Model Require PotSM PotCxSM PotR2HDM PotC2HDM PotN2HDM PotCPintheDark.
From Verif.Spec Require Import NumDerivSpec PotentialSpec ScalarSpec GaugeSpec YukawaSpec DebyeSpec.
From Verif.Proofs Require Import DerivLib NumDerivProofs PotentialProofs VevProofs TensorProofs Contract Contract2 TabTac CKMProofs YukawaProofs DebyeProofs DebyeModels DebyeTables DebyeMass.
From Verif.Proofs Require PotSMProofs PotCxSMProofs PotR2HDMProofs PotC2HDMProofs PotN2HDMProofs PotCPintheDarkProofs.
Import ListNotations.
Open Scope R_scope.

(** ** uniqueness *)
Lemma second_unique {E} (ok : R -> E) n f v i j d1 d2 : (forall x y, ok x = ok y -> x = y) -> length v = n -> (j < n)%nat ->
  second_partial ok n f v i j d1 -> second_partial ok n f v i j d2 -> d1 = d2.
Proof.
  intros OK LV Hj (g1 & A1 & h1 & B1 & D1) (g2 & A2 & h2 & B2 & D2).
  assert (G : forall w, length w = n -> g1 w = g2 w).
  { intros w L. destruct (A1 w L) as (k1 & P1 & Q1), (A2 w L) as (k2 & P2 & Q2).
    assert (forall t, k1 t = k2 t) by (intro t; apply OK; now rewrite <- P1, <- P2).
    eapply uniqueness_limite; [exact Q1|]. apply (derivable_pt_lim_ext k2); [intro; now symmetry|exact Q2]. }
  eapply uniqueness_limite; [exact D1|]. apply (derivable_pt_lim_ext h2); [|exact D2].
  intro t. rewrite <- B1, <- B2. symmetry. apply G. rewrite moved_length; lia.
Qed.
Lemma sq_pos x : x <> 0 -> 0 < x ^ 2.
Proof. intro H. apply Rsqr_pos_lt in H. unfold Rsqr in H. lra. Qed.
Lemma squares_pos l : 0 <= squares l. Proof. unfold squares. induction l as [|x l IH]; cbn [fold_right]; [lra|]. pose proof (pow2_ge_0 x). lra. Qed.
Lemma shares_pos m v : v <> 0 -> 0 <= quark_share m v /\ 0 <= lepton_share m v.
Proof.
  intro V. pose proof (squares_pos m). assert (0 < v ^ 2) by (apply sq_pos; exact V). unfold quark_share, lepton_share, Rdiv.
  split; apply Rmult_le_pos; try assumption; left; apply Rinv_0_lt_compat; lra.
Qed.
Lemma forgotten_charm i0 t c s : let K := GetSMConstants i0 in vev0 K * c <> 0 -> vev0 K * s <> 0 -> i_MassCharm i0 <> 0 ->
  0 < forgotten_second t (light_up K) (light_down K) (mlep K) (vev0 K * s).
Proof.
  intros K V1 V2 M. unfold forgotten_second. pose proof (proj1 (shares_pos (light_down K) _ V2)). pose proof (proj2 (shares_pos (mlep K) _ V2)).
  assert (0 < quark_share (light_up K) (vev0 K * s)).
  { unfold quark_share, light_up, squares, Rdiv. cbn [fold_right]. apply Rmult_lt_0_compat.
    - change (MassCharm K) with (i_MassCharm i0). assert (0 < i_MassCharm i0 ^ 2) by (apply sq_pos; exact M). pose proof (pow2_ge_0 (MassUp K)). lra.
    - apply Rinv_0_lt_compat. assert (0 < (vev0 K * s) ^ 2) by (apply sq_pos; exact V2). lra. }
  destruct t; cbn [down_couples lepton_couples]; lra.
Qed.

(** ** the cut *)
Lemma cut_spec x : (Rabs x <= 1 / 100000 -> cut x = 0) /\ (1 / 100000 < Rabs x -> cut x = x) /\ Rabs (cut x - x) <= 1 / 100000.
Proof.
  unfold cut. destruct (Rle_dec _ _) as [L|N]; (split; [intro; try lra|split; [intro; try lra|]]).
  - replace (0 - x) with (- x) by ring. rewrite Rabs_Ropp. exact L.
  - replace (x - x) with 0 by ring. rewrite Rabs_R0. lra.
Qed.

(** ** gauge bosons *)
Lemma count_ext (P Q : nat -> bool) l : forall c, (forall i, In i l -> P i = Q i) ->
  fold_left (fun c i => if P i then c else S c) l c = fold_left (fun c i => if Q i then c else S c) l c.
Proof. induction l as [|a l IH]; intros c H; cbn; [reflexivity|]. rewrite (H a) by now left. apply IH. intros. apply H. now right. Qed.
Definition coupled (n : nat) (G : tensor R) : nat := fold_left (fun c i => if Req_EM_T (G [0; 0; i; i]%nat) 0 then c else S c) (seq 0 n) 0%nat.
Definition as_bool {A B : Prop} (d : {A} + {B}) : bool := if d then true else false.
Lemma coupled_count n G (l : list nat) (x : R) : x <> 0 -> (forall i, (i < n)%nat -> G [0; 0; i; i]%nat = if existsb (Nat.eqb i) l then x else 0) ->
  coupled n G = fold_left (fun c i => if negb (existsb (Nat.eqb i) l) then c else S c) (seq 0 n) 0%nat.
Proof.
  intros X H. unfold coupled. transitivity (fold_left (fun c i => if as_bool (Req_EM_T (G [0; 0; i; i]%nat) 0) then c else S c) (seq 0 n) 0%nat).
  - assert (A : forall q m, fold_left (fun c i => if Req_EM_T (G [0; 0; i; i]%nat) 0 then c else S c) q m =
      fold_left (fun c i => if as_bool (Req_EM_T (G [0; 0; i; i]%nat) 0) then c else S c) q m).
    { induction q as [|a q IH]; intro m; cbn [fold_left]; [reflexivity|]. destruct (Req_EM_T _ _); cbn [as_bool]; apply IH. }
    apply A.
  - apply count_ext. intros i I. apply in_seq in I. rewrite H by lia. destruct (existsb _ _); destruct (Req_EM_T _ _); cbn; congruence || lra.
Qed.
Lemma gauge_generic n G (m : nat) x : (coupled n G = m) -> (m <> 0)%nat ->
  (forall i, (i < 4)%nat -> sumR n (fun k => G [i; i; k; k]) = INR m * x i) ->
  exists D, CalculateDebyeGauge None n G = Some D /\ forall i j, (i < 4)%nat -> D i j = cut (if Nat.eqb i j then 2 / 3 * (INR m / 8 + 5) * x i else 0).
Proof.
  intros C M S. unfold CalculateDebyeGauge. fold (coupled n G). cbv zeta. rewrite C. destruct (Nat.eqb_spec m 0) as [E|_]; [congruence|].
  eexists. split; [reflexivity|]. intros i j Hi. cbv beta. rewrite (accum_sum n _ (fun k => G [i; i; k; k])) by reflexivity. rewrite (S i Hi).
  destruct (Nat.eqb i j); [|reflexivity]. f_equal. field. now apply not_0_INR.
Qed.
Definition xg (g gs : R) (i : nat) : R := match i with 3%nat => gs * gs / 2 | _ => g * g / 2 end.
Lemma half_ne g : g <> 0 -> g * g / 2 <> 0.
Proof. intro G. assert (0 < g * g) by (apply Rsqr_pos_lt in G; exact G). lra. Qed.
Ltac gauge_sums i Hi := cases_of i Hi; tabcbv; field.
Lemma SM_gauge g gs : g <> 0 -> exists D, CalculateDebyeGauge None PotSM.N (assign (SM_G2H2 g gs) zero_tensor) = Some D /\
  forall i j, (i < 4)%nat -> (j < 4)%nat -> D i j = cut (screening g gs 1 i j).
Proof.
  intro G. destruct (gauge_generic PotSM.N (assign (SM_G2H2 g gs) zero_tensor) 4 (xg g gs)) as (D & E & H).
  - rewrite (coupled_count _ _ [0; 1; 2; 3]%nat (g * g / 2) (half_ne g G)); [reflexivity|]. intros i Hi. gauge_sums i Hi.
  - discriminate.
  - intros i Hi. gauge_sums i Hi.
  - exists D. split; [exact E|]. intros i j Hi Hj. rewrite H by exact Hi. f_equal. unfold screening. destruct (Nat.eqb i j); [|reflexivity].
    cases_of i Hi; cbn [Nat.ltb Nat.leb xg INR]; unfold su2_screening, u1_screening; cbn [INR]; field.
Qed.
Lemma CxSM_gauge g gs : g <> 0 -> exists D, CalculateDebyeGauge None PotCxSM.N (assign (CxSM_G2H2 g gs) zero_tensor) = Some D /\
  forall i j, (i < 4)%nat -> (j < 4)%nat -> D i j = cut (screening g gs 1 i j).
Proof.
  intro G. destruct (gauge_generic PotCxSM.N (assign (CxSM_G2H2 g gs) zero_tensor) 4 (xg g gs)) as (D & E & H).
  - rewrite (coupled_count _ _ [0; 1; 2; 3]%nat (g * g / 2) (half_ne g G)); [reflexivity|]. intros i Hi. gauge_sums i Hi.
  - discriminate.
  - intros i Hi. gauge_sums i Hi.
  - exists D. split; [exact E|]. intros i j Hi Hj. rewrite H by exact Hi. f_equal. unfold screening. destruct (Nat.eqb i j); [|reflexivity].
    cases_of i Hi; cbn [Nat.ltb Nat.leb xg INR]; unfold su2_screening, u1_screening; cbn [INR]; field.
Qed.
Lemma CPintheDark_gauge g gs : g <> 0 -> exists D, CalculateDebyeGauge None PotCPintheDark.N (assign (CPintheDark_G2H2 g gs) zero_tensor) = Some D /\
  forall i j, (i < 4)%nat -> (j < 4)%nat -> D i j = cut (screening g gs 2 i j).
Proof.
  intro G. destruct (gauge_generic PotCPintheDark.N (assign (CPintheDark_G2H2 g gs) zero_tensor) 8 (xg g gs)) as (D & E & H).
  - rewrite (coupled_count _ _ [0; 1; 2; 3; 4; 5; 6; 7]%nat (g * g / 2) (half_ne g G)); [reflexivity|]. intros i Hi. gauge_sums i Hi.
  - discriminate.
  - intros i Hi. gauge_sums i Hi.
  - exists D. split; [exact E|]. intros i j Hi Hj. rewrite H by exact Hi. f_equal. unfold screening. destruct (Nat.eqb i j); [|reflexivity].
    cases_of i Hi; cbn [Nat.ltb Nat.leb xg INR]; unfold su2_screening, u1_screening; cbn [INR]; field.
Qed.
Lemma two_doublets_gauge K n G : exists D, CalculateDebyeGauge (Some (two_doublet_gauge K)) n G = Some D /\
  forall i j, (i < 4)%nat -> (j < 4)%nat -> D i j = screening (C_g K) (C_gs K) 2 i j.
Proof.
  eexists. split; [reflexivity|]. intros i j Hi Hj. cases_of i Hi; cases_of j Hj; cbn [two_doublet_gauge screening Nat.eqb Nat.ltb Nat.leb]; unfold su2_screening, u1_screening; cbn [INR]; field.
Qed.

(** ** what is stored *)
Notation TH n c G := (thermal n 4 12 9 c (assign G zero_tensor)).
Definition stored (b : bool) (n : nat) (c : tensors) (G : table) Yq Yl : nat -> nat -> R := CalculateDebye b None n 4 12 9 (tL4 c) (assign G zero_tensor) Yq Yl.
Lemma final b n c G Yq Yl v i j : symmetric_tensor n 4 (tL4 c) -> diag_sym n G ->
  (forall a b k, (a < 12)%nat -> (b < 12)%nat -> (k < n)%nat -> Yq a b k = Yq b a k) ->
  (forall a b k, (a < 9)%nat -> (b < 9)%nat -> (k < n)%nat -> Yl a b k = Yl b a k) ->
  length v = n -> (i < n)%nat -> (j < n)%nat ->
  exists d, second_partial Ok n (TH n c G Yq Yl) v i j d /\ stored b n c G Yq Yl i j = cut d.
Proof.
  intros S4 SG SQ SL L Hi Hj. exists (debye_sum n 4 12 9 (tL4 c) (assign G zero_tensor) Yq Yl i j). split; [now apply debye_is_second|].
  unfold stored, CalculateDebye. destruct b; cbv zeta; (destruct (Nat.ltb j i); [|reflexivity]); f_equal; now apply debye_sym.
Qed.
Lemma SM_final b K p v i j : vev0 K <> 0 -> length v = PotSM.N -> (i < PotSM.N)%nat -> (j < PotSM.N)%nat -> exists d,
  second_partial Ok PotSM.N (TH PotSM.N (PotSM.SetCurvatureArrays p) (SM_G2H2 (C_g K) (C_gs K)) (of_table (SM_quarks K (vev0 K))) (of_table (SM_leptons K (vev0 K)))) v i j d /\
  stored b PotSM.N (PotSM.SetCurvatureArrays p) (SM_G2H2 (C_g K) (C_gs K)) (of_table (SM_quarks K (vev0 K))) (of_table (SM_leptons K (vev0 K))) i j = cut d.
Proof.
  intros V. apply final; [apply (s4 _ _ _ _ _ _ (PotSMProofs.tree_ok p))|apply SM_G| |]; apply sym_of_mass; intros w a b' L Ha Hb.
  - exact (sym_q _ _ _ _ _ _ _ _ _ a b' (SM_quarks_entries K (vev0 K) w V L) Ha Hb).
  - exact (sym_l _ _ _ _ _ _ a b' (SM_leptons_entries K (vev0 K) w V L) Ha Hb).
Qed.
Lemma CxSM_final b K vh p v i j : vh <> 0 -> length v = PotCxSM.N -> (i < PotCxSM.N)%nat -> (j < PotCxSM.N)%nat -> exists d,
  second_partial Ok PotCxSM.N (TH PotCxSM.N (PotCxSM.SetCurvatureArrays p) (CxSM_G2H2 (C_g K) (C_gs K)) (of_table (CxSM_quarks K vh)) (of_table (CxSM_leptons K vh))) v i j d /\
  stored b PotCxSM.N (PotCxSM.SetCurvatureArrays p) (CxSM_G2H2 (C_g K) (C_gs K)) (of_table (CxSM_quarks K vh)) (of_table (CxSM_leptons K vh)) i j = cut d.
Proof.
  intros V. apply final; [apply (s4 _ _ _ _ _ _ (PotCxSMProofs.tree_ok p))|apply CxSM_G| |]; apply sym_of_mass; intros w a b' L Ha Hb.
  - exact (sym_q _ _ _ _ _ _ _ _ _ a b' (CxSM_quarks_entries K vh w V L) Ha Hb).
  - exact (sym_l _ _ _ _ _ _ a b' (CxSM_leptons_entries K vh w V L) Ha Hb).
Qed.
Lemma CPintheDark_final b K p v i j : vev0 K <> 0 -> length v = PotCPintheDark.N -> (i < PotCPintheDark.N)%nat -> (j < PotCPintheDark.N)%nat -> exists d,
  second_partial Ok PotCPintheDark.N (TH PotCPintheDark.N (PotCPintheDark.SetCurvatureArrays p) (CPintheDark_G2H2 (C_g K) (C_gs K)) (of_table (CPintheDark_quarks K (vev0 K))) (of_table (CPintheDark_leptons K (vev0 K)))) v i j d /\
  stored b PotCPintheDark.N (PotCPintheDark.SetCurvatureArrays p) (CPintheDark_G2H2 (C_g K) (C_gs K)) (of_table (CPintheDark_quarks K (vev0 K))) (of_table (CPintheDark_leptons K (vev0 K))) i j = cut d.
Proof.
  intros V. apply final; [apply (s4 _ _ _ _ _ _ (PotCPintheDarkProofs.tree_ok p))|apply CPintheDark_G| |]; apply sym_of_mass; intros w a b' L Ha Hb.
  - exact (sym_q _ _ _ _ _ _ _ _ _ a b' (CPintheDark_quarks_entries K (vev0 K) w V L) Ha Hb).
  - exact (sym_l _ _ _ _ _ _ a b' (CPintheDark_leptons_entries K (vev0 K) w V L) Ha Hb).
Qed.
(** a singlet with small couplings loses its thermal mass *)
Lemma pairing_zero nf Y k : (forall a b, (a < nf)%nat -> (b < nf)%nat -> Y a b k = RtoC 0) -> pairing nf Y k k = 0.
Proof. intro H. unfold pairing. apply sumR_zero. intros a Ha. apply sumR_zero. intros b Hb. rewrite H by assumption. rewrite re2_parts. unfold Re, Im, RtoC. cbn. ring. Qed.
Definition tiny : PotCxSM.params := PotCxSM.mkP 0 0 0 0 (1 / 100000) 0 0 0 0.
Lemma CxSM_cut K vh v : vh <> 0 -> length v = PotCxSM.N -> exists d, 0 < d /\
  second_partial Ok PotCxSM.N (TH PotCxSM.N (PotCxSM.SetCurvatureArrays tiny) (CxSM_G2H2 (C_g K) (C_gs K)) (of_table (CxSM_quarks K vh)) (of_table (CxSM_leptons K vh))) v 4 4 d /\
  forall b, stored b PotCxSM.N (PotCxSM.SetCurvatureArrays tiny) (CxSM_G2H2 (C_g K) (C_gs K)) (of_table (CxSM_quarks K vh)) (of_table (CxSM_leptons K vh)) 4 4 = 0.
Proof.
  intros V L. assert (E : debye_sum PotCxSM.N 4 12 9 (tL4 (PotCxSM.SetCurvatureArrays tiny)) (assign (CxSM_G2H2 (C_g K) (C_gs K)) zero_tensor) (of_table (CxSM_quarks K vh)) (of_table (CxSM_leptons K vh)) 4 4 = 1 / 1200000).
  { rewrite sum_form. fold (pairing 12 (of_table (CxSM_quarks K vh)) 4 4) (pairing 9 (of_table (CxSM_leptons K vh)) 4 4).
    rewrite !pairing_zero. 
    - tabcbv. field.
    - intros a b Ha Hb. cases_of a Ha; cases_of b Hb; vm_compute; reflexivity.
    - intros a b Ha Hb. cases_of a Ha; cases_of b Hb; vm_compute; reflexivity. }
  exists (1 / 1200000). split; [lra|]. split.
  - rewrite <- E. apply CxSM_second; [exact V|exact L|unfold PotCxSM.N; lia..].
  - intro b. unfold stored, CalculateDebye. destruct b; cbv zeta; cbn [Nat.ltb Nat.leb]; rewrite E; apply cut_spec; rewrite Rabs_right; lra.
Qed.
