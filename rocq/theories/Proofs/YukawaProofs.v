(** The tables of fermion couplings follow from the Yukawa Lagrangian. *)
From Coq Require Import Reals Lra Lia ZArith List Arith.
From Coquelicot Require Import Complex.
From Verif.Model Require Import Base Potential Tables SMConst Yukawa.
From Verif.Spec Require Import ScalarSpec GaugeSpec YukawaSpec.
From Verif.Proofs Require Import TabTac CKMProofs.
Import ListNotations.
Open Scope R_scope.

(** entries of the mass matrix *)
Definition entry_q (V : matrix33) (yu yd : nat -> C) (Hu Hd : doublet) (a b : quark) : C :=
  match a, b with
  | uR i, uL j | uL j, uR i => if Nat.eqb i j then yu i * Cconj (snd Hu) else RtoC 0
  | uR i, dL k | dL k, uR i => - (yu i * Cconj (fst Hu) * Cconj (V i k))
  | dR j, uL i | uL i, dR j => yd j * fst Hd * V i j
  | dR j, dL k | dL k, dR j => if Nat.eqb j k then yd j * snd Hd else RtoC 0
  | _, _ => RtoC 0
  end%C.
Definition entry_l (ye : nat -> C) (Hl : doublet) (a b : lepton) : C :=
  match a, b with
  | eR i, eL j | eL j, eR i => if Nat.eqb i j then ye i * snd Hl else RtoC 0
  | eR i, nL j | nL j, eR i => if Nat.eqb i j then ye i * fst Hl else RtoC 0
  | _, _ => RtoC 0
  end%C.
Lemma entry_q_sym V yu yd Hu Hd a b : entry_q V yu yd Hu Hd a b = entry_q V yu yd Hu Hd b a.
Proof. destruct a, b; reflexivity. Qed.
Lemma entry_l_sym ye Hl a b : entry_l ye Hl a b = entry_l ye Hl b a.
Proof. destruct a, b; reflexivity. Qed.
Lemma total_ext n f h : (forall i, (i < n)%nat -> f i = h i) -> total n f = total n h.
Proof. induction n as [|n IH]; intro E; [reflexivity|]. cbn. rewrite IH by (intros; apply E; lia). now rewrite E by lia. Qed.

Definition by_entries {F} n (lay : nat -> F) (M : nat -> nat -> C) (e : F -> F -> C) : Prop := forall i j, (i < n)%nat -> (j < n)%nat -> M i j = e (lay i) (lay j).

Lemma quark_form V yu yd Hu Hd psi lay : unitary33 V -> lay = layout_q \/ lay = layout_q' ->
  quadratic 12 (fun i j => entry_q V yu yd Hu Hd (lay i) (lay j)) (fun i => psi (lay i)) = (RtoC 2 * quark_yukawas V yu yd Hu Hd psi)%C.
Proof.
  intros [U _] L.
  unfold quadratic. set (hu1 := Cconj (fst Hu)). set (hu2 := Cconj (snd Hu)). set (hd1 := fst Hd). set (hd2 := snd Hd).
  assert (E : total 12 (fun i => total 12 (fun j => psi (lay i) * entry_q V yu yd Hu Hd (lay i) (lay j) * psi (lay j)))%C =
    (RtoC 2 * (csum3 (fun i => psi (uR i) * yu i * hu2 * psi (uL i)) - csum3 (fun i => csum3 (fun k => psi (uR i) * (yu i * hu1 * Cconj (V i k)) * psi (dL k)))
     + csum3 (fun j => csum3 (fun i => psi (dR j) * (yd j * hd1 * V i j) * psi (uL i))) + csum3 (fun j => psi (dR j) * yd j * hd2 * psi (dL j))))%C).
  { replace (RtoC 2) with (RtoC 1 + RtoC 1)%C by (rewrite <- RtoC_plus; reflexivity).
    destruct L as [-> | ->]; cbn [total layout_q layout_q' Nat.ltb Nat.leb Nat.sub Nat.div Nat.modulo Nat.divmod fst snd entry_q Nat.eqb]; unfold csum3; fold hu1 hu2 hd1 hd2; ring. }
  rewrite E. apply (f_equal (Cmult (RtoC 2))).
  assert (D : csum3 (fun j => psi (dR j) * yd j * hd2 * psi (dL j))%C =
    csum3 (fun j => csum3 (fun k => psi (dR j) * yd j * hd2 * psi (dL k) * csum3 (fun i => V i j * Cconj (V i k))))%C).
  { assert (F : forall f g : nat -> C, (forall j, (j < 3)%nat -> f j = g j) -> csum3 f = csum3 g).
    { intros f g Hf. unfold csum3. now rewrite !Hf by lia. }
    apply F. intros j Hj. transitivity (csum3 (fun k => psi (dR j) * yd j * hd2 * psi (dL k) * delta j k)%C).
    - destruct j as [|[|[|j]]]; [| | |lia]; unfold csum3, delta; cbn [Nat.eqb]; ring.
    - apply F. intros k Hk. now rewrite U. }
  rewrite D. unfold quark_yukawas, csum3, contract, tilde. cbn [fst snd]. fold hu1 hu2 hd1 hd2. ring.
Qed.
Lemma lepton_form ye Hl psi : quadratic 9 (fun i j => entry_l ye Hl (layout_l i) (layout_l j)) (fun i => psi (layout_l i)) = (RtoC 2 * lepton_yukawas ye Hl psi)%C.
Proof.
  replace (RtoC 2) with (RtoC 1 + RtoC 1)%C by (rewrite <- RtoC_plus; reflexivity).
  unfold quadratic, lepton_yukawas, csum3, contract. cbn [total layout_l Nat.ltb Nat.leb Nat.sub Nat.div Nat.divmod Nat.even fst snd entry_l Nat.eqb]. ring.
Qed.
Lemma quark_of_entries V yu yd Hu Hd M lay : unitary33 V -> lay = layout_q \/ lay = layout_q' -> by_entries 12 lay M (entry_q V yu yd Hu Hd) ->
  mass_matrix_of 12 lay M (quark_yukawas V yu yd Hu Hd).
Proof.
  intros U L E. split.
  - intros i j Hi Hj. rewrite !E by assumption. apply entry_q_sym.
  - intro psi. rewrite <- (quark_form V yu yd Hu Hd psi lay U L). apply total_ext. intros i Hi. apply total_ext. intros j Hj. now rewrite E.
Qed.
Lemma lepton_of_entries ye Hl M : by_entries 9 layout_l M (entry_l ye Hl) -> mass_matrix_of 9 layout_l M (lepton_yukawas ye Hl).
Proof.
  intros E. split.
  - intros i j Hi Hj. rewrite !E by assumption. apply entry_l_sym.
  - intro psi. rewrite <- (lepton_form ye Hl psi). apply total_ext. intros i Hi. apply total_ext. intros j Hj. now rewrite E.
Qed.

(** products of couplings and fields *)
Lemma yuk m v a b : v <> 0 -> (yukawa m v * cfield a b)%C = (RtoC m / RtoC v * (RtoC a + Ci * RtoC b))%C.
Proof.
  intro V. pose proof (sqrt_lt_R0 2 ltac:(lra)) as S. rewrite <- RtoC_div by exact V. unfold yukawa, cfield, Ci, Cmult, Cplus, RtoC; cbn [fst snd].
  apply injective_projections; cbn [fst snd]; field; split; lra.
Qed.
Lemma yukc m v a b : v <> 0 -> (yukawa m v * Cconj (cfield a b))%C = (RtoC m / RtoC v * (RtoC a - Ci * RtoC b))%C.
Proof.
  intro V. pose proof (sqrt_lt_R0 2 ltac:(lra)) as S. rewrite <- RtoC_div by exact V. unfold Cminus, yukawa, cfield, Cconj, Ci, Cmult, Cplus, Copp, RtoC; cbn [fst snd].
  apply injective_projections; cbn [fst snd]; field; split; lra.
Qed.
Lemma RtoC_ne v : v <> 0 -> RtoC v <> RtoC 0.
Proof. intros H E. apply H. injection E. auto. Qed.

Definition m_up (K : constants) : nat -> R := three (MassUp K) (MassCharm K) (MassTop K).
Definition m_down (K : constants) : nat -> R := three (MassDown K) (MassStrange K) (MassBottom K).
Definition m_lep (K : constants) : nat -> R := three (MassElectron K) (MassMu K) (MassTau K).
Lemma in_range n i : (i < n)%nat -> In i (seq 0 n).
Proof. intro H. apply in_seq. lia. Qed.
Ltac cases_of i H := apply in_range in H; cbn [seq In] in H; repeat (destruct H as [H|H]; [subst i|]); [..|destruct H].
Ltac entry_solve V := cbv -[C IZR RtoC Cplus Cmult Cdiv Copp Cminus Cconj Ci yukawa cfield V11 V12 V13 V21 V22 V23 V31 V32 V33 MassUp MassDown MassStrange MassTop MassCharm MassBottom MassTau MassMu MassElectron];
  rewrite ?yukc, ?yuk by exact V; first [reflexivity | ring | (field; apply RtoC_ne; exact V)].
Lemma SM_quarks_entries K v w : v <> 0 -> length w = 4%nat ->
  by_entries 12 layout_q (fermion_mass 4 (of_table (SM_quarks K v)) w) (entry_q (CKM K) (fun i => yukawa (m_up K i) v) (fun i => yukawa (m_down K i) v) (sm_doublet w) (sm_doublet w)).
Proof.
  intros V L i j Hi Hj. destruct_list w L. cases_of i Hi; cases_of j Hj; entry_solve V.
Qed.
Lemma SM_leptons_entries K v w : v <> 0 -> length w = 4%nat ->
  by_entries 9 layout_l (fermion_mass 4 (of_table (SM_leptons K v)) w) (entry_l (fun i => yukawa (m_lep K i) v) (sm_doublet w)).
Proof. intros V L i j Hi Hj. destruct_list w L. cases_of i Hi; cases_of j Hj; entry_solve V. Qed.
Lemma CxSM_quarks_entries K v w : v <> 0 -> length w = 6%nat ->
  by_entries 12 layout_q (fermion_mass 6 (of_table (CxSM_quarks K v)) w) (entry_q (CKM K) (fun i => yukawa (m_up K i) v) (fun i => yukawa (m_down K i) v) (cxsm_doublet w) (cxsm_doublet w)).
Proof. intros V L i j Hi Hj. destruct_list w L. cases_of i Hi; cases_of j Hj; entry_solve V. Qed.
Lemma CxSM_leptons_entries K v w : v <> 0 -> length w = 6%nat ->
  by_entries 9 layout_l (fermion_mass 6 (of_table (CxSM_leptons K v)) w) (entry_l (fun i => yukawa (m_lep K i) v) (cxsm_doublet w)).
Proof. intros V L i j Hi Hj. destruct_list w L. cases_of i Hi; cases_of j Hj; entry_solve V. Qed.
Lemma CPintheDark_quarks_entries K v w : v <> 0 -> length w = 9%nat ->
  by_entries 12 layout_q' (fermion_mass 9 (of_table (CPintheDark_quarks K v)) w) (entry_q (CKM K) (fun i => yukawa (m_up K i) v) (fun i => yukawa (m_down K i) v) (first_doublet w) (first_doublet w)).
Proof. intros V L i j Hi Hj. destruct_list w L. cases_of i Hi; cases_of j Hj; entry_solve V. Qed.
Lemma CPintheDark_leptons_entries K v w : v <> 0 -> length w = 9%nat ->
  by_entries 9 layout_l (fermion_mass 9 (of_table (CPintheDark_leptons K v)) w) (entry_l (fun i => yukawa (m_lep K i) v) (first_doublet w)).
Proof. intros V L i j Hi Hj. destruct_list w L. cases_of i Hi; cases_of j Hj; entry_solve V. Qed.

Lemma minus_one : RtoC (-1) = (- RtoC 1)%C.
Proof. rewrite <- RtoC_opp. reflexivity. Qed.
Ltac entry_solve2 V2 VD := cbv -[C IZR Rdiv RtoC Cplus Cmult Cdiv Copp Cminus Cconj Ci yukawa cfield V11 V12 V13 V21 V22 V23 V31 V32 V33 MassUp MassDown MassStrange MassTop MassCharm MassBottom MassTau MassMu MassElectron];
  rewrite ?minus_one; rewrite ?RtoC_div by first [exact V2 | exact VD]; rewrite ?yukc, ?yuk by first [exact V2 | exact VD]; first [reflexivity | ring | (field; apply RtoC_ne; first [exact V2 | exact VD])].
Definition pick (b : bool) (x y : doublet) : doublet := if b then y else x.
Lemma R2HDM_quarks_entries K T c s w : let v1 := vev0 K * c in let v2 := vev0 K * s in let vD := v_down T v1 v2 in
  v2 <> 0 -> vD <> 0 -> length w = 8%nat ->
  by_entries 12 layout_q (fermion_mass 8 (R2HDM_quarks K T c s) w)
    (entry_q (CKM K) (fun i => yukawa (m_up K i) v2) (fun i => yukawa (m_down K i) vD) (second_doublet w) (pick (orb (Z.eqb T 1) (Z.eqb T 3)) (first_doublet w) (second_doublet w))).
Proof.
  intros v1 v2 vD V2 VD L i j Hi Hj. destruct_list w L. unfold fermion_mass, R2HDM_quarks. cbv zeta. fold v1 v2. fold vD. clearbody vD v2. clear v1.
  generalize (orb (Z.eqb T 1) (Z.eqb T 3)). intros [|]; cases_of i Hi; cases_of j Hj; entry_solve2 V2 VD.
Qed.
Lemma R2HDM_leptons_entries K T c s w : let v1 := vev0 K * c in let v2 := vev0 K * s in let vL := v_lepton T v1 v2 in
  vL <> 0 -> length w = 8%nat ->
  by_entries 9 layout_l (fermion_mass 8 (R2HDM_leptons K T c s) w)
    (entry_l (fun i => yukawa (m_lep K i) vL) (pick (orb (Z.eqb T 1) (Z.eqb T 4)) (first_doublet w) (second_doublet w))).
Proof.
  intros v1 v2 vL VL L i j Hi Hj. destruct_list w L. unfold fermion_mass, R2HDM_leptons. cbv zeta. fold v1 v2. fold vL. clearbody vL. clear v1 v2.
  generalize (orb (Z.eqb T 1) (Z.eqb T 4)). intros [|]; cases_of i Hi; cases_of j Hj; entry_solve2 VL VL.
Qed.
Lemma N2HDM_quarks_entries K T c s w : let v1 := vev0 K * c in let v2 := vev0 K * s in let vD := v_down T v1 v2 in
  v2 <> 0 -> vD <> 0 -> length w = 9%nat ->
  by_entries 12 layout_q (fermion_mass 9 (N2HDM_quarks K T c s) w)
    (entry_q (CKM K) (fun i => yukawa (m_up K i) v2) (fun i => yukawa (m_down K i) vD) (n2hdm_second w) (pick (orb (Z.eqb T 1) (Z.eqb T 3)) (n2hdm_first w) (n2hdm_second w))).
Proof.
  intros v1 v2 vD V2 VD L i j Hi Hj. destruct_list w L. unfold fermion_mass, N2HDM_quarks. cbv zeta. fold v1 v2. fold vD. clearbody vD v2. clear v1.
  generalize (orb (Z.eqb T 1) (Z.eqb T 3)). intros [|]; cases_of i Hi; cases_of j Hj; entry_solve2 V2 VD.
Qed.
Lemma N2HDM_leptons_entries K T c s w : let v1 := vev0 K * c in let v2 := vev0 K * s in let vL := v_lepton T v1 v2 in
  vL <> 0 -> length w = 9%nat ->
  by_entries 9 layout_l (fermion_mass 9 (N2HDM_leptons K T c s) w)
    (entry_l (fun i => yukawa (m_lep K i) vL) (pick (orb (Z.eqb T 1) (Z.eqb T 4)) (n2hdm_first w) (n2hdm_second w))).
Proof.
  intros v1 v2 vL VL L i j Hi Hj. destruct_list w L. unfold fermion_mass, N2HDM_leptons. cbv zeta. fold v1 v2. fold vL. clearbody vL. clear v1 v2.
  generalize (orb (Z.eqb T 1) (Z.eqb T 4)). intros [|]; cases_of i Hi; cases_of j Hj; entry_solve2 VL VL.
Qed.
