(** Lagrangians and masses of the fermions in the six models. *)
From Coq Require Import Reals Lra Lia ZArith List Arith.
From Coquelicot Require Import Complex.
From Verif.Model Require Import Base Potential Tables SMConst Yukawa Vacua.
From Verif.Model Require PotSM PotCxSM PotR2HDM PotC2HDM PotN2HDM PotCPintheDark.
From Verif.Spec Require Import PotentialSpec ScalarSpec GaugeSpec YukawaSpec.
From Verif.Proofs Require Import TabTac CKMProofs YukawaProofs VacTac VacuumCore VacuaProofs GaugeMass.
Import ListNotations.
Open Scope R_scope.

(** Lagrangians *)
Lemma SM_lagrangian i w : let K := GetSMConstants i in vev0 K <> 0 -> length w = PotSM.N ->
  mass_matrix_of 12 layout_q (fermion_mass PotSM.N (of_table (SM_quarks K (vev0 K))) w)
    (quark_yukawas (CKM K) (fun g => yukawa (m_up K g) (vev0 K)) (fun g => yukawa (m_down K g) (vev0 K)) (sm_doublet w) (sm_doublet w)) /\
  mass_matrix_of 9 layout_l (fermion_mass PotSM.N (of_table (SM_leptons K (vev0 K))) w) (lepton_yukawas (fun g => yukawa (m_lep K g) (vev0 K)) (sm_doublet w)).
Proof.
  intros K V L. split.
  - apply quark_of_entries; [apply CKM_unitary|now left|now apply SM_quarks_entries].
  - apply lepton_of_entries. now apply SM_leptons_entries.
Qed.
Lemma CxSM_lagrangian i vh w : let K := GetSMConstants i in vh <> 0 -> length w = PotCxSM.N ->
  mass_matrix_of 12 layout_q (fermion_mass PotCxSM.N (of_table (CxSM_quarks K vh)) w)
    (quark_yukawas (CKM K) (fun g => yukawa (m_up K g) vh) (fun g => yukawa (m_down K g) vh) (cxsm_doublet w) (cxsm_doublet w)) /\
  mass_matrix_of 9 layout_l (fermion_mass PotCxSM.N (of_table (CxSM_leptons K vh)) w) (lepton_yukawas (fun g => yukawa (m_lep K g) vh) (cxsm_doublet w)).
Proof.
  intros K V L. split.
  - apply quark_of_entries; [apply CKM_unitary|now left|now apply CxSM_quarks_entries].
  - apply lepton_of_entries. now apply CxSM_leptons_entries.
Qed.
Lemma CPintheDark_lagrangian i w : let K := GetSMConstants i in vev0 K <> 0 -> length w = PotCPintheDark.N ->
  mass_matrix_of 12 layout_q' (fermion_mass PotCPintheDark.N (of_table (CPintheDark_quarks K (vev0 K))) w)
    (quark_yukawas (CKM K) (fun g => yukawa (m_up K g) (vev0 K)) (fun g => yukawa (m_down K g) (vev0 K)) (first_doublet w) (first_doublet w)) /\
  mass_matrix_of 9 layout_l (fermion_mass PotCPintheDark.N (of_table (CPintheDark_leptons K (vev0 K))) w) (lepton_yukawas (fun g => yukawa (m_lep K g) (vev0 K)) (first_doublet w)).
Proof.
  intros K V L. split.
  - apply quark_of_entries; [apply CKM_unitary|now right|now apply CPintheDark_quarks_entries].
  - apply lepton_of_entries. now apply CPintheDark_leptons_entries.
Qed.
Lemma R2HDM_lagrangian i t c s w : let K := GetSMConstants i in let v1 := vev0 K * c in let v2 := vev0 K * s in v1 <> 0 -> v2 <> 0 -> length w = PotR2HDM.N ->
  mass_matrix_of 12 layout_q (fermion_mass PotR2HDM.N (R2HDM_quarks K (type_number t) c s) w)
    (quark_yukawas (CKM K) (fun g => yukawa (m_up K g) v2) (fun g => yukawa (m_down K g) (down_couples t v1 v2))
       (second_doublet w) (down_couples t (first_doublet w) (second_doublet w))) /\
  mass_matrix_of 9 layout_l (fermion_mass PotR2HDM.N (R2HDM_leptons K (type_number t) c s) w)
    (lepton_yukawas (fun g => yukawa (m_lep K g) (lepton_couples t v1 v2)) (lepton_couples t (first_doublet w) (second_doublet w))).
Proof.
  intros K v1 v2 V1 V2 L. split.
  - apply quark_of_entries; [apply CKM_unitary|now left|].
    destruct t; refine (R2HDM_quarks_entries K _ c s w _ _ _); assumption.
  - apply lepton_of_entries. destruct t; refine (R2HDM_leptons_entries K _ c s w _ _); assumption.
Qed.
Lemma N2HDM_lagrangian i t c s w : let K := GetSMConstants i in let v1 := vev0 K * c in let v2 := vev0 K * s in v1 <> 0 -> v2 <> 0 -> length w = PotN2HDM.N ->
  mass_matrix_of 12 layout_q (fermion_mass PotN2HDM.N (N2HDM_quarks K (type_number t) c s) w)
    (quark_yukawas (CKM K) (fun g => yukawa (m_up K g) v2) (fun g => yukawa (m_down K g) (down_couples t v1 v2))
       (n2hdm_second w) (down_couples t (n2hdm_first w) (n2hdm_second w))) /\
  mass_matrix_of 9 layout_l (fermion_mass PotN2HDM.N (N2HDM_leptons K (type_number t) c s) w)
    (lepton_yukawas (fun g => yukawa (m_lep K g) (lepton_couples t v1 v2)) (lepton_couples t (n2hdm_first w) (n2hdm_second w))).
Proof.
  intros K v1 v2 V1 V2 L. split.
  - apply quark_of_entries; [apply CKM_unitary|now left|].
    destruct t; refine (N2HDM_quarks_entries K _ c s w _ _ _); assumption.
  - apply lepton_of_entries. destruct t; refine (N2HDM_leptons_entries K _ c s w _ _); assumption.
Qed.

(** masses in a neutral vacuum *)
Lemma csum_ext n f h : (forall i, (i < n)%nat -> f i = h i) -> csum n f = csum n h.
Proof. induction n as [|n IH]; intro E; [reflexivity|]. cbn. rewrite IH by (intros; apply E; lia). now rewrite E by lia. Qed.
Lemma quark_masses V yu yd Hu Hd lay n Y w mu md : lay = layout_q \/ lay = layout_q' -> by_entries 12 lay (fermion_mass n Y w) (entry_q V yu yd Hu Hd) ->
  fst Hu = RtoC 0 -> fst Hd = RtoC 0 -> (forall g, (yu g * Cconj (snd Hu))%C = RtoC (mu g)) -> (forall g, (yd g * snd Hd)%C = RtoC (md g)) ->
  has_masses 12 (fermion_mass_squared 12 n Y w) (fun i => quark_mass mu md (lay i)).
Proof.
  intros La E U0 D0 U D i j Hi Hj. unfold fermion_mass_squared.
  rewrite (csum_ext 12 _ (fun l => Cconj (entry_q V yu yd Hu Hd (lay i) (lay l)) * entry_q V yu yd Hu Hd (lay l) (lay j))%C)
    by (intros l Hl; now rewrite !E).
  assert (F : forall a b, entry_q V yu yd Hu Hd a b = match a, b with
    | uR i, uL j | uL j, uR i => if Nat.eqb i j then RtoC (mu i) else RtoC 0
    | dR j, dL k | dL k, dR j => if Nat.eqb j k then RtoC (md j) else RtoC 0
    | _, _ => RtoC 0 end).
  { intros a b. destruct a, b; cbn [entry_q]; rewrite ?U0, ?D0, ?U, ?D; try reflexivity; try (now destruct (Nat.eqb _ _)); replace (Cconj (RtoC 0)) with (RtoC 0) by (unfold Cconj, RtoC; cbn [fst snd]; f_equal; ring); ring. }
  rewrite (csum_ext 12 _ (fun l => Cconj (match lay i, lay l with
    | uR i, uL j | uL j, uR i => if Nat.eqb i j then RtoC (mu i) else RtoC 0
    | dR j, dL k | dL k, dR j => if Nat.eqb j k then RtoC (md j) else RtoC 0
    | _, _ => RtoC 0 end) * match lay l, lay j with
    | uR i, uL j | uL j, uR i => if Nat.eqb i j then RtoC (mu i) else RtoC 0
    | dR j, dL k | dL k, dR j => if Nat.eqb j k then RtoC (md j) else RtoC 0
    | _, _ => RtoC 0 end)%C) by (intros l Hl; now rewrite !F).
  clear E F U D U0 D0.
  assert (C0 : forall r, Cconj (RtoC r) = RtoC r) by (intro r; unfold Cconj, RtoC; cbn [fst snd]; f_equal; ring).
  destruct La as [-> | ->]; cases_of i Hi; cases_of j Hj; cbn [csum layout_q layout_q' Nat.ltb Nat.leb Nat.sub Nat.div Nat.modulo Nat.divmod fst snd Nat.eqb quark_mass];
    rewrite !C0; rewrite <- ?RtoC_mult, <- ?RtoC_plus; f_equal; ring.
Qed.
Lemma lepton_masses ye Hl n Y w me : by_entries 9 layout_l (fermion_mass n Y w) (entry_l ye Hl) ->
  fst Hl = RtoC 0 -> (forall g, (ye g * snd Hl)%C = RtoC (me g)) ->
  has_masses 9 (fermion_mass_squared 9 n Y w) (fun i => lepton_mass me (layout_l i)).
Proof.
  intros E L0 L i j Hi Hj. unfold fermion_mass_squared.
  rewrite (csum_ext 9 _ (fun l => Cconj (entry_l ye Hl (layout_l i) (layout_l l)) * entry_l ye Hl (layout_l l) (layout_l j))%C)
    by (intros l Hl'; now rewrite !E).
  assert (C0 : forall r, Cconj (RtoC r) = RtoC r) by (intro r; unfold Cconj, RtoC; cbn [fst snd]; f_equal; ring).
  cases_of i Hi; cases_of j Hj; cbn [csum layout_l Nat.ltb Nat.leb Nat.sub Nat.div Nat.divmod Nat.even fst snd Nat.eqb lepton_mass entry_l];
    rewrite ?L0, ?L; rewrite ?Cmult_0_r; rewrite ?C0; rewrite <- ?RtoC_mult, <- ?RtoC_plus; f_equal; ring.
Qed.

Lemma vac_u m v : v <> 0 -> (yukawa m v * Cconj (cfield v 0))%C = RtoC m.
Proof. intro V. rewrite yukc by exact V. field. now apply RtoC_ne. Qed.
Lemma vac_d m v : v <> 0 -> (yukawa m v * cfield v 0)%C = RtoC m.
Proof. intro V. rewrite yuk by exact V. field. now apply RtoC_ne. Qed.
Lemma cfield0 : cfield 0 0 = RtoC 0.
Proof. unfold cfield, RtoC, Rdiv. f_equal; ring. Qed.
Lemma SM_fermions i MH par p vev w : let K := GetSMConstants i in vev0 K <> 0 ->
  set_gen_SM (vev0 K) MH par = Ok (p, vev) -> placed 0 PotSM.N order_SM vev w ->
  has_masses 12 (fermion_mass_squared 12 PotSM.N (of_table (SM_quarks K (vev0 K))) w) (fun a => quark_mass (m_up K) (m_down K) (layout_q a)) /\
  has_masses 9 (fermion_mass_squared 9 PotSM.N (of_table (SM_leptons K (vev0 K))) w) (fun a => lepton_mass (m_lep K) (layout_l a)).
Proof.
  intros K V E P. apply (SM_w _ _ _ _ _ _ E) in P as ->. split.
  - eapply quark_masses; [now left|now apply SM_quarks_entries| | | |]; try apply cfield0; intro g; cbn [sm_doublet mkdoublet snd nth]; [now apply vac_u|now apply vac_d].
  - eapply lepton_masses; [now apply SM_leptons_entries| |]; try apply cfield0; intro g; cbn [sm_doublet mkdoublet snd nth]; now apply vac_d.
Qed.
Lemma CxSM_fermions i par p vev w : let K := GetSMConstants i in let vh := nth 0 par 0 in vh <> 0 ->
  set_gen_CxSM par = Ok (p, vev) -> placed 0 PotCxSM.N order_CxSM vev w ->
  has_masses 12 (fermion_mass_squared 12 PotCxSM.N (of_table (CxSM_quarks K vh)) w) (fun a => quark_mass (m_up K) (m_down K) (layout_q a)) /\
  has_masses 9 (fermion_mass_squared 9 PotCxSM.N (of_table (CxSM_leptons K vh)) w) (fun a => lepton_mass (m_lep K) (layout_l a)).
Proof.
  intros K vh V E P. apply (CxSM_w _ _ _ _ E) in P as ->. fold vh. split.
  - eapply quark_masses; [now left|now apply CxSM_quarks_entries| | | |]; try apply cfield0; intro g; cbn [cxsm_doublet mkdoublet snd nth]; [now apply vac_u|now apply vac_d].
  - eapply lepton_masses; [now apply CxSM_leptons_entries| |]; try apply cfield0; intro g; cbn [cxsm_doublet mkdoublet snd nth]; now apply vac_d.
Qed.
Lemma CPintheDark_fermions i par p vev w : let K := GetSMConstants i in vev0 K <> 0 ->
  set_gen_CPintheDark (vev0 K) par = Ok (p, vev) -> placed 0 PotCPintheDark.N order_CPintheDark vev w ->
  has_masses 12 (fermion_mass_squared 12 PotCPintheDark.N (of_table (CPintheDark_quarks K (vev0 K))) w) (fun a => quark_mass (m_up K) (m_down K) (layout_q' a)) /\
  has_masses 9 (fermion_mass_squared 9 PotCPintheDark.N (of_table (CPintheDark_leptons K (vev0 K))) w) (fun a => lepton_mass (m_lep K) (layout_l a)).
Proof.
  intros K V E P. apply (CPintheDark_w _ _ _ _ _ E) in P as ->. split.
  - eapply quark_masses; [now right|now apply CPintheDark_quarks_entries| | | |]; try apply cfield0; intro g; cbn [first_doublet mkdoublet snd nth]; [now apply vac_u|now apply vac_d].
  - eapply lepton_masses; [now apply CPintheDark_leptons_entries| |]; try apply cfield0; intro g; cbn [first_doublet mkdoublet snd nth]; now apply vac_d.
Qed.
(** two doublets, any Type *)
Definition scaled (r : R) (m : nat -> R) (g : nat) : R := m g * r.
Lemma vac_x m v x : v <> 0 -> (yukawa m v * cfield x 0)%C = RtoC (m * (x / v)).
Proof. intro V. rewrite yuk by exact V. rewrite RtoC_mult, RtoC_div by exact V. field. now apply RtoC_ne. Qed.
Lemma two_doublet_fermions K T c s : let v1 := vev0 K * c in let v2 := vev0 K * s in v1 <> 0 -> v2 <> 0 ->
  let w := [0; 0; 0; 0; v1; 0; v2; 0] in
  let rd := (if orb (Z.eqb T 1) (Z.eqb T 3) then v2 else v1) / v_down T v1 v2 in let rl := (if orb (Z.eqb T 1) (Z.eqb T 4) then v2 else v1) / v_lepton T v1 v2 in
  has_masses 12 (fermion_mass_squared 12 PotR2HDM.N (R2HDM_quarks K T c s) w) (fun a => quark_mass (m_up K) (scaled rd (m_down K)) (layout_q a)) /\
  has_masses 9 (fermion_mass_squared 9 PotR2HDM.N (R2HDM_leptons K T c s) w) (fun a => lepton_mass (scaled rl (m_lep K)) (layout_l a)).
Proof.
  intros v1 v2 V1 V2 w rd rl. subst w rd rl.
  assert (VD : v_down T v1 v2 <> 0) by (unfold v_down; repeat match goal with |- context [if ?b then _ else _] => destruct b end; assumption).
  assert (VL : v_lepton T v1 v2 <> 0) by (unfold v_lepton; repeat match goal with |- context [if ?b then _ else _] => destruct b end; assumption).
  split.
  - eapply quark_masses; [now left|now apply R2HDM_quarks_entries| | | |]; fold v1 v2; unfold pick, scaled; (try (destruct (orb _ _))); try apply cfield0; try intro g; cbn [first_doublet second_doublet mkdoublet snd nth]; first [now apply vac_u|now apply vac_x].
  - eapply lepton_masses; [now apply R2HDM_leptons_entries| |]; fold v1 v2; unfold pick, scaled; (destruct (orb _ _)); try apply cfield0; try intro g; cbn [first_doublet second_doublet mkdoublet snd nth]; now apply vac_x.
Qed.
Lemma N2HDM_two_doublet_fermions K T c s n : let v1 := vev0 K * c in let v2 := vev0 K * s in v1 <> 0 -> v2 <> 0 ->
  let w := [0; 0; 0; 0; 0; 0; v1; v2; n] in
  let rd := (if orb (Z.eqb T 1) (Z.eqb T 3) then v2 else v1) / v_down T v1 v2 in let rl := (if orb (Z.eqb T 1) (Z.eqb T 4) then v2 else v1) / v_lepton T v1 v2 in
  has_masses 12 (fermion_mass_squared 12 PotN2HDM.N (N2HDM_quarks K T c s) w) (fun a => quark_mass (m_up K) (scaled rd (m_down K)) (layout_q a)) /\
  has_masses 9 (fermion_mass_squared 9 PotN2HDM.N (N2HDM_leptons K T c s) w) (fun a => lepton_mass (scaled rl (m_lep K)) (layout_l a)).
Proof.
  intros v1 v2 V1 V2 w rd rl. subst w rd rl.
  assert (VD : v_down T v1 v2 <> 0) by (unfold v_down; repeat match goal with |- context [if ?b then _ else _] => destruct b end; assumption).
  assert (VL : v_lepton T v1 v2 <> 0) by (unfold v_lepton; repeat match goal with |- context [if ?b then _ else _] => destruct b end; assumption).
  split.
  - eapply quark_masses; [now left|now apply N2HDM_quarks_entries| | | |]; fold v1 v2; unfold pick, scaled; (try (destruct (orb _ _))); try apply cfield0; try intro g; cbn [n2hdm_first n2hdm_second mkdoublet snd nth]; first [now apply vac_u|now apply vac_x].
  - eapply lepton_masses; [now apply N2HDM_leptons_entries| |]; fold v1 v2; unfold pick, scaled; (destruct (orb _ _)); try apply cfield0; try intro g; cbn [n2hdm_first n2hdm_second mkdoublet snd nth]; now apply vac_x.
Qed.

Lemma vev_pos i : 0 < i_GF i -> 0 < vev0 (GetSMConstants i).
Proof.
  intro G. cbn [GetSMConstants vev0]. apply sqrt_lt_R0. pose proof (sqrt_lt_R0 2 ltac:(lra)). unfold Rdiv. rewrite Rmult_1_r, Rmult_1_l.
  apply Rmult_lt_0_compat; now apply Rinv_0_lt_compat.
Qed.
Lemma masses_ext_q n M mu md mu' md' lay : (forall g, mu g = mu' g) -> (forall g, md g = md' g) ->
  has_masses n M (fun a => quark_mass mu md (lay a)) -> has_masses n M (fun a => quark_mass mu' md' (lay a)).
Proof. intros A B H i j Hi Hj. rewrite (H i j Hi Hj). destruct (Nat.eqb i j); [|reflexivity]. destruct (lay i); cbn; now rewrite ?A, ?B. Qed.
Lemma masses_ext_l n M me me' lay : (forall g, me g = me' g) ->
  has_masses n M (fun a => lepton_mass me (lay a)) -> has_masses n M (fun a => lepton_mass me' (lay a)).
Proof. intros A H i j Hi Hj. rewrite (H i j Hi Hj). destruct (Nat.eqb i j); [|reflexivity]. destruct (lay i); cbn; now rewrite ?A. Qed.
Definition fermions_ok (nH : nat) (q l : nat -> nat -> nat -> C) (w : list R) (mu md me : nat -> R) : Prop :=
  has_masses 12 (fermion_mass_squared 12 nH q w) (fun a => quark_mass mu md (layout_q a)) /\
  has_masses 9 (fermion_mass_squared 9 nH l w) (fun a => lepton_mass me (layout_l a)).
Lemma scaled_by (nH : nat) (q l : nat -> nat -> nat -> C) w mu md me rd rl (r : R) : rd = r -> rl = r ->
  fermions_ok nH q l w mu (scaled rd md) (scaled rl me) -> fermions_ok nH q l w mu (fun g => md g * r) (fun g => me g * r).
Proof. intros -> -> [A B]. split; assumption. Qed.
Lemma scaled_one (nH : nat) (q l : nat -> nat -> nat -> C) w mu md me rd rl : rd = 1 -> rl = 1 ->
  fermions_ok nH q l w mu (scaled rd md) (scaled rl me) -> fermions_ok nH q l w mu md me.
Proof.
  intros -> -> [A B]. split.
  - revert A. apply masses_ext_q; [reflexivity|]. intro g. unfold scaled. ring.
  - revert B. apply masses_ext_l. intro g. unfold scaled. ring.
Qed.
Lemma ratios_ok t v1 v2 : v1 <> 0 -> v2 <> 0 -> let T := type_number t in
  (if orb (Z.eqb T 1) (Z.eqb T 3) then v2 else v1) / v_down T v1 v2 = 1 /\ (if orb (Z.eqb T 1) (Z.eqb T 4) then v2 else v1) / v_lepton T v1 v2 = 1.
Proof. intros A B T. subst T. destruct t; cbn; split; field; assumption. Qed.
Lemma ratios_other T v1 v2 : T <> 1%Z -> T <> 2%Z -> T <> 3%Z -> T <> 4%Z ->
  (if orb (Z.eqb T 1) (Z.eqb T 3) then v2 else v1) / v_down T v1 v2 = v1 / v2 /\ (if orb (Z.eqb T 1) (Z.eqb T 4) then v2 else v1) / v_lepton T v1 v2 = v1 / v2.
Proof.
  intros A B C0 D. unfold v_down, v_lepton. apply Z.eqb_neq in A, B, C0, D. rewrite A, B, C0, D. cbn. now split.
Qed.
Section TwoDoublets.
  Variables (i : input).
  Hypothesis G : 0 < i_GF i.
  Let K := GetSMConstants i.
  Lemma R2HDM_fermions par p vev c s w : nth 6 par 0 <> 0 -> set_gen_R2HDM (vev0 K) par = Ok (p, vev, (c, s)) -> placed 0 PotR2HDM.N order_R2HDM vev w ->
    let T := Type_of (nth 7 par 0) in
    (forall t, T = type_number t -> fermions_ok PotR2HDM.N (R2HDM_quarks K T c s) (R2HDM_leptons K T c s) w (m_up K) (m_down K) (m_lep K)) /\
    (T <> 1%Z -> T <> 2%Z -> T <> 3%Z -> T <> 4%Z ->
      fermions_ok PotR2HDM.N (R2HDM_quarks K T c s) (R2HDM_leptons K T c s) w (m_up K) (fun g => m_down K g * (c / s)) (fun g => m_lep K g * (c / s))).
  Proof.
    intros TB E P T. apply (R2HDM_w _ _ _ _ _ _ _ E) in P as (-> & _ & C0 & S0). specialize (S0 TB). pose proof (vev_pos i G) as V. fold K in V.
    assert (V1 : vev0 K * c <> 0) by nra. assert (V2 : vev0 K * s <> 0) by (apply Rmult_integral_contrapositive_currified; lra).
    pose proof (two_doublet_fermions K T c s V1 V2) as F. cbv zeta in F. split.
    - intros t HT. rewrite HT in *. destruct (ratios_ok t _ _ V1 V2) as [A B]. eapply scaled_one; [exact A|exact B|exact F].
    - intros T1 T2 T3 T4. destruct (ratios_other T (vev0 K * c) (vev0 K * s) T1 T2 T3 T4) as [A B].
      assert (R : vev0 K * c / (vev0 K * s) = c / s) by (field; split; [exact S0|lra]). rewrite R in A, B. eapply scaled_by; [exact A|exact B|exact F].
  Qed.
  Lemma C2HDM_fermions cb par p vev c s w : nth 7 par 0 <> 0 -> set_gen_C2HDM cb (vev0 K) par = Ok (p, vev, (c, s)) -> placed 0 PotC2HDM.N (order_C2HDM cb) vev w ->
    let T := Type_of (nth 8 par 0) in
    (forall t, T = type_number t -> fermions_ok PotC2HDM.N (R2HDM_quarks K T c s) (R2HDM_leptons K T c s) w (m_up K) (m_down K) (m_lep K)) /\
    (T <> 1%Z -> T <> 2%Z -> T <> 3%Z -> T <> 4%Z ->
      fermions_ok PotC2HDM.N (R2HDM_quarks K T c s) (R2HDM_leptons K T c s) w (m_up K) (fun g => m_down K g * (c / s)) (fun g => m_lep K g * (c / s))).
  Proof.
    intros TB E P T. apply (C2HDM_w _ _ _ _ _ _ _ _ E) in P as (-> & _ & C0 & S0). specialize (S0 TB). pose proof (vev_pos i G) as V. fold K in V.
    assert (V1 : vev0 K * c <> 0) by nra. assert (V2 : vev0 K * s <> 0) by (apply Rmult_integral_contrapositive_currified; lra).
    pose proof (two_doublet_fermions K T c s V1 V2) as F. cbv zeta in F. split.
    - intros t HT. rewrite HT in *. destruct (ratios_ok t _ _ V1 V2) as [A B]. eapply scaled_one; [exact A|exact B|exact F].
    - intros T1 T2 T3 T4. destruct (ratios_other T (vev0 K * c) (vev0 K * s) T1 T2 T3 T4) as [A B].
      assert (R : vev0 K * c / (vev0 K * s) = c / s) by (field; split; [exact S0|lra]). rewrite R in A, B. eapply scaled_by; [exact A|exact B|exact F].
  Qed.
  Lemma N2HDM_fermions par p vev c s n w : nth 8 par 0 <> 0 -> set_gen_N2HDM (vev0 K) par = Ok (p, vev, (c, s, n)) -> placed 0 PotN2HDM.N order_N2HDM vev w ->
    let T := Type_of (nth 11 par 0) in
    (forall t, T = type_number t -> fermions_ok PotN2HDM.N (N2HDM_quarks K T c s) (N2HDM_leptons K T c s) w (m_up K) (m_down K) (m_lep K)) /\
    (T <> 1%Z -> T <> 2%Z -> T <> 3%Z -> T <> 4%Z ->
      fermions_ok PotN2HDM.N (N2HDM_quarks K T c s) (N2HDM_leptons K T c s) w (m_up K) (fun g => m_down K g * (c / s)) (fun g => m_lep K g * (c / s))).
  Proof.
    intros TB E P T. apply (N2HDM_w _ _ _ _ _ _ _ _ E) in P as (-> & _ & C0 & S0). specialize (S0 TB). pose proof (vev_pos i G) as V. fold K in V.
    assert (V1 : vev0 K * c <> 0) by nra. assert (V2 : vev0 K * s <> 0) by (apply Rmult_integral_contrapositive_currified; lra).
    pose proof (N2HDM_two_doublet_fermions K T c s n V1 V2) as F. cbv zeta in F. split.
    - intros t HT. rewrite HT in *. destruct (ratios_ok t _ _ V1 V2) as [A B]. eapply scaled_one; [exact A|exact B|exact F].
    - intros T1 T2 T3 T4. destruct (ratios_other T (vev0 K * c) (vev0 K * s) T1 T2 T3 T4) as [A B].
      assert (R : vev0 K * c / (vev0 K * s) = c / s) by (field; split; [exact S0|lra]). rewrite R in A, B. eapply scaled_by; [exact A|exact B|exact F].
  Qed.
End TwoDoublets.
Lemma Type_of_IZR z : Type_of (IZR z) = z.
Proof.
  assert (I : forall z, Int_part (IZR z) = z).
  { intro y. unfold Int_part. rewrite <- (up_tech (IZR y) y); [lia|lra|]. rewrite plus_IZR. lra. }
  unfold Type_of. destruct (Rle_dec 0 (IZR z)); [apply I|]. rewrite <- opp_IZR, I. lia.
Qed.
(** a type outside 1..4 is accepted and gives wrong masses *)
Lemma R2HDM_other_type i : 0 < i_GF i -> i_MassBottom i <> 0 -> exists par p vev c s w, let K := GetSMConstants i in
  set_gen_R2HDM (vev0 K) par = Ok (p, vev, (c, s)) /\ placed 0 PotR2HDM.N order_R2HDM vev w /\ nth 6 par 0 <> 0 /\ Type_of (nth 7 par 0) = 5%Z /\
  ~ has_masses 12 (fermion_mass_squared 12 PotR2HDM.N (R2HDM_quarks K 5 c s) w) (fun a => quark_mass (m_up K) (m_down K) (layout_q a)).
Proof.
  intros G MB. set (par := [3; 1; -1; 2; 1; 5000; 2; 5]). set (K := GetSMConstants i).
  assert (E : exists p vev c s, set_gen_R2HDM (vev0 K) par = Ok (p, vev, (c, s)) /\ vev = [0; vev0 K * c; vev0 K * s; 0] /\ s = 2 * c).
  { do 4 eexists. split; [reflexivity|]. split; [reflexivity|]. destruct (beta_facts 2) as (_ & _ & _ & _ & _ & B). exact B. }
  destruct E as (p & vev & c & s & E & Ev & Es). exists par, p, vev, c, s, (spread 8 [2; 4; 6; 7]%nat vev). cbv zeta. split; [exact E|].
  assert (P : placed 0 PotR2HDM.N order_R2HDM vev (spread 8 [2; 4; 6; 7]%nat vev)) by (apply (spread_placed 8 [2; 4; 6; 7]%nat); [nodup|now rewrite Ev|repeat constructor]).
  split; [exact P|]. split; [cbn; lra|]. assert (T5 : Type_of (nth 7 par 0) = 5%Z) by apply (Type_of_IZR 5). split; [exact T5|]. intro H.
  assert (TB : nth 6 par 0 <> 0) by (cbn; lra). destruct (R2HDM_fermions i G par p vev c s _ TB E P) as [_ F]. rewrite T5 in F.
  destruct (F ltac:(lia) ltac:(lia) ltac:(lia) ltac:(lia)) as [F1 _]. clear F. specialize (F1 5%nat 5%nat ltac:(lia) ltac:(lia)). specialize (H 5%nat 5%nat ltac:(lia) ltac:(lia)).
  fold K in F1. rewrite H in F1. cbn [Nat.eqb quark_mass layout_q Nat.ltb Nat.leb Nat.sub] in F1. apply (f_equal Re) in F1. unfold Re, RtoC in F1. cbn [fst] in F1.
  assert (M : m_down K 2 = i_MassBottom i) by reflexivity. fold K in F1. rewrite M in F1.
  assert (C0 : c <> 0).
  { intro C0. apply (R2HDM_w _ _ _ _ _ _ _ E) in P as (_ & _ & P & _). lra. }
  rewrite Es in F1. replace (c / (2 * c)) with (1 / 2) in F1 by (field; exact C0). nra.
Qed.
