(** The renormalisation conditions at the vacua stored by set_gen, and where they fail. *)
From Coq Require Import Reals Lra Lia ZArith List Permutation Bool.
From Verif.Model Require Import Base Potential Tables Vacua CTs.
From Verif.Model Require PotSM PotCxSM PotR2HDM PotC2HDM PotN2HDM PotCPintheDark.
From Verif.Spec Require Import NumDerivSpec PotentialSpec ScalarSpec WardSpec CTSpec.
From Verif.Proofs Require Import Contract Contract2 TabTac VacTac VacuumCore VacuaProofs ScalarProofs WardTools WardModels CTProofs CTSinglet.
From Verif.Proofs Require PotSMProofs PotCxSMProofs PotR2HDMProofs PotC2HDMProofs PotN2HDMProofs PotCPintheDarkProofs.
Import ListNotations.
Local Open Scope R_scope.

Lemma cos_nonzero v0 t : v0 <> 0 -> v0 * CosBeta t <> 0.
Proof. intro V. destruct (beta_facts t) as (C & _). apply Rmult_integral_contrapositive. split; lra. Qed.
Lemma sin_nonzero v0 t : v0 <> 0 -> t <> 0 -> v0 * SinBeta t <> 0.
Proof.
  intros V T. destruct (beta_facts t) as (C & _ & _ & _ & E & _). rewrite E. apply Rmult_integral_contrapositive. split; [exact V|].
  apply Rmult_integral_contrapositive. split; [now apply Rabs_no_R0|lra].
Qed.
Lemma sin_signed_nonzero v0 t : v0 <> 0 -> t <> 0 -> v0 * SinBeta_signed t <> 0.
Proof.
  intros V T. destruct (beta_facts t) as (C & _ & _ & _ & _ & E). rewrite E. apply Rmult_integral_contrapositive. split; [exact V|].
  apply Rmult_integral_contrapositive. split; [exact T|lra].
Qed.

Lemma R2HDM_renormalised f v0 par p vev cs w N H : v0 <> 0 -> nth 6 par 0 <> 0 -> gauge_invariant 8 slots_2HDM f -> even_under 8 [1; 3; 5; 7]%nat f ->
  set_gen_R2HDM v0 par = Ok (p, vev, cs) -> placed 0 PotR2HDM.N order_R2HDM vev w -> taylor2 8 f (fun k => nth k w 0) N H -> uncut 8 (1 / 1000) H ->
  exists ct c, calc_CT_R2HDM true true v0 cs (vec 8 N) (WeinbergSecondDerivative 8 H) = Ok ct /\ PotR2HDM.set_CT_Pot_Par ct = Ok c /\ ct_cancels PotR2HDM.N c w N H.
Proof.
  intros V TB GI EV E P T UC. do 8 (destruct par as [|? par]; [discriminate E|]). cbn [nth] in TB. apply Ok_inj in E.
  apply pair_equal_spec in E as [E <-]. apply pair_equal_spec in E as [<- <-]. place P.
  apply (R2HDM_ct f v0 _ _ N H); try assumption; [now apply cos_nonzero|now apply sin_signed_nonzero].
Qed.
Lemma C2HDM_renormalised f cb v0 par p vev cs w N H : v0 <> 0 -> nth 7 par 0 <> 0 -> gauge_invariant 8 slots_2HDM f ->
  set_gen_C2HDM cb v0 par = Ok (p, vev, cs) -> placed 0 PotC2HDM.N (order_C2HDM cb) vev w -> taylor2 8 f (fun k => nth k w 0) N H ->
  exists ct c, calc_CT_C2HDM true true v0 cs (vec 8 N) (WeinbergSecondDerivative 8 H) = Ok ct /\ PotC2HDM.set_CT_Pot_Par ct = Ok c /\ ct_cancels PotC2HDM.N c w N H.
Proof.
  intros V TB GI E P T. do 9 (destruct par as [|? par]; [discriminate E|]). cbn [nth] in TB. apply Ok_inj in E.
  apply pair_equal_spec in E as [E <-]. apply pair_equal_spec in E as [<- <-].
  assert (w = [0; 0; 0; 0; v0 * CosBeta r6; 0; v0 * SinBeta r6; 0]) as -> by (destruct cb; place P; reflexivity).
  apply (C2HDM_ct f v0 _ _ N H); try assumption; [now apply cos_nonzero|now apply sin_nonzero].
Qed.
Lemma N2HDM_renormalised f v0 par p vev c s vs w N H : v0 <> 0 -> nth 8 par 0 <> 0 -> nth 9 par 0 <> 0 -> gauge_invariant 9 slots_N2HDM f -> even_under 9 [2; 3; 4; 5]%nat f ->
  set_gen_N2HDM v0 par = Ok (p, vev, (c, s, vs)) -> placed 0 PotN2HDM.N order_N2HDM vev w -> taylor2 9 f (fun k => nth k w 0) N H ->
  exists ct c', calc_CT_N2HDM true true v0 (c, s) vs (vec 9 N) (WeinbergSecondDerivative 9 H) = Ok ct /\ PotN2HDM.set_CT_Pot_Par ct = Ok c' /\ ct_cancels PotN2HDM.N c' w N H.
Proof.
  intros V TB VS GI EV E P T. do 12 (destruct par as [|? par]; [discriminate E|]). cbn [nth] in TB, VS. apply Ok_inj in E.
  apply pair_equal_spec in E as [E E2]. apply pair_equal_spec in E as [<- <-]. apply pair_equal_spec in E2 as [E2 <-]. apply pair_equal_spec in E2 as [<- <-]. place P.
  apply (N2HDM_ct f v0 _ _ _ N H); try assumption; [now apply cos_nonzero|now apply sin_nonzero].
Qed.
Lemma N2HDM_no_singlet_vev v0 cs N H : length N = 9%nat -> length H = 81%nat -> calc_CT_N2HDM true true v0 cs 0 N H = UB.
Proof. intros A B. unfold calc_CT_N2HDM, with_derivatives. rewrite A, B. cbn [negb Nat.ltb Nat.leb Nat.mul Nat.add]. destruct (Req_EM_T 0 0) as [_|X]; [reflexivity|contradiction]. Qed.
Lemma CPintheDark_renormalised f v0 par p vev w N H : v0 <> 0 -> gauge_invariant 9 slots_2HDM f -> even_under 9 [2; 3; 6; 7; 8]%nat f ->
  set_gen_CPintheDark v0 par = Ok (p, vev) -> placed 0 PotCPintheDark.N order_CPintheDark vev w -> taylor2 9 f (fun k => nth k w 0) N H ->
  exists ct c, calc_CT_CPintheDark true true v0 (vec 9 N) (WeinbergSecondDerivative 9 H) = Ok ct /\ PotCPintheDark.set_CT_Pot_Par ct = Ok c /\ ct_cancels PotCPintheDark.N c w N H.
Proof.
  intros V GI EV E P T. do 13 (destruct par as [|? par]; [discriminate E|]). apply Ok_inj in E. apply pair_equal_spec in E as [<- <-]. place P.
  now apply (CPintheDark_ct f v0 N H).
Qed.
Lemma CxSM_vev par p vev : set_gen_CxSM par = Ok (p, vev) -> vev = [nth 0 par 0; nth 1 par 0; nth 2 par 0].
Proof.
  intro E. do 12 (destruct par as [|? par]; [discriminate E|]). cbn [nth]. unfold set_gen_CxSM in E.
  destruct (Req_EM_T r1 0), (Req_EM_T r0 0); apply Ok_inj in E; apply pair_equal_spec in E as [_ <-]; reflexivity.
Qed.
Lemma CxSM_renormalised f par p vev w N H ct : nth 0 par 0 <> 0 -> gauge_invariant 6 slots_CxSM f ->
  set_gen_CxSM par = Ok (p, vev) -> placed 0 PotCxSM.N order_CxSM vev w -> taylor2 6 f (fun k => nth k w 0) N H ->
  H 3%nat 4%nat * nth 2 par 0 = H 3%nat 5%nat * nth 1 par 0 -> (nth 1 par 0 = 0 -> nth 2 par 0 = 0 -> H 3%nat 4%nat = 0 /\ H 3%nat 5%nat = 0) ->
  calc_CT_CxSM true true (nth 0 par 0) (nth 1 par 0) (nth 2 par 0) (PotCxSM.p_Ima1 p) (vec 6 N) (WeinbergSecondDerivative 6 H) = Ok ct ->
  calc_CT_CxSM_cut 0 true true (nth 0 par 0) (nth 1 par 0) (nth 2 par 0) (PotCxSM.p_Ima1 p) (vec 6 N) (WeinbergSecondDerivative 6 H) = Ok ct ->
  exists c, PotCxSM.set_CT_Pot_Par ct = Ok c /\ ct_cancels PotCxSM.N c w N H.
Proof.
  intros V GI E P T AL A0 _ C. rewrite (CxSM_vev par p vev E) in P. clear E.
  revert V P AL A0 C. generalize (nth 0 par 0) (nth 1 par 0) (nth 2 par 0). intros vh vs va V P AL A0 C. place P.
  destruct (CxSM_ct f vh vs va (PotCxSM.p_Ima1 p) N H V GI T AL A0) as (ct' & c & E1 & E2 & E3). rewrite E1 in C. apply Ok_inj in C. subst ct'. now exists c.
Qed.
