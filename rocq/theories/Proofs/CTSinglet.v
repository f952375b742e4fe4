(** The counterterms of the complex singlet extension, for all cases of the singlet vacuum expectation values. *)
From Coq Require Import Reals Lra Lia ZArith List Permutation Bool.
From Verif.Model Require Import Base Potential Tables Vacua CTs.
From Verif.Model Require PotSM PotCxSM PotR2HDM PotC2HDM PotN2HDM PotCPintheDark.
From Verif.Spec Require Import NumDerivSpec PotentialSpec ScalarSpec WardSpec CTSpec.
From Verif.Proofs Require Import Contract Contract2 TabTac VacTac VacuumCore VacuaProofs WardTools WardModels CTProofs.
From Verif.Proofs Require PotSMProofs PotCxSMProofs PotR2HDMProofs PotC2HDMProofs PotN2HDMProofs PotCPintheDarkProofs.
Import ListNotations.
Local Open Scope R_scope.


Lemma cut_zero x : cut_le 0 x = x.
Proof. apply cut_le_id. intro A. pose proof (Rabs_pos x). destruct (Req_dec x 0) as [|NE]; [assumption|]. apply Rabs_pos_lt in NE. lra. Qed.
Lemma CxSM_ct f vh vs va Ima1 N H : vh <> 0 -> gauge_invariant 6 slots_CxSM f ->
  taylor2 6 f (fun k => nth k [0; 0; 0; vh; vs; va] 0) N H ->
  H 3%nat 4%nat * va = H 3%nat 5%nat * vs -> (vs = 0 -> va = 0 -> H 3%nat 4%nat = 0 /\ H 3%nat 5%nat = 0) ->
  exists ct c', calc_CT_CxSM_cut 0 true true vh vs va Ima1 (vec 6 N) (WeinbergSecondDerivative 6 H) = Ok ct /\ PotCxSM.set_CT_Pot_Par ct = Ok c' /\
    ct_cancels PotCxSM.N c' [0; 0; 0; vh; vs; va] N H.
Proof.
  intros V GI T AL A0. unfold calc_CT_CxSM_cut. rewrite derivatives_ok.
  pose proof (CxSM_identities f GI vh vs va V N H T) as D. pose proof (proj1 T) as Sy. clear T GI.
  assert (S2 : sqrt 2 * sqrt 2 = 2) by (apply sqrt_sqrt; lra). pose proof sqrt2_nonzero as S0.
  cbv zeta. destruct (Req_EM_T va 0) as [Va|Va]; destruct (Req_EM_T vs 0) as [Vs|Vs]; [| | |destruct (Req_EM_T Ima1 0) as [_|_]].
  { destruct (A0 Vs Va) as [Z34 Z35]. clear A0 AL. subst va vs.
    eexists _, (PotCxSMProofs.ct_tensors (PotCxSM.mkC _ _ _ _ _ _ _ _ _ _ _ _ _ _ _)).
    split; [evct; reflexivity|]. split; [apply CxSM_read|].
  match goal with |- ct_cancels ?n (?ct (PotCxSM.mkC ?A0 ?A1 ?A2 ?A3 ?A4 ?A5 ?A6 ?A7 ?A8 ?A9 ?A10 ?A11 ?A12 ?A13 ?A14)) ?w ?N ?H =>
      cut (forall x0 x1 x2 x3 x4 x5 x6 x7 x8 x9 x10 x11 x12 x13 x14, x0 = A0 -> x1 = A1 -> x2 = A2 -> x3 = A3 -> x4 = A4 -> x5 = A5 -> x6 = A6 -> x7 = A7 -> x8 = A8 -> x9 = A9 -> x10 = A10 -> x11 = A11 -> x12 = A12 -> x13 = A13 -> x14 = A14 -> ct_cancels n (ct (PotCxSM.mkC x0 x1 x2 x3 x4 x5 x6 x7 x8 x9 x10 x11 x12 x13 x14)) w N H);
      [intro X; apply X; reflexivity|] end.
    intros x0 x1 x2 x3 x4 x5 x6 x7 x8 x9 x10 x11 x12 x13 x14 E0 E1 E2 E3 E4 E5 E6 E7 E8 E9 E10 E11 E12 E13 E14. pose proof (PotCxSMProofs.ct_ok (PotCxSM.mkC x0 x1 x2 x3 x4 x5 x6 x7 x8 x9 x10 x11 x12 x13 x14)) as G.
    rewrite !cut_zero in *. below H Sy 6%nat. clear Sy. conjs D.
    ct_core PotCxSM.N G [0; 0; 0; vh; 0; 0] [3]%nat ltac:(clear S0; set (q2 := sqrt 2) in *; rw_ids; field [S2]; auto). }
  { assert (Z35 : H 3%nat 5%nat = 0) by (apply (zero_product _ vs); [exact Vs|rewrite <- AL, Va; ring]). clear A0 AL. subst va.
    eexists _, (PotCxSMProofs.ct_tensors (PotCxSM.mkC _ _ _ _ _ _ _ _ _ _ _ _ _ _ _)).
    split; [evct; reflexivity|]. split; [apply CxSM_read|].
  match goal with |- ct_cancels ?n (?ct (PotCxSM.mkC ?A0 ?A1 ?A2 ?A3 ?A4 ?A5 ?A6 ?A7 ?A8 ?A9 ?A10 ?A11 ?A12 ?A13 ?A14)) ?w ?N ?H =>
      cut (forall x0 x1 x2 x3 x4 x5 x6 x7 x8 x9 x10 x11 x12 x13 x14, x0 = A0 -> x1 = A1 -> x2 = A2 -> x3 = A3 -> x4 = A4 -> x5 = A5 -> x6 = A6 -> x7 = A7 -> x8 = A8 -> x9 = A9 -> x10 = A10 -> x11 = A11 -> x12 = A12 -> x13 = A13 -> x14 = A14 -> ct_cancels n (ct (PotCxSM.mkC x0 x1 x2 x3 x4 x5 x6 x7 x8 x9 x10 x11 x12 x13 x14)) w N H);
      [intro X; apply X; reflexivity|] end.
    intros x0 x1 x2 x3 x4 x5 x6 x7 x8 x9 x10 x11 x12 x13 x14 E0 E1 E2 E3 E4 E5 E6 E7 E8 E9 E10 E11 E12 E13 E14. pose proof (PotCxSMProofs.ct_ok (PotCxSM.mkC x0 x1 x2 x3 x4 x5 x6 x7 x8 x9 x10 x11 x12 x13 x14)) as G.
    rewrite !cut_zero in *. below H Sy 6%nat. clear Sy. conjs D.
    ct_core PotCxSM.N G [0; 0; 0; vh; vs; 0] [3; 4]%nat ltac:(clear S0; set (q2 := sqrt 2) in *; rw_ids; field [S2]; auto). }
  { assert (Z34 : H 3%nat 4%nat = 0) by (apply (zero_product _ va); [exact Va|rewrite AL, Vs; ring]). clear A0 AL. subst vs.
    eexists _, (PotCxSMProofs.ct_tensors (PotCxSM.mkC _ _ _ _ _ _ _ _ _ _ _ _ _ _ _)).
    split; [evct; reflexivity|]. split; [apply CxSM_read|].
  match goal with |- ct_cancels ?n (?ct (PotCxSM.mkC ?A0 ?A1 ?A2 ?A3 ?A4 ?A5 ?A6 ?A7 ?A8 ?A9 ?A10 ?A11 ?A12 ?A13 ?A14)) ?w ?N ?H =>
      cut (forall x0 x1 x2 x3 x4 x5 x6 x7 x8 x9 x10 x11 x12 x13 x14, x0 = A0 -> x1 = A1 -> x2 = A2 -> x3 = A3 -> x4 = A4 -> x5 = A5 -> x6 = A6 -> x7 = A7 -> x8 = A8 -> x9 = A9 -> x10 = A10 -> x11 = A11 -> x12 = A12 -> x13 = A13 -> x14 = A14 -> ct_cancels n (ct (PotCxSM.mkC x0 x1 x2 x3 x4 x5 x6 x7 x8 x9 x10 x11 x12 x13 x14)) w N H);
      [intro X; apply X; reflexivity|] end.
    intros x0 x1 x2 x3 x4 x5 x6 x7 x8 x9 x10 x11 x12 x13 x14 E0 E1 E2 E3 E4 E5 E6 E7 E8 E9 E10 E11 E12 E13 E14. pose proof (PotCxSMProofs.ct_ok (PotCxSM.mkC x0 x1 x2 x3 x4 x5 x6 x7 x8 x9 x10 x11 x12 x13 x14)) as G.
    rewrite !cut_zero in *. below H Sy 6%nat. clear Sy. conjs D.
    ct_core PotCxSM.N G [0; 0; 0; vh; 0; va] [3; 5]%nat ltac:(clear S0; set (q2 := sqrt 2) in *; rw_ids; field [S2]; auto). }
  { assert (Z34 : H 3%nat 4%nat = H 3%nat 5%nat * vs / va) by (apply solve_for; assumption). clear A0 AL. assert (VV : va * va + vs * vs <> 0) by (intro X; assert (0 < va * va) by (apply Rlt_0_sqr; exact Va); pose proof (Rle_0_sqr vs); unfold Rsqr in *; lra).
    eexists _, (PotCxSMProofs.ct_tensors (PotCxSM.mkC _ _ _ _ _ _ _ _ _ _ _ _ _ _ _)).
    split; [evct; reflexivity|]. split; [apply CxSM_read|].
  match goal with |- ct_cancels ?n (?ct (PotCxSM.mkC ?A0 ?A1 ?A2 ?A3 ?A4 ?A5 ?A6 ?A7 ?A8 ?A9 ?A10 ?A11 ?A12 ?A13 ?A14)) ?w ?N ?H =>
      cut (forall x0 x1 x2 x3 x4 x5 x6 x7 x8 x9 x10 x11 x12 x13 x14, x0 = A0 -> x1 = A1 -> x2 = A2 -> x3 = A3 -> x4 = A4 -> x5 = A5 -> x6 = A6 -> x7 = A7 -> x8 = A8 -> x9 = A9 -> x10 = A10 -> x11 = A11 -> x12 = A12 -> x13 = A13 -> x14 = A14 -> ct_cancels n (ct (PotCxSM.mkC x0 x1 x2 x3 x4 x5 x6 x7 x8 x9 x10 x11 x12 x13 x14)) w N H);
      [intro X; apply X; reflexivity|] end.
    intros x0 x1 x2 x3 x4 x5 x6 x7 x8 x9 x10 x11 x12 x13 x14 E0 E1 E2 E3 E4 E5 E6 E7 E8 E9 E10 E11 E12 E13 E14. pose proof (PotCxSMProofs.ct_ok (PotCxSM.mkC x0 x1 x2 x3 x4 x5 x6 x7 x8 x9 x10 x11 x12 x13 x14)) as G.
    rewrite !cut_zero in *. below H Sy 6%nat. clear Sy. conjs D.
    ct_core PotCxSM.N G [0; 0; 0; vh; vs; va] [3; 4; 5]%nat ltac:(clear S0; set (q2 := sqrt 2) in *; rw_ids; field [S2]; auto). }
  { assert (Z34 : H 3%nat 4%nat = H 3%nat 5%nat * vs / va) by (apply solve_for; assumption). clear A0 AL.
    eexists _, (PotCxSMProofs.ct_tensors (PotCxSM.mkC _ _ _ _ _ _ _ _ _ _ _ _ _ _ _)).
    split; [evct; reflexivity|]. split; [apply CxSM_read|].
  match goal with |- ct_cancels ?n (?ct (PotCxSM.mkC ?A0 ?A1 ?A2 ?A3 ?A4 ?A5 ?A6 ?A7 ?A8 ?A9 ?A10 ?A11 ?A12 ?A13 ?A14)) ?w ?N ?H =>
      cut (forall x0 x1 x2 x3 x4 x5 x6 x7 x8 x9 x10 x11 x12 x13 x14, x0 = A0 -> x1 = A1 -> x2 = A2 -> x3 = A3 -> x4 = A4 -> x5 = A5 -> x6 = A6 -> x7 = A7 -> x8 = A8 -> x9 = A9 -> x10 = A10 -> x11 = A11 -> x12 = A12 -> x13 = A13 -> x14 = A14 -> ct_cancels n (ct (PotCxSM.mkC x0 x1 x2 x3 x4 x5 x6 x7 x8 x9 x10 x11 x12 x13 x14)) w N H);
      [intro X; apply X; reflexivity|] end.
    intros x0 x1 x2 x3 x4 x5 x6 x7 x8 x9 x10 x11 x12 x13 x14 E0 E1 E2 E3 E4 E5 E6 E7 E8 E9 E10 E11 E12 E13 E14. pose proof (PotCxSMProofs.ct_ok (PotCxSM.mkC x0 x1 x2 x3 x4 x5 x6 x7 x8 x9 x10 x11 x12 x13 x14)) as G.
    rewrite !cut_zero in *. below H Sy 6%nat. clear Sy. conjs D.
    ct_core PotCxSM.N G [0; 0; 0; vh; vs; va] [3; 4; 5]%nat ltac:(clear S0; set (q2 := sqrt 2) in *; rw_ids; field [S2]; auto). }
Qed.
