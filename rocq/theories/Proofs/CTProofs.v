(** The counterterms of calc_CT cancel the first and second derivatives of an invariant function at the vacuum. *)
From Coq Require Import Reals Lra Lia ZArith List Permutation Bool.
From Verif.Model Require Import Base Potential Tables Vacua CTs.
From Verif.Model Require PotSM PotCxSM PotR2HDM PotC2HDM PotN2HDM PotCPintheDark.
From Verif.Spec Require Import NumDerivSpec PotentialSpec ScalarSpec WardSpec CTSpec.
From Verif.Proofs Require Import Contract Contract2 TabTac VacTac VacuumCore VacuaProofs WardTools WardModels.
From Verif.Proofs Require PotSMProofs PotCxSMProofs PotR2HDMProofs PotC2HDMProofs PotN2HDMProofs PotCPintheDarkProofs.
Import ListNotations.
Local Open Scope R_scope.

Definition ct_cancels n (T : tensors) (w : list R) N H : Prop := cancels Ok Ok n (nabla_ct n T w) (hessian_ct n T w) N H.

(** evaluate gradient and Hessian of the counterterm potential once; [fin] proves each entry *)
Ltac ct_core n G v S fin :=
  let HS := fresh "HS" in let Kg := fresh "Kg" in let Kh := fresh "Kh" in
  assert (HS : forall k, inb S k = false -> nth k v 0 = 0) by support;
  match type of G with good _ _ ?t1 ?t2 ?t3 ?t4 =>
    compute_as Kg (grad_row n t1 t2 t3 t4 v S);
    compute_as Kh (hess_rows n t2 t3 t4 v S) end;
  let g := fresh "g" in let h := fresh "h" in let Eg := fresh "Eg" in let Eh := fresh "Eh" in let Ag := fresh "Ag" in let Ah := fresh "Ah" in
  destruct (ct_nabla_row _ _ _ _ _ _ G v eq_refl _ HS _ Kg) as (g & Eg & Ag);
  destruct (ct_hess_rows _ _ _ _ _ _ G v eq_refl _ HS _ Kh) as (h & Eh & Ah);
  exists g, h; split; [exact Eg|split; [exact Eh|split]];
  [ let i := fresh "i" in let I := fresh "I" in intros i I; rewrite (Ag i I); clear Kg Kh Ag Ah G HS Eg Eh; unfold n in I; cases_lt i I; cbn [nth]; fin
  | let i := fresh "i" in let I := fresh "I" in let j := fresh "j" in let J := fresh "J" in intros i j I J; rewrite (Ah i j I J);
    clear Kg Kh Ag Ah G HS Eg Eh; unfold n in I, J; cases_lt i I; cases_lt j J; unfold entry2; cbn [nth]; fin ].
Ltac evct := cbv -[Rplus Rminus Rmult Rdiv Ropp Rinv IZR sqrt pow cut_le cut_lt].

Ltac rw_ids := repeat match goal with Z : ?x = _ |- context [?x] => rewrite Z end.
Ltac conjs D := repeat match type of D with _ /\ _ => let Z := fresh "Z" in destruct D as [Z D] end.
(** the entries below the diagonal *)
Ltac below H Sy n := let rec out j := (lazymatch j with O => idtac | S ?j' => out j'; let rec inn i := (lazymatch i with O => idtac | S ?i' => inn i';
    let Z := fresh "Z" in pose proof (Sy j' i' ltac:(lia) ltac:(lia) : H j' i' = H i' j') as Z end) in inn j' end) in out n.
Lemma derivatives_ok n N H body : with_derivatives n true true (vec n N) (WeinbergSecondDerivative n H) body =
  body (fun i => nth i (vec n N) 0) (fun i j => nth (j * n + i) (WeinbergSecondDerivative n H) 0).
Proof.
  unfold with_derivatives. cbn [negb]. replace (length (vec n N)) with n by (unfold vec; now rewrite map_length, seq_length).
  rewrite Nat.ltb_irrefl. replace (length (WeinbergSecondDerivative n H)) with (n * n)%nat; [now rewrite Nat.ltb_irrefl|].
  unfold WeinbergSecondDerivative. rewrite <- (seq_length n 0) at 1. generalize (seq 0 n) at 1 3. intro l. induction l as [|a l IH]; [reflexivity|].
  cbn [flat_map length]. rewrite app_length, map_length, seq_length, <- IH. reflexivity.
Qed.

Lemma SM_read x0 x1 x2 x3 x4 x5 : PotSM.set_CT_Pot_Par [x0; x1; x2; x3; x4; x5] = Ok (PotSMProofs.ct_tensors (PotSM.mkC x0 x1 x2 x3 x4 x5)).
Proof. reflexivity. Qed.
Lemma CxSM_read x0 x1 x2 x3 x4 x5 x6 x7 x8 x9 x10 x11 x12 x13 x14 : PotCxSM.set_CT_Pot_Par [x0; x1; x2; x3; x4; x5; x6; x7; x8; x9; x10; x11; x12; x13; x14] = Ok (PotCxSMProofs.ct_tensors (PotCxSM.mkC x0 x1 x2 x3 x4 x5 x6 x7 x8 x9 x10 x11 x12 x13 x14)).
Proof. reflexivity. Qed.
Lemma R2HDM_read x0 x1 x2 x3 x4 x5 x6 x7 x8 x9 x10 : PotR2HDM.set_CT_Pot_Par [x0; x1; x2; x3; x4; x5; x6; x7; x8; x9; x10] = Ok (PotR2HDMProofs.ct_tensors (PotR2HDM.mkC x0 x1 x2 x3 x4 x5 x6 x7 x8 x9 x10)).
Proof. reflexivity. Qed.
Lemma C2HDM_read x0 x1 x2 x3 x4 x5 x6 x7 x8 x9 x10 x11 x12 x13 x14 : PotC2HDM.set_CT_Pot_Par [x0; x1; x2; x3; x4; x5; x6; x7; x8; x9; x10; x11; x12; x13; x14] = Ok (PotC2HDMProofs.ct_tensors (PotC2HDM.mkC x0 x1 x2 x3 x4 x5 x6 x7 x8 x9 x10 x11 x12 x13 x14)).
Proof. reflexivity. Qed.
Lemma N2HDM_read x0 x1 x2 x3 x4 x5 x6 x7 x8 x9 x10 x11 x12 x13 x14 : PotN2HDM.set_CT_Pot_Par [x0; x1; x2; x3; x4; x5; x6; x7; x8; x9; x10; x11; x12; x13; x14] = Ok (PotN2HDMProofs.ct_tensors (PotN2HDM.mkC x0 x1 x2 x3 x4 x5 x6 x7 x8 x9 x10 x11 x12 x13 x14)).
Proof. reflexivity. Qed.
Lemma CPintheDark_read x0 x1 x2 x3 x4 x5 x6 x7 x8 x9 x10 x11 x12 x13 x14 x15 x16 x17 x18 : PotCPintheDark.set_CT_Pot_Par [x0; x1; x2; x3; x4; x5; x6; x7; x8; x9; x10; x11; x12; x13; x14; x15; x16; x17; x18] = Ok (PotCPintheDarkProofs.ct_tensors (PotCPintheDark.mkC x0 x1 x2 x3 x4 x5 x6 x7 x8 x9 x10 x11 x12 x13 x14 x15 x16 x17 x18)).
Proof. reflexivity. Qed.

Lemma SM_renormalised f v0 MH par p vev w N H : v0 <> 0 -> gauge_invariant 4 slots_SM f -> set_gen_SM v0 MH par = Ok (p, vev) ->
  placed 0 PotSM.N order_SM vev w -> taylor2 4 f (fun k => nth k w 0) N H ->
  exists ct c, calc_CT_SM true true v0 (vec 4 N) (WeinbergSecondDerivative 4 H) = Ok ct /\ PotSM.set_CT_Pot_Par ct = Ok c /\ ct_cancels PotSM.N c w N H.
Proof.
  intros V GI E P T. apply Ok_inj in E. apply pair_equal_spec in E as [<- <-]. place P.
  pose proof (SM_identities f GI v0 V N H T) as D. pose proof (proj1 T) as Sy. clear T GI.
  unfold calc_CT_SM. rewrite derivatives_ok.
  eexists _, (PotSMProofs.ct_tensors (PotSM.mkC _ _ _ _ _ _)).
  split; [evct; reflexivity|]. split; [apply SM_read|].
  match goal with |- ct_cancels ?n (?ct (PotSM.mkC ?A0 ?A1 ?A2 ?A3 ?A4 ?A5)) ?w ?N ?H =>
    cut (forall x0 x1 x2 x3 x4 x5, x0 = A0 -> x1 = A1 -> x2 = A2 -> x3 = A3 -> x4 = A4 -> x5 = A5 -> ct_cancels n (ct (PotSM.mkC x0 x1 x2 x3 x4 x5)) w N H);
    [intro X; apply X; reflexivity|] end.
  intros x0 x1 x2 x3 x4 x5 E0 E1 E2 E3 E4 E5. pose proof (PotSMProofs.ct_ok (PotSM.mkC x0 x1 x2 x3 x4 x5)) as G.
  below H Sy 4%nat. clear Sy. conjs D.
  ct_core PotSM.N G [0; 0; v0; 0] [2]%nat ltac:(rw_ids; field; auto).
Qed.

(** ** models with two doublets *)
Lemma cut_le_id c x : (Rabs x <= c -> x = 0) -> cut_le c x = x.
Proof. intro A. unfold cut_le. destruct (Rle_dec (Rabs x) c) as [L|L]; [symmetry; now apply A|reflexivity]. Qed.
Lemma cut_lt_zero c x : x = 0 -> cut_lt c x = 0.
Proof. intros ->. unfold cut_lt. now destruct (Rlt_dec (Rabs 0) c). Qed.
Ltac uncut_in UC E := repeat rewrite (cut_le_id _ (_ _ _) (UC _ _ ltac:(lia) ltac:(lia))) in E.

Lemma R2HDM_ct f v0 c s N H : v0 * c <> 0 -> v0 * s <> 0 -> gauge_invariant 8 slots_2HDM f -> even_under 8 [1; 3; 5; 7]%nat f ->
  taylor2 8 f (fun k => nth k [0; 0; 0; 0; v0 * c; 0; v0 * s; 0] 0) N H -> uncut 8 (1 / 1000) H ->
  exists ct c', calc_CT_R2HDM true true v0 (c, s) (vec 8 N) (WeinbergSecondDerivative 8 H) = Ok ct /\ PotR2HDM.set_CT_Pot_Par ct = Ok c' /\
    ct_cancels PotR2HDM.N c' [0; 0; 0; 0; v0 * c; 0; v0 * s; 0] N H.
Proof.
  intros V1 V2 GI EV T UC. unfold calc_CT_R2HDM. rewrite derivatives_ok. cbn [fst snd].
  set (v1 := v0 * c) in *. set (v2 := v0 * s) in *. clearbody v1 v2.
  pose proof (R2HDM_identities f GI EV v1 v2 V1 V2 N H T) as D. pose proof (proj1 T) as Sy. clear T GI EV.
  eexists _, (PotR2HDMProofs.ct_tensors (PotR2HDM.mkC _ _ _ _ _ _ _ _ _ _ _)).
  split; [evct; reflexivity|]. split; [apply R2HDM_read|].
  match goal with |- ct_cancels ?n (?ct (PotR2HDM.mkC ?A0 ?A1 ?A2 ?A3 ?A4 ?A5 ?A6 ?A7 ?A8 ?A9 ?A10)) ?w ?N ?H =>
    cut (forall x0 x1 x2 x3 x4 x5 x6 x7 x8 x9 x10, x0 = A0 -> x1 = A1 -> x2 = A2 -> x3 = A3 -> x4 = A4 -> x5 = A5 -> x6 = A6 -> x7 = A7 -> x8 = A8 -> x9 = A9 -> x10 = A10 -> ct_cancels n (ct (PotR2HDM.mkC x0 x1 x2 x3 x4 x5 x6 x7 x8 x9 x10)) w N H);
    [intro X; apply X; reflexivity|] end.
  intros x0 x1 x2 x3 x4 x5 x6 x7 x8 x9 x10 E0 E1 E2 E3 E4 E5 E6 E7 E8 E9 E10. pose proof (PotR2HDMProofs.ct_ok (PotR2HDM.mkC x0 x1 x2 x3 x4 x5 x6 x7 x8 x9 x10)) as G.
  assert (CU : forall i j, (i < 8)%nat -> (j < 8)%nat -> cut_le (1 / 1000) (H i j) = H i j) by (intros i j I J; apply cut_le_id, UC; assumption).
  repeat match goal with E : context [cut_le (1 / 1000) (H ?i ?j)] |- _ => rewrite (CU i j ltac:(lia) ltac:(lia)) in E end. clear UC CU.
  below H Sy 8%nat. clear Sy. conjs D.
  rewrite cut_lt_zero in E8, E9, E10; [..|rw_ids; field; auto|rw_ids; field; auto|rw_ids; field; auto].
  ct_core PotR2HDM.N G [0; 0; 0; 0; v1; 0; v2; 0] [4; 6]%nat ltac:(rw_ids; field; auto).
Qed.

Lemma C2HDM_ct f v0 c s N H : v0 * c <> 0 -> v0 * s <> 0 -> gauge_invariant 8 slots_2HDM f ->
  taylor2 8 f (fun k => nth k [0; 0; 0; 0; v0 * c; 0; v0 * s; 0] 0) N H ->
  exists ct c', calc_CT_C2HDM true true v0 (c, s) (vec 8 N) (WeinbergSecondDerivative 8 H) = Ok ct /\ PotC2HDM.set_CT_Pot_Par ct = Ok c' /\
    ct_cancels PotC2HDM.N c' [0; 0; 0; 0; v0 * c; 0; v0 * s; 0] N H.
Proof.
  intros V1 V2 GI T. unfold calc_CT_C2HDM. rewrite derivatives_ok. cbn [fst snd].
  set (v1 := v0 * c) in *. set (v2 := v0 * s) in *. clearbody v1 v2.
  pose proof (C2HDM_identities f GI v1 v2 V1 V2 N H T) as D. pose proof (proj1 T) as Sy. clear T GI.
  eexists _, (PotC2HDMProofs.ct_tensors (PotC2HDM.mkC _ _ _ _ _ _ _ _ _ _ _ _ _ _ _)).
  split; [evct; reflexivity|]. split; [apply C2HDM_read|].
  match goal with |- ct_cancels ?n (?ct (PotC2HDM.mkC ?A0 ?A1 ?A2 ?A3 ?A4 ?A5 ?A6 ?A7 ?A8 ?A9 ?A10 ?A11 ?A12 ?A13 ?A14)) ?w ?N ?H =>
    cut (forall x0 x1 x2 x3 x4 x5 x6 x7 x8 x9 x10 x11 x12 x13 x14, x0 = A0 -> x1 = A1 -> x2 = A2 -> x3 = A3 -> x4 = A4 -> x5 = A5 -> x6 = A6 -> x7 = A7 -> x8 = A8 -> x9 = A9 -> x10 = A10 -> x11 = A11 -> x12 = A12 -> x13 = A13 -> x14 = A14 -> ct_cancels n (ct (PotC2HDM.mkC x0 x1 x2 x3 x4 x5 x6 x7 x8 x9 x10 x11 x12 x13 x14)) w N H);
    [intro X; apply X; reflexivity|] end.
  intros x0 x1 x2 x3 x4 x5 x6 x7 x8 x9 x10 x11 x12 x13 x14 E0 E1 E2 E3 E4 E5 E6 E7 E8 E9 E10 E11 E12 E13 E14. pose proof (PotC2HDMProofs.ct_ok (PotC2HDM.mkC x0 x1 x2 x3 x4 x5 x6 x7 x8 x9 x10 x11 x12 x13 x14)) as G.
  below H Sy 8%nat. clear Sy. conjs D.
  ct_core PotC2HDM.N G [0; 0; 0; 0; v1; 0; v2; 0] [4; 6]%nat ltac:(rw_ids; field; auto).
Qed.

Lemma N2HDM_ct f v0 c s vs N H : v0 * c <> 0 -> v0 * s <> 0 -> vs <> 0 -> gauge_invariant 9 slots_N2HDM f -> even_under 9 [2; 3; 4; 5]%nat f ->
  taylor2 9 f (fun k => nth k [0; 0; 0; 0; 0; 0; v0 * c; v0 * s; vs] 0) N H ->
  exists ct c', calc_CT_N2HDM true true v0 (c, s) vs (vec 9 N) (WeinbergSecondDerivative 9 H) = Ok ct /\ PotN2HDM.set_CT_Pot_Par ct = Ok c' /\
    ct_cancels PotN2HDM.N c' [0; 0; 0; 0; 0; 0; v0 * c; v0 * s; vs] N H.
Proof.
  intros V1 V2 V3 GI EV T. unfold calc_CT_N2HDM. rewrite derivatives_ok. cbn [fst snd]. destruct (Req_EM_T vs 0) as [X|_]; [contradiction|].
  set (v1 := v0 * c) in *. set (v2 := v0 * s) in *. clearbody v1 v2.
  pose proof (N2HDM_identities f GI EV v1 v2 vs V1 V2 N H T) as D. pose proof (proj1 T) as Sy. clear T GI EV.
  eexists _, (PotN2HDMProofs.ct_tensors (PotN2HDM.mkC _ _ _ _ _ _ _ _ _ _ _ _ _ _ _)).
  split; [evct; reflexivity|]. split; [apply N2HDM_read|].
  match goal with |- ct_cancels ?n (?ct (PotN2HDM.mkC ?A0 ?A1 ?A2 ?A3 ?A4 ?A5 ?A6 ?A7 ?A8 ?A9 ?A10 ?A11 ?A12 ?A13 ?A14)) ?w ?N ?H =>
    cut (forall x0 x1 x2 x3 x4 x5 x6 x7 x8 x9 x10 x11 x12 x13 x14, x0 = A0 -> x1 = A1 -> x2 = A2 -> x3 = A3 -> x4 = A4 -> x5 = A5 -> x6 = A6 -> x7 = A7 -> x8 = A8 -> x9 = A9 -> x10 = A10 -> x11 = A11 -> x12 = A12 -> x13 = A13 -> x14 = A14 -> ct_cancels n (ct (PotN2HDM.mkC x0 x1 x2 x3 x4 x5 x6 x7 x8 x9 x10 x11 x12 x13 x14)) w N H);
    [intro X; apply X; reflexivity|] end.
  intros x0 x1 x2 x3 x4 x5 x6 x7 x8 x9 x10 x11 x12 x13 x14 E0 E1 E2 E3 E4 E5 E6 E7 E8 E9 E10 E11 E12 E13 E14. pose proof (PotN2HDMProofs.ct_ok (PotN2HDM.mkC x0 x1 x2 x3 x4 x5 x6 x7 x8 x9 x10 x11 x12 x13 x14)) as G.
  below H Sy 9%nat. clear Sy. conjs D.
  ct_core PotN2HDM.N G [0; 0; 0; 0; 0; 0; v1; v2; vs] [6; 7; 8]%nat ltac:(rw_ids; field; auto).
Qed.

Lemma CPintheDark_ct f v1 N H : v1 <> 0 -> gauge_invariant 9 slots_2HDM f -> even_under 9 [2; 3; 6; 7; 8]%nat f ->
  taylor2 9 f (fun k => nth k [0; 0; 0; 0; v1; 0; 0; 0; 0] 0) N H ->
  exists ct c', calc_CT_CPintheDark true true v1 (vec 9 N) (WeinbergSecondDerivative 9 H) = Ok ct /\ PotCPintheDark.set_CT_Pot_Par ct = Ok c' /\
    ct_cancels PotCPintheDark.N c' [0; 0; 0; 0; v1; 0; 0; 0; 0] N H.
Proof.
  intros V1 GI EV T. unfold calc_CT_CPintheDark. rewrite derivatives_ok.
  pose proof (CPintheDark_identities f GI EV v1 V1 N H T) as D. pose proof (proj1 T) as Sy. clear T GI EV.
  eexists _, (PotCPintheDarkProofs.ct_tensors (PotCPintheDark.mkC _ _ _ _ _ _ _ _ _ _ _ _ _ _ _ _ _ _ _)).
  split; [evct; reflexivity|]. split; [apply CPintheDark_read|].
  match goal with |- ct_cancels ?n (?ct (PotCPintheDark.mkC ?A0 ?A1 ?A2 ?A3 ?A4 ?A5 ?A6 ?A7 ?A8 ?A9 ?A10 ?A11 ?A12 ?A13 ?A14 ?A15 ?A16 ?A17 ?A18)) ?w ?N ?H =>
    cut (forall x0 x1 x2 x3 x4 x5 x6 x7 x8 x9 x10 x11 x12 x13 x14 x15 x16 x17 x18, x0 = A0 -> x1 = A1 -> x2 = A2 -> x3 = A3 -> x4 = A4 -> x5 = A5 -> x6 = A6 -> x7 = A7 -> x8 = A8 -> x9 = A9 -> x10 = A10 -> x11 = A11 -> x12 = A12 -> x13 = A13 -> x14 = A14 -> x15 = A15 -> x16 = A16 -> x17 = A17 -> x18 = A18 -> ct_cancels n (ct (PotCPintheDark.mkC x0 x1 x2 x3 x4 x5 x6 x7 x8 x9 x10 x11 x12 x13 x14 x15 x16 x17 x18)) w N H);
    [intro X; apply X; reflexivity|] end.
  intros x0 x1 x2 x3 x4 x5 x6 x7 x8 x9 x10 x11 x12 x13 x14 x15 x16 x17 x18 E0 E1 E2 E3 E4 E5 E6 E7 E8 E9 E10 E11 E12 E13 E14 E15 E16 E17 E18. pose proof (PotCPintheDarkProofs.ct_ok (PotCPintheDark.mkC x0 x1 x2 x3 x4 x5 x6 x7 x8 x9 x10 x11 x12 x13 x14 x15 x16 x17 x18)) as G.
  below H Sy 9%nat. clear Sy. conjs D.
  ct_core PotCPintheDark.N G [0; 0; 0; 0; v1; 0; 0; 0; 0] [4]%nat ltac:(rw_ids; field; auto).
Qed.
