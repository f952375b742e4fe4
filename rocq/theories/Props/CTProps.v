(** C99: the counterterms that calc_CT computes cancel all first and second derivatives of the one-loop potential at the
    vacuum stored by set_gen.  The one-loop potential is any function f that is invariant under the gauge group (and under the
    further symmetry of the model where one is needed) and has a Taylor expansion to second order. *)
From Coq Require Import Reals Lra Lia ZArith List Bool.
From Verif.Model Require Import Base Potential Tables Vacua CTs.
From Verif.Model Require PotSM PotCxSM PotR2HDM PotC2HDM PotN2HDM PotCPintheDark.
From Verif.Spec Require Import NumDerivSpec PotentialSpec ScalarSpec WardSpec CTSpec.
From Verif.Proofs Require Import TabTac VacTac VacuumCore VacuaProofs ScalarProofs WardTools CTProofs CTFinal CTRefute.
Import ListNotations.
Local Open Scope R_scope.

Theorem C99_SM_renormalised :
  forall f v0 MH par p vev w N H, v0 <> 0 -> gauge_invariant 4 slots_SM f -> set_gen_SM v0 MH par = Ok (p, vev) ->
  placed 0 PotSM.N order_SM vev w -> taylor2 4 f (fun k => nth k w 0) N H ->
  exists ct c, calc_CT_SM true true v0 (vec 4 N) (WeinbergSecondDerivative 4 H) = Ok ct /\ PotSM.set_CT_Pot_Par ct = Ok c /\
  cancels Ok Ok PotSM.N (nabla_ct PotSM.N c w) (hessian_ct PotSM.N c w) N H.
Proof. exact SM_renormalised. Qed.
Print Assumptions C99_SM_renormalised.
(** an invariant function with its Taylor expansion: a multiple of the norm of a doublet *)
Definition norm_N (idx : list nat) (w : list R) (i : nat) : R := if existsb (Nat.eqb i) idx then 2 * nth i w 0 else 0.
Definition norm_H (idx : list nat) (i j : nat) : R := if (Nat.eqb i j && existsb (Nat.eqb i) idx)%bool then 2 else 0.
Lemma norm_H_sym idx i j : norm_H idx i j = norm_H idx j i.
Proof. unfold norm_H. destruct (Nat.eqb_spec i j) as [->|NE]; [now rewrite Nat.eqb_refl|]. destruct (Nat.eqb_spec j i); [congruence|reflexivity]. Qed.
Ltac norm_taylor := apply taylor_exact; [intros; apply norm_H_sym|]; let h := fresh "h" in intro h; unfold doublet_at; rewrite !nth_vec by lia; rewrite !norm2_ok;
  unfold norm_N, norm_H; cbn [sumR Nat.eqb existsb nth orb andb]; field.
Ltac norm_even := let x := fresh "x" in intro x; unfold doublet_at; rewrite !nth_vec by lia; unfold flipped; cbn [existsb Nat.eqb orb]; rewrite !norm2_ok; field.
Example C99_nonvacuous_SM : exists p vev w, set_gen_SM 246 125 [] = Ok (p, vev) /\ placed 0 PotSM.N order_SM vev w /\
  gauge_invariant 4 slots_SM (fun l => 2 * norm2 (doublet_at (0, 1, 2, 3)%nat l)) /\
  taylor2 4 (fun l => 2 * norm2 (doublet_at (0, 1, 2, 3)%nat l)) (fun k => nth k w 0) (norm_N [0; 1; 2; 3]%nat w) (norm_H [0; 1; 2; 3]%nat).
Proof.
  idtac. do 2 eexists. exists [0; 0; 246; 0]. split; [reflexivity|]. split.
  { exact (spread_placed 4 [2]%nat [246] ltac:(nodup) eq_refl ltac:(repeat constructor)). }
  split; [apply norm_invariant; cbn; tauto|]. norm_taylor.
Qed.

(** TanBeta = 0 leaves the second doublet without a vacuum expectation value, by which the program divides *)
Theorem C99_C2HDM_renormalised :
  forall f cb v0 par p vev cs w N H, v0 <> 0 -> nth 7 par 0 <> 0 -> gauge_invariant 8 slots_2HDM f ->
  set_gen_C2HDM cb v0 par = Ok (p, vev, cs) -> placed 0 PotC2HDM.N (order_C2HDM cb) vev w -> taylor2 8 f (fun k => nth k w 0) N H ->
  exists ct c, calc_CT_C2HDM true true v0 cs (vec 8 N) (WeinbergSecondDerivative 8 H) = Ok ct /\ PotC2HDM.set_CT_Pot_Par ct = Ok c /\
  cancels Ok Ok PotC2HDM.N (nabla_ct PotC2HDM.N c w) (hessian_ct PotC2HDM.N c w) N H.
Proof. exact C2HDM_renormalised. Qed.
Print Assumptions C99_C2HDM_renormalised.
Example C99_nonvacuous_C2HDM : exists p vev cs w, set_gen_C2HDM true 246 [3; 1; -1; 2; 1; 1; 5000; 2; 1] = Ok (p, vev, cs) /\ placed 0 PotC2HDM.N (order_C2HDM true) vev w /\
  gauge_invariant 8 slots_2HDM (fun l => 2 * norm2 (doublet_at (0, 1, 4, 5)%nat l)) /\
  taylor2 8 (fun l => 2 * norm2 (doublet_at (0, 1, 4, 5)%nat l)) (fun k => nth k w 0) (norm_N [0; 1; 4; 5]%nat w) (norm_H [0; 1; 4; 5]%nat).
Proof.
  idtac. do 3 eexists. exists [0; 0; 0; 0; 246 * CosBeta 2; 0; 246 * SinBeta 2; 0]. split; [reflexivity|]. split.
  { exact (spread_placed 8 [2; 4; 6; 7]%nat [0; 246 * CosBeta 2; 246 * SinBeta 2; 0] ltac:(nodup) eq_refl ltac:(repeat constructor)). }
  split; [apply norm_invariant; cbn; tauto|]. norm_taylor.
Qed.

(** missing: second derivatives of absolute value up to 1e-3, which the program sets to zero; CP is conserved (even_under) *)
Theorem C99_R2HDM_renormalised_partial :
  forall f v0 par p vev cs w N H, v0 <> 0 -> nth 6 par 0 <> 0 -> gauge_invariant 8 slots_2HDM f -> even_under 8 [1; 3; 5; 7]%nat f ->
  set_gen_R2HDM v0 par = Ok (p, vev, cs) -> placed 0 PotR2HDM.N order_R2HDM vev w -> taylor2 8 f (fun k => nth k w 0) N H -> uncut 8 (1 / 1000) H ->
  exists ct c, calc_CT_R2HDM true true v0 cs (vec 8 N) (WeinbergSecondDerivative 8 H) = Ok ct /\ PotR2HDM.set_CT_Pot_Par ct = Ok c /\
  cancels Ok Ok PotR2HDM.N (nabla_ct PotR2HDM.N c w) (hessian_ct PotR2HDM.N c w) N H.
Proof. exact R2HDM_renormalised. Qed.
Print Assumptions C99_R2HDM_renormalised_partial.
Theorem C99_R2HDM_small_derivatives_refuted :
  forall v0, 0 < v0 -> exists f par p vev cs w N H, gauge_invariant 8 slots_2HDM f /\ even_under 8 [1; 3; 5; 7]%nat f /\
  set_gen_R2HDM v0 par = Ok (p, vev, cs) /\ nth 6 par 0 = 1 /\ placed 0 PotR2HDM.N order_R2HDM vev w /\ taylor2 8 f (fun k => nth k w 0) N H /\
  forall ct c, calc_CT_R2HDM true true v0 cs (vec 8 N) (WeinbergSecondDerivative 8 H) = Ok ct -> PotR2HDM.set_CT_Pot_Par ct = Ok c ->
  ~ cancels Ok Ok PotR2HDM.N (nabla_ct PotR2HDM.N c w) (hessian_ct PotR2HDM.N c w) N H.
Proof. exact R2HDM_cut_refuted. Qed.
Print Assumptions C99_R2HDM_small_derivatives_refuted.
Example C99_nonvacuous_R2HDM : exists p vev cs w, set_gen_R2HDM 246 [3; 1; -1; 2; 1; 5000; 2; 1] = Ok (p, vev, cs) /\ placed 0 PotR2HDM.N order_R2HDM vev w /\
  gauge_invariant 8 slots_2HDM (fun l => 2 * norm2 (doublet_at (0, 1, 4, 5)%nat l)) /\ even_under 8 [1; 3; 5; 7]%nat (fun l => 2 * norm2 (doublet_at (0, 1, 4, 5)%nat l)) /\
  taylor2 8 (fun l => 2 * norm2 (doublet_at (0, 1, 4, 5)%nat l)) (fun k => nth k w 0) (norm_N [0; 1; 4; 5]%nat w) (norm_H [0; 1; 4; 5]%nat) /\
  uncut 8 (1 / 1000) (norm_H [0; 1; 4; 5]%nat).
Proof.
  idtac. do 3 eexists. exists [0; 0; 0; 0; 246 * CosBeta 2; 0; 246 * SinBeta_signed 2; 0]. split; [reflexivity|]. split.
  { exact (spread_placed 8 [2; 4; 6; 7]%nat [0; 246 * CosBeta 2; 246 * SinBeta_signed 2; 0] ltac:(nodup) eq_refl ltac:(repeat constructor)). }
  split; [apply norm_invariant; cbn; tauto|]. split; [norm_even|]. split; [norm_taylor|]. intros i j _ _ A. unfold norm_H in *. destruct (Nat.eqb i j && _)%bool; [rewrite Rabs_right in A; lra|reflexivity].
Qed.

(** missing: no vacuum expectation value of the singlet; CP is conserved *)
Theorem C99_N2HDM_renormalised_partial :
  forall f v0 par p vev c s vs w N H, v0 <> 0 -> nth 8 par 0 <> 0 -> nth 9 par 0 <> 0 -> gauge_invariant 9 slots_N2HDM f -> even_under 9 [2; 3; 4; 5]%nat f ->
  set_gen_N2HDM v0 par = Ok (p, vev, (c, s, vs)) -> placed 0 PotN2HDM.N order_N2HDM vev w -> taylor2 9 f (fun k => nth k w 0) N H ->
  exists ct c', calc_CT_N2HDM true true v0 (c, s) vs (vec 9 N) (WeinbergSecondDerivative 9 H) = Ok ct /\ PotN2HDM.set_CT_Pot_Par ct = Ok c' /\
  cancels Ok Ok PotN2HDM.N (nabla_ct PotN2HDM.N c' w) (hessian_ct PotN2HDM.N c' w) N H.
Proof. exact N2HDM_renormalised. Qed.
Print Assumptions C99_N2HDM_renormalised_partial.
(** without a vacuum expectation value of the singlet the program returns an uninitialised array *)
Theorem C99_N2HDM_no_singlet_vev_refuted :
  forall v0 cs N H, length N = 9%nat -> length H = 81%nat -> calc_CT_N2HDM true true v0 cs 0 N H = UB.
Proof. exact N2HDM_no_singlet_vev. Qed.
Print Assumptions C99_N2HDM_no_singlet_vev_refuted.
Example C99_nonvacuous_N2HDM : exists p vev cs w, set_gen_N2HDM 246 [3; 1; -1; 2; 1; 4; 5; 6; 2; 300; 5000; 1] = Ok (p, vev, cs) /\ placed 0 PotN2HDM.N order_N2HDM vev w /\
  gauge_invariant 9 slots_N2HDM (fun l => 2 * norm2 (doublet_at (0, 2, 6, 4)%nat l)) /\ even_under 9 [2; 3; 4; 5]%nat (fun l => 2 * norm2 (doublet_at (0, 2, 6, 4)%nat l)) /\
  taylor2 9 (fun l => 2 * norm2 (doublet_at (0, 2, 6, 4)%nat l)) (fun k => nth k w 0) (norm_N [0; 2; 4; 6]%nat w) (norm_H [0; 2; 4; 6]%nat).
Proof.
  idtac. do 3 eexists. exists [0; 0; 0; 0; 0; 0; 246 * CosBeta 2; 246 * SinBeta 2; 300]. split; [reflexivity|]. split.
  { exact (spread_placed 9 [1; 5; 6; 7; 8]%nat [0; 0; 246 * CosBeta 2; 246 * SinBeta 2; 300] ltac:(nodup) eq_refl ltac:(repeat constructor)). }
  split; [apply norm_invariant; cbn; tauto|]. split; [norm_even|]. norm_taylor.
Qed.

(** even_under: the dark parity, under which the second doublet and the singlet change sign *)
Theorem C99_CPintheDark_renormalised :
  forall f v0 par p vev w N H, v0 <> 0 -> gauge_invariant 9 slots_2HDM f -> even_under 9 [2; 3; 6; 7; 8]%nat f ->
  set_gen_CPintheDark v0 par = Ok (p, vev) -> placed 0 PotCPintheDark.N order_CPintheDark vev w -> taylor2 9 f (fun k => nth k w 0) N H ->
  exists ct c, calc_CT_CPintheDark true true v0 (vec 9 N) (WeinbergSecondDerivative 9 H) = Ok ct /\ PotCPintheDark.set_CT_Pot_Par ct = Ok c /\
  cancels Ok Ok PotCPintheDark.N (nabla_ct PotCPintheDark.N c w) (hessian_ct PotCPintheDark.N c w) N H.
Proof. exact CPintheDark_renormalised. Qed.
Print Assumptions C99_CPintheDark_renormalised.
Example C99_nonvacuous_CPintheDark : exists p vev w, set_gen_CPintheDark 2 [-4; 0; 0; 0; 0; 2; 0; 0; 0; 0; 0; 0; 0] = Ok (p, vev) /\ placed 0 PotCPintheDark.N order_CPintheDark vev w /\
  gauge_invariant 9 slots_2HDM (fun l => 2 * norm2 (doublet_at (0, 1, 4, 5)%nat l)) /\ even_under 9 [2; 3; 6; 7; 8]%nat (fun l => 2 * norm2 (doublet_at (0, 1, 4, 5)%nat l)) /\
  taylor2 9 (fun l => 2 * norm2 (doublet_at (0, 1, 4, 5)%nat l)) (fun k => nth k w 0) (norm_N [0; 1; 4; 5]%nat w) (norm_H [0; 1; 4; 5]%nat).
Proof.
  idtac. do 2 eexists. exists [0; 0; 0; 0; 2; 0; 0; 0; 0]. split; [reflexivity|]. split.
  { exact (spread_placed 9 [2; 4; 6; 7; 8]%nat [0; 2; 0; 0; 0] ltac:(nodup) eq_refl ltac:(repeat constructor)). }
  split; [apply norm_invariant; cbn; tauto|]. split; [norm_even|]. norm_taylor.
Qed.

(** missing: mixings of the doublet with the singlet that are not along the vacuum expectation value of the singlet, and a result that the cut-off 1e-5 changes *)
Theorem C99_CxSM_renormalised_partial :
  forall f par p vev w N H ct, nth 0 par 0 <> 0 -> gauge_invariant 6 slots_CxSM f ->
  set_gen_CxSM par = Ok (p, vev) -> placed 0 PotCxSM.N order_CxSM vev w -> taylor2 6 f (fun k => nth k w 0) N H ->
  H 3%nat 4%nat * nth 2 par 0 = H 3%nat 5%nat * nth 1 par 0 -> (nth 1 par 0 = 0 -> nth 2 par 0 = 0 -> H 3%nat 4%nat = 0 /\ H 3%nat 5%nat = 0) ->
  calc_CT_CxSM true true (nth 0 par 0) (nth 1 par 0) (nth 2 par 0) (PotCxSM.p_Ima1 p) (vec 6 N) (WeinbergSecondDerivative 6 H) = Ok ct ->
  calc_CT_CxSM_cut 0 true true (nth 0 par 0) (nth 1 par 0) (nth 2 par 0) (PotCxSM.p_Ima1 p) (vec 6 N) (WeinbergSecondDerivative 6 H) = Ok ct ->
  exists c, PotCxSM.set_CT_Pot_Par ct = Ok c /\ cancels Ok Ok PotCxSM.N (nabla_ct PotCxSM.N c w) (hessian_ct PotCxSM.N c w) N H.
Proof. exact CxSM_renormalised. Qed.
Print Assumptions C99_CxSM_renormalised_partial.
(** a mixing of the doublet with one component of the singlet, whatever the cut-off *)
Theorem C99_CxSM_mixing_refuted :
  forall vh vs va Ima1, vh <> 0 -> vs <> 0 -> va <> 0 -> exists f par p vev w N H, gauge_invariant 6 slots_CxSM f /\
  set_gen_CxSM par = Ok (p, vev) /\ nth 0 par 0 = vh /\ nth 1 par 0 = vs /\ nth 2 par 0 = va /\ nth 11 par 0 = Ima1 /\ placed 0 PotCxSM.N order_CxSM vev w /\
  taylor2 6 f (fun k => nth k w 0) N H /\
  forall cut ct c, 0 <= cut -> calc_CT_CxSM_cut cut true true vh vs va Ima1 (vec 6 N) (WeinbergSecondDerivative 6 H) = Ok ct ->
    PotCxSM.set_CT_Pot_Par ct = Ok c -> ~ cancels Ok Ok PotCxSM.N (nabla_ct PotCxSM.N c w) (hessian_ct PotCxSM.N c w) N H.
Proof. exact CxSM_mixing_refuted. Qed.
Print Assumptions C99_CxSM_mixing_refuted.
Theorem C99_CxSM_small_derivatives_refuted :
  forall vh, vh <> 0 -> exists f par p vev w N H, gauge_invariant 6 slots_CxSM f /\
  set_gen_CxSM par = Ok (p, vev) /\ par = [vh; 0; 0; 0; 1; 0; 0; 0; 0; 0; 0; 0] /\ placed 0 PotCxSM.N order_CxSM vev w /\ taylor2 6 f (fun k => nth k w 0) N H /\
  H 3%nat 4%nat = 0 /\ H 3%nat 5%nat = 0 /\
  forall ct c, calc_CT_CxSM true true vh 0 0 (PotCxSM.p_Ima1 p) (vec 6 N) (WeinbergSecondDerivative 6 H) = Ok ct ->
    PotCxSM.set_CT_Pot_Par ct = Ok c -> ~ cancels Ok Ok PotCxSM.N (nabla_ct PotCxSM.N c w) (hessian_ct PotCxSM.N c w) N H.
Proof. exact CxSM_cut_refuted. Qed.
Print Assumptions C99_CxSM_small_derivatives_refuted.
Example C99_nonvacuous_CxSM : exists p vev w ct,
  let f := fun l => 2 * norm2 (doublet_at (0, 1, 3, 2)%nat l) in let N := norm_N [0; 1; 2; 3]%nat w in let H := norm_H [0; 1; 2; 3]%nat in
  set_gen_CxSM [246; 0; 0; 0; 1; 0; 0; 0; 0; 0; 0; 0] = Ok (p, vev) /\ placed 0 PotCxSM.N order_CxSM vev w /\
  gauge_invariant 6 slots_CxSM f /\ taylor2 6 f (fun k => nth k w 0) N H /\ H 3%nat 4%nat = 0 /\ H 3%nat 5%nat = 0 /\
  calc_CT_CxSM true true 246 0 0 (PotCxSM.p_Ima1 p) (vec 6 N) (WeinbergSecondDerivative 6 H) = Ok ct /\
  calc_CT_CxSM_cut 0 true true 246 0 0 (PotCxSM.p_Ima1 p) (vec 6 N) (WeinbergSecondDerivative 6 H) = Ok ct.
Proof.
  unfold set_gen_CxSM. destruct (Req_EM_T 0 0) as [_|X]; [|contradiction]. do 2 eexists. exists [0; 0; 0; 246; 0; 0]. eexists. cbv zeta.
  split; [reflexivity|]. split; [exact (spread_placed 6 [3; 4; 5]%nat [246; 0; 0] ltac:(nodup) eq_refl ltac:(repeat constructor))|].
  split; [apply norm_invariant; cbn; tauto|]. split; [norm_taylor|]. split; [reflexivity|]. split; [reflexivity|].
  split; [reflexivity|].
  unfold calc_CT_CxSM, calc_CT_CxSM_cut. rewrite !derivatives_ok. cbv zeta. destruct (Req_EM_T 0 0) as [_|X]; [|contradiction].
  assert (Z : forall c, 0 <= c -> cut_le c 0 = 0) by (intros c Q; apply cut_small; rewrite Rabs_R0; exact Q).
  assert (B : forall c x, 0 <= c < 1 -> 2 <= Rabs x -> cut_le c x = x) by (intros c x Q W; unfold cut_le; destruct (Rle_dec (Rabs x) c); [lra|reflexivity]).
  cbv -[Rplus Rminus Rmult Rdiv Ropp Rinv IZR sqrt pow cut_le Rle]. apply f_equal.
  assert (E : cut_le 0 2 = 2 /\ cut_le (1 / 100000) 2 = 2 /\ cut_le 0 (2 * 246) = 2 * 246 /\ cut_le (1 / 100000) (2 * 246) = 2 * 246)
    by (repeat split; apply B; rewrite ?Rabs_right; lra).
  destruct E as (-> & -> & -> & ->). rewrite !Rmult_0_r, !(Z 0), !(Z (1 / 100000)) by lra. repeat (apply (f_equal2 cons)); try reflexivity.
  all: try (match goal with |- cut_le _ ?x = cut_le _ ?y => replace y with 0 by (unfold Rdiv; ring); rewrite !Z by lra; reflexivity end).
  all: rewrite !B; [reflexivity|lra| |lra|]; rewrite Rabs_left; lra.
Qed.
