(** Functions for which the counterterms do not cancel the derivatives. *)
From Coq Require Import Reals Lra Lia ZArith List Permutation Bool.
From Verif.Model Require Import Base Potential Tables Vacua CTs.
From Verif.Model Require PotSM PotCxSM PotR2HDM PotC2HDM PotN2HDM PotCPintheDark.
From Verif.Spec Require Import NumDerivSpec PotentialSpec ScalarSpec WardSpec CTSpec.
From Verif.Proofs Require Import NumDerivProofs PotentialProofs Contract Contract2 TabTac VacTac VacuumCore VacuaProofs ScalarProofs WardTools WardProofs WardModels CTProofs CTSinglet.
From Verif.Proofs Require PotSMProofs PotCxSMProofs PotR2HDMProofs PotC2HDMProofs PotN2HDMProofs PotCPintheDarkProofs.
Import ListNotations.
Local Open Scope R_scope.

Lemma cut_small c x : Rabs x <= c -> cut_le c x = 0.
Proof. intro A. unfold cut_le. now destruct (Rle_dec (Rabs x) c). Qed.
Lemma norm_invariant n ds q k : In q ds -> gauge_invariant n ds (fun l => k * norm2 (doublet_at q l)).
Proof. intros I U v w UN (_ & _ & D & _). rewrite (D q I), norm2_unitary by exact UN. reflexivity. Qed.
Lemma taylor_exact n f v N H : (forall i j, (i < n)%nat -> (j < n)%nat -> H i j = H j i) ->
  (forall h, f (vec n (fun i => v i + h i)) - f (vec n v) - sumR n (fun i => N i * h i) - / 2 * sumR n (fun i => sumR n (fun j => H i j * (h i * h j))) = 0) ->
  taylor2 n f v N H.
Proof.
  intros S E. split; [exact S|]. intros eps P. exists 1. split; [lra|]. intros h _. rewrite E, Rabs_R0.
  apply Rmult_le_pos; [lra|]. exact (dot_nonneg n h).
Qed.

(** R2HDM: second derivatives up to 1e-3 are dropped *)
Definition small_R2HDM (l : list R) : R := / 10000 * norm2 (doublet_at (0, 1, 4, 5)%nat l).
Definition small_N (v1 : R) (i : nat) : R := if Nat.eqb i 4 then / 10000 * v1 else 0.
Definition small_H (i j : nat) : R := if Nat.eqb i j then if existsb (Nat.eqb i) [0; 1; 4; 5]%nat then / 10000 else 0 else 0.
Lemma small_sym i j : small_H i j = small_H j i.
Proof. unfold small_H. destruct (Nat.eqb_spec i j) as [->|NE]; [now rewrite Nat.eqb_refl|]. destruct (Nat.eqb_spec j i); [congruence|reflexivity]. Qed.
Lemma small_taylor v1 v2 : taylor2 8 small_R2HDM (fun k => nth k [0; 0; 0; 0; v1; 0; v2; 0] 0) (small_N v1) small_H.
Proof.
  apply taylor_exact; [intros; apply small_sym|]. intro h. unfold small_R2HDM, doublet_at. rewrite !nth_vec by lia. rewrite !norm2_ok.
  cbn [sumR small_N small_H Nat.eqb existsb nth orb]. field.
Qed.
(** one entry of the Hessian of the counterterm potential *)
Ltac hess_entry n G v S i j :=
  let HS := fresh "HS" in let Kh := fresh "Kh" in
  assert (HS : forall k, inb S k = false -> nth k v 0 = 0) by support;
  match type of G with good _ _ ?t1 ?t2 ?t3 ?t4 => compute_as Kh (hess_rows n t2 t3 t4 v S) end;
  let h := fresh "h" in let Eh := fresh "Eh" in let Ah := fresh "Ah" in
  destruct (ct_hess_rows _ _ _ _ _ _ G v eq_refl _ HS _ Kh) as (h & Eh & Ah);
  let E := fresh "E" in intros ? E; rewrite Eh in E; apply Ok_inj in E; subst h; rewrite (Ah i j ltac:(unfold n; lia) ltac:(unfold n; lia)); unfold entry2; cbn [nth].
Lemma R2HDM_hess44 v1 v2 x0 x1 x2 x3 x4 x5 x6 x7 x8 x9 x10 :
  forall h, hessian_ct PotR2HDM.N (PotR2HDMProofs.ct_tensors (PotR2HDM.mkC x0 x1 x2 x3 x4 x5 x6 x7 x8 x9 x10)) [0; 0; 0; 0; v1; 0; v2; 0] = Ok h ->
  h 4%nat 4%nat = x0 + 3 / 2 * x3 * v1 ^ 2 + (x5 + x6 + x7) / 2 * v2 ^ 2.
Proof.
  pose proof (PotR2HDMProofs.ct_ok (PotR2HDM.mkC x0 x1 x2 x3 x4 x5 x6 x7 x8 x9 x10)) as G.
  hess_entry PotR2HDM.N G [0; 0; 0; 0; v1; 0; v2; 0] [4; 6]%nat 4%nat 4%nat. field.
Qed.
Lemma CxSM_hess34 vh vs va x0 x1 x2 x3 x4 x5 x6 x7 x8 x9 x10 x11 x12 x13 x14 :
  forall h, hessian_ct PotCxSM.N (PotCxSMProofs.ct_tensors (PotCxSM.mkC x0 x1 x2 x3 x4 x5 x6 x7 x8 x9 x10 x11 x12 x13 x14)) [0; 0; 0; vh; vs; va] = Ok h ->
  h 3%nat 4%nat = x2 / 2 * vh * vs.
Proof.
  pose proof (PotCxSMProofs.ct_ok (PotCxSM.mkC x0 x1 x2 x3 x4 x5 x6 x7 x8 x9 x10 x11 x12 x13 x14)) as G.
  hess_entry PotCxSM.N G [0; 0; 0; vh; vs; va] [3; 4; 5]%nat 3%nat 4%nat. field.
Qed.
Lemma CxSM_hess44 vh x0 x1 x2 x3 x4 x5 x6 x7 x8 x9 x10 x11 x12 x13 x14 :
  forall h, hessian_ct PotCxSM.N (PotCxSMProofs.ct_tensors (PotCxSM.mkC x0 x1 x2 x3 x4 x5 x6 x7 x8 x9 x10 x11 x12 x13 x14)) [0; 0; 0; vh; 0; 0] = Ok h ->
  h 4%nat 4%nat = x3 / 2 + x5 / 2 + x2 / 4 * vh ^ 2.
Proof.
  pose proof (PotCxSMProofs.ct_ok (PotCxSM.mkC x0 x1 x2 x3 x4 x5 x6 x7 x8 x9 x10 x11 x12 x13 x14)) as G.
  hess_entry PotCxSM.N G [0; 0; 0; vh; 0; 0] [3]%nat 4%nat 4%nat. field.
Qed.
Ltac name_result E := match type of E with ?x = _ => let y := eval cbv -[Rplus Rminus Rmult Rdiv Ropp Rinv IZR sqrt pow cut_le cut_lt] in x in
    let Y := fresh "Y" in assert (Y : x = y) by (cbv -[Rplus Rminus Rmult Rdiv Ropp Rinv IZR sqrt pow cut_le cut_lt]; reflexivity); rewrite Y in E; clear Y; apply Ok_inj in E end.

Lemma R2HDM_cut_refuted v0 : 0 < v0 -> exists f par p vev cs w N H, gauge_invariant 8 slots_2HDM f /\ even_under 8 [1; 3; 5; 7]%nat f /\
  set_gen_R2HDM v0 par = Ok (p, vev, cs) /\ nth 6 par 0 = 1 /\ placed 0 PotR2HDM.N order_R2HDM vev w /\ taylor2 8 f (fun k => nth k w 0) N H /\
  forall ct c, calc_CT_R2HDM true true v0 cs (vec 8 N) (WeinbergSecondDerivative 8 H) = Ok ct -> PotR2HDM.set_CT_Pot_Par ct = Ok c -> ~ ct_cancels PotR2HDM.N c w N H.
Proof.
  intro V. set (v1 := v0 * CosBeta 1). set (v2 := v0 * SinBeta_signed 1).
  exists small_R2HDM, [0; 0; 0; 0; 0; 0; 1; 1]. do 3 eexists. exists [0; 0; 0; 0; v1; 0; v2; 0], (small_N v1), small_H.
  split; [apply norm_invariant; cbn; tauto|]. split.
  { intro x. unfold small_R2HDM, doublet_at. rewrite !nth_vec by lia. unfold flipped. cbn [existsb Nat.eqb orb]. rewrite !norm2_ok. field. }
  split; [reflexivity|]. split; [reflexivity|]. split.
  { exact (spread_placed 8 [2; 4; 6; 7]%nat [0; v1; v2; 0] ltac:(nodup) eq_refl ltac:(repeat constructor)). }
  split; [apply small_taylor|]. intros ct c E1 E2 (g & h & _ & Eh & _ & Ah).
  unfold calc_CT_R2HDM in E1. rewrite derivatives_ok in E1. cbn [fst snd] in E1. fold v1 v2 in E1. clearbody v1 v2.
  name_result E1. subst ct.
  assert (C1 : cut_le (1 / 1000) (/ 10000) = 0) by (apply cut_small; rewrite Rabs_right; lra).
  assert (C0 : cut_le (1 / 1000) 0 = 0) by (apply cut_small; rewrite Rabs_R0; lra).
  rewrite !C1, !C0 in E2. rewrite R2HDM_read in E2. apply Ok_inj in E2. subst c.
  apply R2HDM_hess44 in Eh. specialize (Ah 4%nat 4%nat ltac:(unfold PotR2HDM.N; lia) ltac:(unfold PotR2HDM.N; lia)).
  rewrite Eh in Ah. change (small_H 4 4) with (/ 10000) in Ah. unfold Rdiv in Ah. ring_simplify in Ah. lra.
Qed.

(** CxSM: second derivatives up to 1e-5 are dropped *)
Definition small_CxSM (l : list R) : R := / 1000000 * (nth 4 l 0 * nth 4 l 0 / 2).
Lemma CxSM_cut_refuted vh : vh <> 0 -> exists f par p vev w N H, gauge_invariant 6 slots_CxSM f /\
  set_gen_CxSM par = Ok (p, vev) /\ par = [vh; 0; 0; 0; 1; 0; 0; 0; 0; 0; 0; 0] /\ placed 0 PotCxSM.N order_CxSM vev w /\ taylor2 6 f (fun k => nth k w 0) N H /\
  H 3%nat 4%nat = 0 /\ H 3%nat 5%nat = 0 /\
  forall ct c, calc_CT_CxSM true true vh 0 0 (PotCxSM.p_Ima1 p) (vec 6 N) (WeinbergSecondDerivative 6 H) = Ok ct ->
    PotCxSM.set_CT_Pot_Par ct = Ok c -> ~ ct_cancels PotCxSM.N c w N H.
Proof.
  intro V. exists small_CxSM, [vh; 0; 0; 0; 1; 0; 0; 0; 0; 0; 0; 0]. unfold set_gen_CxSM.
  destruct (Req_EM_T 0 0) as [_|X]; [|contradiction].
  do 2 eexists. exists [0; 0; 0; vh; 0; 0], (fun _ => 0), (fun i j => if (Nat.eqb i 4 && Nat.eqb j 4)%bool then / 1000000 else 0).
  split. { intros U v w _ (_ & _ & _ & I). unfold small_CxSM. rewrite (I 4%nat); [reflexivity|lia|cbn; lia]. }
  split; [reflexivity|]. split; [reflexivity|]. split.
  { exact (spread_placed 6 [3; 4; 5]%nat [vh; 0; 0] ltac:(nodup) eq_refl ltac:(repeat constructor)). }
  split.
  { apply taylor_exact; [intros i j _ _; now rewrite andb_comm|]. intro h. unfold small_CxSM. rewrite !nth_vec by lia. cbn [sumR Nat.eqb andb nth]. field. }
  split; [reflexivity|]. split; [reflexivity|]. intros ct c E1 E2 (g & h & _ & Eh & _ & Ah).
  unfold calc_CT_CxSM, calc_CT_CxSM_cut in E1. rewrite derivatives_ok in E1. cbv zeta in E1.
  destruct (Req_EM_T 0 0) as [_|X]; [|contradiction]. name_result E1. subst ct.
  assert (C1 : cut_le (1 / 100000) (/ 1000000) = 0) by (apply cut_small; rewrite Rabs_right; lra).
  assert (C0 : cut_le (1 / 100000) 0 = 0) by (apply cut_small; rewrite Rabs_R0; lra).
  rewrite !C1, !C0, CxSM_read in E2. apply Ok_inj in E2. subst c.
  apply CxSM_hess44 in Eh. specialize (Ah 4%nat 4%nat ltac:(unfold PotCxSM.N; lia) ltac:(unfold PotCxSM.N; lia)).
  rewrite Eh in Ah. cbn [Nat.eqb andb] in Ah. replace (-0 - 0) with 0 in Ah by ring. replace (0 - 0) with 0 in Ah by ring. rewrite C0 in Ah. lra.
Qed.

(** CxSM: no counterterm for different mixings of the doublet with the two components of the singlet *)
Definition mixing_CxSM (l : list R) : R := 2 * norm2 (doublet_at (0, 1, 3, 2)%nat l) * nth 4 l 0.
Lemma CxSM_mixing_refuted vh vs va Ima1 : vh <> 0 -> vs <> 0 -> va <> 0 -> exists f par p vev w N H, gauge_invariant 6 slots_CxSM f /\
  set_gen_CxSM par = Ok (p, vev) /\ nth 0 par 0 = vh /\ nth 1 par 0 = vs /\ nth 2 par 0 = va /\ nth 11 par 0 = Ima1 /\ placed 0 PotCxSM.N order_CxSM vev w /\
  taylor2 6 f (fun k => nth k w 0) N H /\
  forall cut ct c, 0 <= cut -> calc_CT_CxSM_cut cut true true vh vs va Ima1 (vec 6 N) (WeinbergSecondDerivative 6 H) = Ok ct ->
    PotCxSM.set_CT_Pot_Par ct = Ok c -> ~ ct_cancels PotCxSM.N c w N H.
Proof.
  intros Vh Vs Va.
  exists mixing_CxSM, [vh; vs; va; 0; 1; 0; 0; 0; 0; 0; 0; Ima1]. unfold set_gen_CxSM.
  destruct (Req_EM_T va 0) as [X|_]; [contradiction|]. destruct (Req_EM_T vs 0) as [X|_]; [contradiction|].
  do 2 eexists. exists [0; 0; 0; vh; vs; va], (fun i => if Nat.eqb i 3 then 2 * vh * vs else if Nat.eqb i 4 then vh * vh else 0),
    (fun i j => if Nat.eqb i j then if existsb (Nat.eqb i) [0; 1; 2; 3]%nat then 2 * vs else 0
       else if (Nat.eqb i 3 && Nat.eqb j 4 || Nat.eqb i 4 && Nat.eqb j 3)%bool then 2 * vh else 0).
  split.
  { intros U v w UN (_ & _ & D & I). unfold mixing_CxSM. rewrite (D (0, 1, 3, 2)%nat), norm2_unitary by (first [exact UN|cbn; tauto]).
    rewrite (I 4%nat); [reflexivity|lia|cbn; lia]. }
  split; [reflexivity|]. do 4 (split; [reflexivity|]). split.
  { exact (spread_placed 6 [3; 4; 5]%nat [vh; vs; va] ltac:(nodup) eq_refl ltac:(repeat constructor)). }
  split.
  { split. { intros i j _ _. destruct (Nat.eqb_spec i j) as [->|NE]; [now rewrite Nat.eqb_refl|]. destruct (Nat.eqb_spec j i); [congruence|].
      rewrite (andb_comm (Nat.eqb i 3)), (andb_comm (Nat.eqb i 4)), orb_comm. reflexivity. }
    intros eps P. exists eps. split; [exact P|]. intros h B. pose proof (B 4%nat ltac:(lia)) as B4.
    unfold mixing_CxSM, doublet_at. rewrite !nth_vec by lia. rewrite !norm2_ok. cbn [sumR Nat.eqb andb orb existsb nth].
    match goal with |- Rabs ?x <= _ => replace x with ((h 0%nat * h 0%nat + h 1%nat * h 1%nat + h 2%nat * h 2%nat + h 3%nat * h 3%nat) * h 4%nat) by field end.
    rewrite Rabs_mult. pose proof (Rle_0_sqr (h 0%nat)). pose proof (Rle_0_sqr (h 1%nat)). pose proof (Rle_0_sqr (h 2%nat)). pose proof (Rle_0_sqr (h 3%nat)).
    pose proof (Rle_0_sqr (h 4%nat)). pose proof (Rle_0_sqr (h 5%nat)). unfold Rsqr in *. rewrite Rabs_right by lra.
    apply Rle_trans with ((h 0%nat * h 0%nat + h 1%nat * h 1%nat + h 2%nat * h 2%nat + h 3%nat * h 3%nat) * eps); [apply Rmult_le_compat_l; lra|].
    rewrite (Rmult_comm _ eps). apply Rmult_le_compat_l; lra. }
  intros cut ct c Hc E1 E2 (g & h & _ & Eh & _ & Ah).
  unfold calc_CT_CxSM_cut in E1. rewrite derivatives_ok in E1. cbv zeta in E1.
  destruct (Req_EM_T va 0) as [X|_]; [contradiction|]. destruct (Req_EM_T vs 0) as [X|_]; [contradiction|].
  assert (C0 : cut_le cut 0 = 0) by (apply cut_small; rewrite Rabs_R0; exact Hc).
  assert (Ah' := Ah 3%nat 4%nat ltac:(unfold PotCxSM.N; lia) ltac:(unfold PotCxSM.N; lia)). cbn [Nat.eqb andb orb] in Ah'.
  destruct (Req_EM_T Ima1 0) as [_|_]; name_result E1; subst ct; rewrite CxSM_read in E2; apply Ok_inj in E2; subst c;
    apply CxSM_hess34 in Eh; rewrite Eh, C0, Rmult_0_r, C0 in Ah'; lra.
Qed.
