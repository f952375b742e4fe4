(** A light fermion: the loop functions treat its squared mass as zero. *)
From Coq Require Import Reals List Lra Lia Bool.
From Coquelicot Require Import Coquelicot.
From Verif Require Import Model.Base Model.Loop Model.LoopFour Model.EigenDeriv Model.Weinberg Model.WeinbergHigher Spec.WeinbergHigherSpec.
From Verif Require Import Proofs.EigenProofs Proofs.EigenBranch Proofs.WeinbergProofs Proofs.WeinbergHigherProofs Proofs.WeinbergHigherParts Proofs.WeinbergHigherRun Proofs.WeinbergHigherResult Proofs.WeinbergHigherTotal.
Import ListNotations.
Open Scope R_scope.
Local Notation value := WeinbergHigher.value.
Local Notation tri := WeinbergHigher.tri.
Local Notation four := WeinbergHigher.four.

(** a fermion of squared mass (y v)^2 with y = 1 and v = 1e-5 *)
Definition light : sector := mkSector 1 (fun _ => / 10 ^ 10) (fun _ _ => 1) (fun _ _ _ => RtoC (2 / 10 ^ 5)) (fun _ _ _ _ => RtoC 2) (3 / 2) (-1).
Definition dl (a : nat) : R := 2 / 10 ^ 5.
Definition el (a : nat) : R := 2.
Definition one_rot (i j : nat) : R := 1.
Definition one_dir (i : nat) : R := 1.
Lemma one_ortho : orthonormal 1 one_rot.
Proof. intros l m L M. replace l with 0%nat by lia. replace m with 0%nat by lia. unfold one_rot. cbn. ring. Qed.
Lemma light_slope : diagonal light (slope 1 one_dir light) dl.
Proof.
  intros a b A B. cbn [size light] in A, B. replace a with 0%nat by lia. replace b with 0%nat by lia. unfold slope, one_dir, dl. cbn [size light csum rot lambda3 Nat.eqb].
  apply injective_projections; cbn; field.
Qed.
Lemma light_curve : diagonal light (curve 1 one_dir light) el.
Proof.
  intros a b A B. cbn [size light] in A, B. replace a with 0%nat by lia. replace b with 0%nat by lia. unfold curve, one_dir, el. cbn [size light csum rot lambda4 Nat.eqb].
  apply injective_projections; cbn; ring.
Qed.
Lemma light_positive : forall s d e, In (s, d, e) [(light, dl, el)] -> positive s d e.
Proof. intros s d e [E|[]]. injection E as <- <- <-. intros a A. left. cbn [mass2 light]. apply Rinv_0_lt_compat. apply pow_lt. lra. Qed.
Lemma light_tri : fbaseTri 1 (/ 10 ^ 10) (/ 10 ^ 10) (/ 10 ^ 10) = Ok 0.
Proof.
  unfold fbaseTri. replace (snap0 (/ 10 ^ 10)) with 0.
  - rewrite !snap_same. unfold tri_branch, is0. destruct (Req_EM_T 0 0); [reflexivity|contradiction].
  - unfold snap0, Thres. destruct (Rlt_dec _ _) as [Q|Q]; [reflexivity|]. exfalso. apply Q. rewrite Rabs_right; lra.
Qed.
Lemma light_four : fbaseFour 1 (/ 10 ^ 10) (/ 10 ^ 10) (/ 10 ^ 10) (/ 10 ^ 10) = Ok 0.
Proof.
  unfold fbaseFour. replace (snap0_4 (/ 10 ^ 10)) with 0.
  - rewrite !snap4_same. unfold four_branch. replace (is0 0) with true by (unfold is0; destruct (Req_EM_T 0 0); [reflexivity|contradiction]). reflexivity.
  - unfold snap0_4, Thres4. destruct (Rlt_dec _ _) as [Q|Q]; [reflexivity|]. exfalso. apply Q. rewrite Rabs_right; lra.
Qed.
Lemma light_value3 : con3 1 one_dir (rotated3 1 one_rot 1 [light]) - Vn 1 [(light, dl, el)] 3 0 = / (16 * PI ^ 2) * (8 / 10 ^ 5).
Proof.
  unfold rotated3. rewrite (con3_ext 1 one_dir _ (fun l m n => epsilon * rsum 1 (fun i => rsum 1 (fun j => rsum 1 (fun k => one_rot i l * one_rot j m * one_rot k n * restmp3 1 one_rot 1 [light] i j k))))) by (intros; apply Rmult_comm).
  rewrite con3_scal, con3_turn. unfold restmp3. rewrite con3_parts. unfold Vn. rewrite eps_spec. unfold parts. cbn [fold_right map]. rewrite con3_scal, con3_sym.
  rewrite (third_con 1 one_rot one_dir 1 one_ortho light dl el light_slope light_curve). unfold term. cbn [size light rsum]. rewrite !Rplus_0_l.
  rewrite bracket_equal by (cbn [mass2 light]; lra). unfold tri. cbn [mass2 light factor cwconst]. rewrite light_tri. cbn [WeinbergHigher.value]. unfold G, Lt, Mt, dl, el.
  replace (/ 10 ^ 10 + 2 / 10 ^ 5 * 0 + 2 * 0 ^ 2 / 2) with (/ 10 ^ 10) by field. generalize (ln (/ 10 ^ 10 / 1 ^ 2)). intros l. pose proof PI_RGT_0. field. lra.
Qed.
Lemma light_value4 : con4 1 one_dir (rotated4 1 one_rot 1 [light]) - Vn 1 [(light, dl, el)] 4 0 = / (16 * PI ^ 2) * 32.
Proof.
  unfold rotated4. rewrite (con4_ext 1 one_dir _ (fun a l m n => epsilon * rsum 1 (fun h => rsum 1 (fun i => rsum 1 (fun j => rsum 1 (fun k => one_rot h a * one_rot i l * one_rot j m * one_rot k n * restmp4 1 one_rot 1 [light] h i j k)))))) by (intros; apply Rmult_comm).
  rewrite con4_scal, con4_turn. unfold restmp4. rewrite con4_parts. unfold Vn. rewrite eps_spec. unfold parts. cbn [fold_right map]. rewrite con4_scal, con4_sym.
  rewrite (fourth_con 1 one_rot one_dir 1 one_ortho light dl el light_slope light_curve). unfold term. cbn [size light rsum]. rewrite !Rplus_0_l.
  rewrite bracket_equal by (cbn [mass2 light]; lra). unfold tri, four. cbn [mass2 light factor cwconst]. rewrite light_tri, light_four. cbn [WeinbergHigher.value]. unfold G, Lt, Mt, dl, el.
  replace (/ 10 ^ 10 + 2 / 10 ^ 5 * 0 + 2 * 0 ^ 2 / 2) with (/ 10 ^ 10) by field. generalize (ln (/ 10 ^ 10 / 1 ^ 2)). intros l. pose proof PI_RGT_0. field. lra.
Qed.
Lemma pi_bound : / 256 <= / (16 * PI ^ 2).
Proof. pose proof PI_RGT_0. pose proof PI_4. apply Rinv_le_contravar; [nra|]. nra. Qed.
Lemma light_nonneg : forall s a, In s [light] -> (a < size s)%nat -> 0 <= mass2 s a.
Proof. intros s a [<- |[]] A. cbn [mass2 light]. lra. Qed.
Lemma light_third : exists r v, WeinbergThirdDerivative 1 one_rot 1 [light] true = Ok (Some r) /\
  is_derive_n (one_loop 1 [(light, dl, el)]) 3 0 v /\ / 10 ^ 7 < Rabs (contract3 1 one_dir r - v).
Proof.
  destruct (third_returns 1 one_rot 1 [light] light_nonneg) as [r E]. exists r, (Vn 1 [(light, dl, el)] 3 0). split; [exact E|].
  split; [apply (nth_derivative 1 ltac:(lra) _ 2 light_positive); lia|]. apply third_is in E. subst r. rewrite contract3_con.
  assert (B : Rabs (con3 1 one_dir (ThirdDeriv 1 one_rot 1 [light]) - con3 1 one_dir (rotated3 1 one_rot 1 [light])) <= total 1 one_dir ^ 3 * NumZero).
  { apply (con3_bound 1 one_dir); [left; exact NumZero_pos|]. intros. apply clip_err. left. exact NumZero_pos. }
  replace (total 1 one_dir) with 1 in B by (unfold total, one_dir; cbn [rsum]; rewrite Rabs_right; lra).
  pose proof light_value3 as E3. pose proof pi_bound as Pb. unfold NumZero in B. revert B E3. generalize (con3 1 one_dir (ThirdDeriv 1 one_rot 1 [light])), (con3 1 one_dir (rotated3 1 one_rot 1 [light])), (Vn 1 [(light, dl, el)] 3 0).
  intros x y z B E3. revert Pb E3. generalize (/ (16 * PI ^ 2)). intros p Pb E3. apply Rabs_le_between in B. unfold Rabs. destruct (Rcase_abs (x - z)); lra.
Qed.
Lemma light_fourth : exists r v, WeinbergForthDerivative 1 one_rot 1 [light] true = Ok (Some r) /\
  is_derive_n (one_loop 1 [(light, dl, el)]) 4 0 v /\ / 10 < Rabs (contract4 1 one_dir r - v).
Proof.
  destruct (fourth_returns 1 one_rot 1 [light] light_nonneg) as [r E]. exists r, (Vn 1 [(light, dl, el)] 4 0). split; [exact E|].
  split; [apply (nth_derivative 1 ltac:(lra) _ 3 light_positive); lia|]. apply fourth_is in E. subst r. rewrite contract4_con, con4_reverse.
  assert (B : Rabs (con4 1 one_dir (FourthDeriv 1 one_rot 1 [light]) - con4 1 one_dir (rotated4 1 one_rot 1 [light])) <= total 1 one_dir ^ 4 * NumZero).
  { apply (con4_bound 1 one_dir); [left; exact NumZero_pos|]. intros. apply clip_err. left. exact NumZero_pos. }
  replace (total 1 one_dir) with 1 in B by (unfold total, one_dir; cbn [rsum]; rewrite Rabs_right; lra).
  pose proof light_value4 as E4. pose proof pi_bound as Pb. unfold NumZero in B. revert B E4. generalize (con4 1 one_dir (FourthDeriv 1 one_rot 1 [light])), (con4 1 one_dir (rotated4 1 one_rot 1 [light])), (Vn 1 [(light, dl, el)] 4 0).
  intros x y z B E4. revert Pb E4. generalize (/ (16 * PI ^ 2)). intros p Pb E4. apply Rabs_le_between in B. unfold Rabs. destruct (Rcase_abs (x - z)); lra.
Qed.

(** two massive states and a massless one along a diagonal line *)
Definition pair_mass (a : nat) : R := match a with 0%nat => 1 | 1%nat => 4 | _ => 0 end.
Definition pair_d (a : nat) : R := match a with 0%nat => 2 | 1%nat => 1 | _ => 0 end.
Definition pair_e (a : nat) : R := match a with 0%nat => 2 | 1%nat => 3 | _ => 0 end.
Definition kron (a b : nat) : R := if Nat.eqb a b then 1 else 0.
Definition three : sector := mkSector 3 pair_mass kron (fun a b _ => RtoC (kron a b * pair_d a)) (fun a b _ _ => RtoC (kron a b * pair_e a)) (3 / 2) (1 / 2).
Lemma three_slope : diagonal three (slope 1 one_dir three) pair_d.
Proof.
  intros a b A B. cbn [size three] in A, B. unfold slope, one_dir, kron. cbn [size three csum rot lambda3].
  destruct a as [|[|[|a]]]; [| | |lia]; (destruct b as [|[|[|b]]]; [| | |lia]); apply injective_projections; cbn; unfold kron; cbn; ring.
Qed.
Lemma three_curve : diagonal three (curve 1 one_dir three) pair_e.
Proof.
  intros a b A B. cbn [size three] in A, B. unfold curve, one_dir, kron. cbn [size three csum rot lambda4].
  destruct a as [|[|[|a]]]; [| | |lia]; (destruct b as [|[|[|b]]]; [| | |lia]); apply injective_projections; cbn; unfold kron; cbn; ring.
Qed.
Lemma three_massive : massive_or_decoupled three pair_d pair_e.
Proof.
  intros a A. cbn [size three mass2] in *. destruct a as [|[|[|a]]]; [left|left|right|lia]; cbn [mass2 three pair_mass]; rewrite ?fifth; try lra. repeat split; reflexivity.
Qed.
Lemma light_refuted : exists s d e, 0 < mass2 s 0 /\ size s = 1%nat /\
  diagonal s (slope 1 (fun _ => 1) s) d /\ diagonal s (curve 1 (fun _ => 1) s) e /\
  (exists r v, WeinbergThirdDerivative 1 (fun _ _ => 1) 1 [s] true = Ok (Some r) /\ is_derive_n (one_loop 1 [(s, d, e)]) 3 0 v /\
     / 10 ^ 7 < Rabs (contract3 1 (fun _ => 1) r - v)) /\
  (exists r v, WeinbergForthDerivative 1 (fun _ _ => 1) 1 [s] true = Ok (Some r) /\ is_derive_n (one_loop 1 [(s, d, e)]) 4 0 v /\
     / 10 < Rabs (contract4 1 (fun _ => 1) r - v)).
Proof.
  exists light, dl, el. split; [cbn [mass2 light]; lra|]. split; [reflexivity|]. split; [exact light_slope|]. split; [exact light_curve|]. exact (conj light_third light_fourth).
Qed.
