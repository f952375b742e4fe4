(** The expansions of the interpolated thermal functions at the arguments where they meet (C86). *)
From Coq Require Import Reals Lra Lia Psatz ZArith.
From Verif.Model Require Import Base Thermal.
From Verif.Spec Require Import ThermalSpec.
From Verif.Proofs Require Import DerivLib ThermalProofs NumBounds.
Open Scope R_scope.

(** ** numbers *)
Lemma inv_pi2 : (1013211836416 / 10000000000000) <= / PI ^ 2 <= (1013211836482 / 10000000000000).
Proof.
  destruct PI_bounds as [L U]. assert (0 < PI ^ 2) by (apply pow_lt; lra). split.
  - rewrite <- (Rinv_inv (1013211836416 / 10000000000000)). apply Rinv_le_contravar; [assumption|]. apply Rle_trans with ((31415926536 / 10000000000) ^ 2); [apply pow_incr; lra|lra].
  - rewrite <- (Rinv_inv (1013211836482 / 10000000000000)). apply Rinv_le_contravar; [lra|]. apply Rle_trans with ((31415926535 / 10000000000) ^ 2); [lra|apply pow_incr; lra].
Qed.
Lemma exp_1 : (2256770915370 / 10000000000000) <= exp (- (3721625249807 / 2500000000000)) <= (2256770915394 / 10000000000000).
Proof.
  assert (B0 : (9545451681936 / 10000000000000) <= exp (- ((3721625249807 / 2500000000000) / 32)) <= (9545451681938 / 10000000000000)).
  { destruct (exp_neg_poly ((3721625249807 / 2500000000000) / 32)) as [L U]; [lra|]. split; [eapply Rle_trans; [|exact L]; lra|eapply Rle_trans; [exact U|]; lra]. }
  assert (B1 : (9111564781217 / 10000000000000) <= exp (- ((3721625249807 / 2500000000000) / 16)) <= (9111564781222 / 10000000000000)).
  { replace ((3721625249807 / 2500000000000) / 16) with (2 * ((3721625249807 / 2500000000000) / 32)) by lra. apply (exp_double _ (9545451681936 / 10000000000000) (9545451681938 / 10000000000000)); lra. }
  assert (B2 : (8302061276231 / 10000000000000) <= exp (- ((3721625249807 / 2500000000000) / 8)) <= (8302061276241 / 10000000000000)).
  { replace ((3721625249807 / 2500000000000) / 8) with (2 * ((3721625249807 / 2500000000000) / 16)) by lra. apply (exp_double _ (9111564781217 / 10000000000000) (9111564781222 / 10000000000000)); lra. }
  assert (B3 : (6892422143429 / 10000000000000) <= exp (- ((3721625249807 / 2500000000000) / 4)) <= (6892422143447 / 10000000000000)).
  { replace ((3721625249807 / 2500000000000) / 4) with (2 * ((3721625249807 / 2500000000000) / 8)) by lra. apply (exp_double _ (8302061276231 / 10000000000000) (8302061276241 / 10000000000000)); lra. }
  assert (B4 : (4750548300323 / 10000000000000) <= exp (- ((3721625249807 / 2500000000000) / 2)) <= (4750548300348 / 10000000000000)).
  { replace ((3721625249807 / 2500000000000) / 2) with (2 * ((3721625249807 / 2500000000000) / 4)) by lra. apply (exp_double _ (6892422143429 / 10000000000000) (6892422143447 / 10000000000000)); lra. }
  assert (B5 : (2256770915370 / 10000000000000) <= exp (- ((3721625249807 / 2500000000000) / 1)) <= (2256770915394 / 10000000000000)).
  { replace ((3721625249807 / 2500000000000) / 1) with (2 * ((3721625249807 / 2500000000000) / 2)) by lra. apply (exp_double _ (4750548300323 / 10000000000000) (4750548300348 / 10000000000000)); lra. }
  replace ((3721625249807 / 2500000000000) / 1) with (3721625249807 / 2500000000000) in B5 by lra. exact B5.
Qed.
Lemma exp_2 : (2256770915370 / 10000000000000) <= exp (- (14886500999227 / 10000000000000)) <= (2256770915394 / 10000000000000).
Proof.
  assert (B0 : (9545451681936 / 10000000000000) <= exp (- ((14886500999227 / 10000000000000) / 32)) <= (9545451681938 / 10000000000000)).
  { destruct (exp_neg_poly ((14886500999227 / 10000000000000) / 32)) as [L U]; [lra|]. split; [eapply Rle_trans; [|exact L]; lra|eapply Rle_trans; [exact U|]; lra]. }
  assert (B1 : (9111564781217 / 10000000000000) <= exp (- ((14886500999227 / 10000000000000) / 16)) <= (9111564781222 / 10000000000000)).
  { replace ((14886500999227 / 10000000000000) / 16) with (2 * ((14886500999227 / 10000000000000) / 32)) by lra. apply (exp_double _ (9545451681936 / 10000000000000) (9545451681938 / 10000000000000)); lra. }
  assert (B2 : (8302061276231 / 10000000000000) <= exp (- ((14886500999227 / 10000000000000) / 8)) <= (8302061276241 / 10000000000000)).
  { replace ((14886500999227 / 10000000000000) / 8) with (2 * ((14886500999227 / 10000000000000) / 16)) by lra. apply (exp_double _ (9111564781217 / 10000000000000) (9111564781222 / 10000000000000)); lra. }
  assert (B3 : (6892422143429 / 10000000000000) <= exp (- ((14886500999227 / 10000000000000) / 4)) <= (6892422143447 / 10000000000000)).
  { replace ((14886500999227 / 10000000000000) / 4) with (2 * ((14886500999227 / 10000000000000) / 8)) by lra. apply (exp_double _ (8302061276231 / 10000000000000) (8302061276241 / 10000000000000)); lra. }
  assert (B4 : (4750548300323 / 10000000000000) <= exp (- ((14886500999227 / 10000000000000) / 2)) <= (4750548300348 / 10000000000000)).
  { replace ((14886500999227 / 10000000000000) / 2) with (2 * ((14886500999227 / 10000000000000) / 4)) by lra. apply (exp_double _ (6892422143429 / 10000000000000) (6892422143447 / 10000000000000)); lra. }
  assert (B5 : (2256770915370 / 10000000000000) <= exp (- ((14886500999227 / 10000000000000) / 1)) <= (2256770915394 / 10000000000000)).
  { replace ((14886500999227 / 10000000000000) / 1) with (2 * ((14886500999227 / 10000000000000) / 2)) by lra. apply (exp_double _ (4750548300323 / 10000000000000) (4750548300348 / 10000000000000)); lra. }
  replace ((14886500999227 / 10000000000000) / 1) with (14886500999227 / 10000000000000) in B5 by lra. exact B5.
Qed.
Lemma fermion_sqrt : (14886500999227 / 10000000000000) <= sqrt C_FermionTheta <= (14886500999228 / 10000000000000).
Proof. apply sqrt_bounds; unfold C_FermionTheta; lra. Qed.
Lemma fermion_exp : (2256770915370 / 10000000000000) <= exp (- sqrt C_FermionTheta) <= (2256770915394 / 10000000000000).
Proof.
  destruct fermion_sqrt as [L U]. destruct exp_1 as [A _]. destruct exp_2 as [_ B]. split.
  - eapply Rle_trans; [exact A|]. apply exp_mono. lra.
  - eapply Rle_trans; [|exact B]. apply exp_mono. lra.
Qed.
Lemma exp_3 : (2245357597201 / 10000000000000) <= exp (- (14937202984221 / 10000000000000)) <= (2245357597224 / 10000000000000).
Proof.
  assert (B0 : (9543939385033 / 10000000000000) <= exp (- ((14937202984221 / 10000000000000) / 32)) <= (9543939385035 / 10000000000000)).
  { destruct (exp_neg_poly ((14937202984221 / 10000000000000) / 32)) as [L U]; [lra|]. split; [eapply Rle_trans; [|exact L]; lra|eapply Rle_trans; [exact U|]; lra]. }
  assert (B1 : (9108677898518 / 10000000000000) <= exp (- ((14937202984221 / 10000000000000) / 16)) <= (9108677898523 / 10000000000000)).
  { replace ((14937202984221 / 10000000000000) / 16) with (2 * ((14937202984221 / 10000000000000) / 32)) by lra. apply (exp_double _ (9543939385033 / 10000000000000) (9543939385035 / 10000000000000)); lra. }
  assert (B2 : (8296801305895 / 10000000000000) <= exp (- ((14937202984221 / 10000000000000) / 8)) <= (8296801305905 / 10000000000000)).
  { replace ((14937202984221 / 10000000000000) / 8) with (2 * ((14937202984221 / 10000000000000) / 16)) by lra. apply (exp_double _ (9108677898518 / 10000000000000) (9108677898523 / 10000000000000)); lra. }
  assert (B3 : (6883691190950 / 10000000000000) <= exp (- ((14937202984221 / 10000000000000) / 4)) <= (6883691190967 / 10000000000000)).
  { replace ((14937202984221 / 10000000000000) / 4) with (2 * ((14937202984221 / 10000000000000) / 8)) by lra. apply (exp_double _ (8296801305895 / 10000000000000) (8296801305905 / 10000000000000)); lra. }
  assert (B4 : (4738520441236 / 10000000000000) <= exp (- ((14937202984221 / 10000000000000) / 2)) <= (4738520441260 / 10000000000000)).
  { replace ((14937202984221 / 10000000000000) / 2) with (2 * ((14937202984221 / 10000000000000) / 4)) by lra. apply (exp_double _ (6883691190950 / 10000000000000) (6883691190967 / 10000000000000)); lra. }
  assert (B5 : (2245357597201 / 10000000000000) <= exp (- ((14937202984221 / 10000000000000) / 1)) <= (2245357597224 / 10000000000000)).
  { replace ((14937202984221 / 10000000000000) / 1) with (2 * ((14937202984221 / 10000000000000) / 2)) by lra. apply (exp_double _ (4738520441236 / 10000000000000) (4738520441260 / 10000000000000)); lra. }
  replace ((14937202984221 / 10000000000000) / 1) with (14937202984221 / 10000000000000) in B5 by lra. exact B5.
Qed.
Lemma exp_4 : (2245357592561 / 10000000000000) <= exp (- (14937203004873 / 10000000000000)) <= (2245357592584 / 10000000000000).
Proof.
  assert (B0 : (9543939384417 / 10000000000000) <= exp (- ((14937203004873 / 10000000000000) / 32)) <= (9543939384419 / 10000000000000)).
  { destruct (exp_neg_poly ((14937203004873 / 10000000000000) / 32)) as [L U]; [lra|]. split; [eapply Rle_trans; [|exact L]; lra|eapply Rle_trans; [exact U|]; lra]. }
  assert (B1 : (9108677897342 / 10000000000000) <= exp (- ((14937203004873 / 10000000000000) / 16)) <= (9108677897347 / 10000000000000)).
  { replace ((14937203004873 / 10000000000000) / 16) with (2 * ((14937203004873 / 10000000000000) / 32)) by lra. apply (exp_double _ (9543939384417 / 10000000000000) (9543939384419 / 10000000000000)); lra. }
  assert (B2 : (8296801303752 / 10000000000000) <= exp (- ((14937203004873 / 10000000000000) / 8)) <= (8296801303762 / 10000000000000)).
  { replace ((14937203004873 / 10000000000000) / 8) with (2 * ((14937203004873 / 10000000000000) / 16)) by lra. apply (exp_double _ (9108677897342 / 10000000000000) (9108677897347 / 10000000000000)); lra. }
  assert (B3 : (6883691187394 / 10000000000000) <= exp (- ((14937203004873 / 10000000000000) / 4)) <= (6883691187411 / 10000000000000)).
  { replace ((14937203004873 / 10000000000000) / 4) with (2 * ((14937203004873 / 10000000000000) / 8)) by lra. apply (exp_double _ (8296801303752 / 10000000000000) (8296801303762 / 10000000000000)); lra. }
  assert (B4 : (4738520436340 / 10000000000000) <= exp (- ((14937203004873 / 10000000000000) / 2)) <= (4738520436364 / 10000000000000)).
  { replace ((14937203004873 / 10000000000000) / 2) with (2 * ((14937203004873 / 10000000000000) / 4)) by lra. apply (exp_double _ (6883691187394 / 10000000000000) (6883691187411 / 10000000000000)); lra. }
  assert (B5 : (2245357592561 / 10000000000000) <= exp (- ((14937203004873 / 10000000000000) / 1)) <= (2245357592584 / 10000000000000)).
  { replace ((14937203004873 / 10000000000000) / 1) with (2 * ((14937203004873 / 10000000000000) / 2)) by lra. apply (exp_double _ (4738520436340 / 10000000000000) (4738520436364 / 10000000000000)); lra. }
  replace ((14937203004873 / 10000000000000) / 1) with (14937203004873 / 10000000000000) in B5 by lra. exact B5.
Qed.
Lemma fermion_ln : - (14937203004873 / 10000000000000) <= ln (C_FermionTheta * (/ PI ^ 2 / 1)) <= - (14937202984221 / 10000000000000).
Proof.
  destruct inv_pi2 as [L U]. destruct exp_3 as [A _]. destruct exp_4 as [_ B].
  assert (0 < C_FermionTheta) by (unfold C_FermionTheta; lra).
  assert (X : (2245357594818 / 10000000000000) <= C_FermionTheta * (/ PI ^ 2 / 1) <= (2245357594965 / 10000000000000)) by (unfold C_FermionTheta; split; lra).
  apply ln_bounds; [lra|eapply Rle_trans; [exact B|]; lra|eapply Rle_trans; [|exact A]; lra].
Qed.
Lemma exp_5 : (460875930330 / 10000000000000) <= exp (- (30772114967939 / 10000000000000)) <= (460875930581 / 10000000000000).
Proof.
  assert (B0 : (9083160763246 / 10000000000000) <= exp (- ((30772114967939 / 10000000000000) / 32)) <= (9083160763398 / 10000000000000)).
  { destruct (exp_neg_poly ((30772114967939 / 10000000000000) / 32)) as [L U]; [lra|]. split; [eapply Rle_trans; [|exact L]; lra|eapply Rle_trans; [exact U|]; lra]. }
  assert (B1 : (8250380945097 / 10000000000000) <= exp (- ((30772114967939 / 10000000000000) / 16)) <= (8250380945374 / 10000000000000)).
  { replace ((30772114967939 / 10000000000000) / 16) with (2 * ((30772114967939 / 10000000000000) / 32)) by lra. apply (exp_double _ (9083160763246 / 10000000000000) (9083160763398 / 10000000000000)); lra. }
  assert (B2 : (6806878573921 / 10000000000000) <= exp (- ((30772114967939 / 10000000000000) / 8)) <= (6806878574380 / 10000000000000)).
  { replace ((30772114967939 / 10000000000000) / 8) with (2 * ((30772114967939 / 10000000000000) / 16)) by lra. apply (exp_double _ (8250380945097 / 10000000000000) (8250380945374 / 10000000000000)); lra. }
  assert (B3 : (4633359592010 / 10000000000000) <= exp (- ((30772114967939 / 10000000000000) / 4)) <= (4633359592636 / 10000000000000)).
  { replace ((30772114967939 / 10000000000000) / 4) with (2 * ((30772114967939 / 10000000000000) / 8)) by lra. apply (exp_double _ (6806878573921 / 10000000000000) (6806878574380 / 10000000000000)); lra. }
  assert (B4 : (2146802110887 / 10000000000000) <= exp (- ((30772114967939 / 10000000000000) / 2)) <= (2146802111468 / 10000000000000)).
  { replace ((30772114967939 / 10000000000000) / 2) with (2 * ((30772114967939 / 10000000000000) / 4)) by lra. apply (exp_double _ (4633359592010 / 10000000000000) (4633359592636 / 10000000000000)); lra. }
  assert (B5 : (460875930330 / 10000000000000) <= exp (- ((30772114967939 / 10000000000000) / 1)) <= (460875930581 / 10000000000000)).
  { replace ((30772114967939 / 10000000000000) / 1) with (2 * ((30772114967939 / 10000000000000) / 2)) by lra. apply (exp_double _ (2146802110887 / 10000000000000) (2146802111468 / 10000000000000)); lra. }
  replace ((30772114967939 / 10000000000000) / 1) with (30772114967939 / 10000000000000) in B5 by lra. exact B5.
Qed.
Lemma exp_6 : (460875930330 / 10000000000000) <= exp (- (15386057483969 / 5000000000000)) <= (460875930581 / 10000000000000).
Proof.
  assert (B0 : (9083160763246 / 10000000000000) <= exp (- ((15386057483969 / 5000000000000) / 32)) <= (9083160763398 / 10000000000000)).
  { destruct (exp_neg_poly ((15386057483969 / 5000000000000) / 32)) as [L U]; [lra|]. split; [eapply Rle_trans; [|exact L]; lra|eapply Rle_trans; [exact U|]; lra]. }
  assert (B1 : (8250380945097 / 10000000000000) <= exp (- ((15386057483969 / 5000000000000) / 16)) <= (8250380945374 / 10000000000000)).
  { replace ((15386057483969 / 5000000000000) / 16) with (2 * ((15386057483969 / 5000000000000) / 32)) by lra. apply (exp_double _ (9083160763246 / 10000000000000) (9083160763398 / 10000000000000)); lra. }
  assert (B2 : (6806878573921 / 10000000000000) <= exp (- ((15386057483969 / 5000000000000) / 8)) <= (6806878574380 / 10000000000000)).
  { replace ((15386057483969 / 5000000000000) / 8) with (2 * ((15386057483969 / 5000000000000) / 16)) by lra. apply (exp_double _ (8250380945097 / 10000000000000) (8250380945374 / 10000000000000)); lra. }
  assert (B3 : (4633359592010 / 10000000000000) <= exp (- ((15386057483969 / 5000000000000) / 4)) <= (4633359592636 / 10000000000000)).
  { replace ((15386057483969 / 5000000000000) / 4) with (2 * ((15386057483969 / 5000000000000) / 8)) by lra. apply (exp_double _ (6806878573921 / 10000000000000) (6806878574380 / 10000000000000)); lra. }
  assert (B4 : (2146802110887 / 10000000000000) <= exp (- ((15386057483969 / 5000000000000) / 2)) <= (2146802111468 / 10000000000000)).
  { replace ((15386057483969 / 5000000000000) / 2) with (2 * ((15386057483969 / 5000000000000) / 4)) by lra. apply (exp_double _ (4633359592010 / 10000000000000) (4633359592636 / 10000000000000)); lra. }
  assert (B5 : (460875930330 / 10000000000000) <= exp (- ((15386057483969 / 5000000000000) / 1)) <= (460875930581 / 10000000000000)).
  { replace ((15386057483969 / 5000000000000) / 1) with (2 * ((15386057483969 / 5000000000000) / 2)) by lra. apply (exp_double _ (2146802110887 / 10000000000000) (2146802111468 / 10000000000000)); lra. }
  replace ((15386057483969 / 5000000000000) / 1) with (15386057483969 / 5000000000000) in B5 by lra. exact B5.
Qed.
Lemma boson_sqrt : (30772114967938 / 10000000000000) <= sqrt C_BosonTheta <= (30772114967939 / 10000000000000).
Proof. apply sqrt_bounds; unfold C_BosonTheta; lra. Qed.
Lemma boson_exp : (460875930330 / 10000000000000) <= exp (- sqrt C_BosonTheta) <= (460875930581 / 10000000000000).
Proof.
  destruct boson_sqrt as [L U]. destruct exp_5 as [A _]. destruct exp_6 as [_ B]. split.
  - eapply Rle_trans; [exact A|]. apply exp_mono. lra.
  - eapply Rle_trans; [|exact B]. apply exp_mono. lra.
Qed.
Lemma exp_7 : (599646033235 / 10000000000000) <= exp (- (28140008354459 / 10000000000000)) <= (599646033409 / 10000000000000).
Proof.
  assert (B0 : (9158180896567 / 10000000000000) <= exp (- ((28140008354459 / 10000000000000) / 32)) <= (9158180896649 / 10000000000000)).
  { destruct (exp_neg_poly ((28140008354459 / 10000000000000) / 32)) as [L U]; [lra|]. split; [eapply Rle_trans; [|exact L]; lra|eapply Rle_trans; [exact U|]; lra]. }
  assert (B1 : (8387227733424 / 10000000000000) <= exp (- ((28140008354459 / 10000000000000) / 16)) <= (8387227733575 / 10000000000000)).
  { replace ((28140008354459 / 10000000000000) / 16) with (2 * ((28140008354459 / 10000000000000) / 32)) by lra. apply (exp_double _ (9158180896567 / 10000000000000) (9158180896649 / 10000000000000)); lra. }
  assert (B2 : (7034558905231 / 10000000000000) <= exp (- ((28140008354459 / 10000000000000) / 8)) <= (7034558905485 / 10000000000000)).
  { replace ((28140008354459 / 10000000000000) / 8) with (2 * ((28140008354459 / 10000000000000) / 16)) by lra. apply (exp_double _ (8387227733424 / 10000000000000) (8387227733575 / 10000000000000)); lra. }
  assert (B3 : (4948501899116 / 10000000000000) <= exp (- ((28140008354459 / 10000000000000) / 4)) <= (4948501899474 / 10000000000000)).
  { replace ((28140008354459 / 10000000000000) / 4) with (2 * ((28140008354459 / 10000000000000) / 8)) by lra. apply (exp_double _ (7034558905231 / 10000000000000) (7034558905485 / 10000000000000)); lra. }
  assert (B4 : (2448767104555 / 10000000000000) <= exp (- ((28140008354459 / 10000000000000) / 2)) <= (2448767104910 / 10000000000000)).
  { replace ((28140008354459 / 10000000000000) / 2) with (2 * ((28140008354459 / 10000000000000) / 4)) by lra. apply (exp_double _ (4948501899116 / 10000000000000) (4948501899474 / 10000000000000)); lra. }
  assert (B5 : (599646033235 / 10000000000000) <= exp (- ((28140008354459 / 10000000000000) / 1)) <= (599646033409 / 10000000000000)).
  { replace ((28140008354459 / 10000000000000) / 1) with (2 * ((28140008354459 / 10000000000000) / 2)) by lra. apply (exp_double _ (2448767104555 / 10000000000000) (2448767104910 / 10000000000000)); lra. }
  replace ((28140008354459 / 10000000000000) / 1) with (28140008354459 / 10000000000000) in B5 by lra. exact B5.
Qed.
Lemma exp_8 : (599646031995 / 10000000000000) <= exp (- (28140008375111 / 10000000000000)) <= (599646032172 / 10000000000000).
Proof.
  assert (B0 : (9158180895976 / 10000000000000) <= exp (- ((28140008375111 / 10000000000000) / 32)) <= (9158180896058 / 10000000000000)).
  { destruct (exp_neg_poly ((28140008375111 / 10000000000000) / 32)) as [L U]; [lra|]. split; [eapply Rle_trans; [|exact L]; lra|eapply Rle_trans; [exact U|]; lra]. }
  assert (B1 : (8387227732341 / 10000000000000) <= exp (- ((28140008375111 / 10000000000000) / 16)) <= (8387227732493 / 10000000000000)).
  { replace ((28140008375111 / 10000000000000) / 16) with (2 * ((28140008375111 / 10000000000000) / 32)) by lra. apply (exp_double _ (9158180895976 / 10000000000000) (9158180896058 / 10000000000000)); lra. }
  assert (B2 : (7034558903414 / 10000000000000) <= exp (- ((28140008375111 / 10000000000000) / 8)) <= (7034558903670 / 10000000000000)).
  { replace ((28140008375111 / 10000000000000) / 8) with (2 * ((28140008375111 / 10000000000000) / 16)) by lra. apply (exp_double _ (8387227732341 / 10000000000000) (8387227732493 / 10000000000000)); lra. }
  assert (B3 : (4948501896560 / 10000000000000) <= exp (- ((28140008375111 / 10000000000000) / 4)) <= (4948501896921 / 10000000000000)).
  { replace ((28140008375111 / 10000000000000) / 4) with (2 * ((28140008375111 / 10000000000000) / 8)) by lra. apply (exp_double _ (7034558903414 / 10000000000000) (7034558903670 / 10000000000000)); lra. }
  assert (B4 : (2448767102025 / 10000000000000) <= exp (- ((28140008375111 / 10000000000000) / 2)) <= (2448767102384 / 10000000000000)).
  { replace ((28140008375111 / 10000000000000) / 2) with (2 * ((28140008375111 / 10000000000000) / 4)) by lra. apply (exp_double _ (4948501896560 / 10000000000000) (4948501896921 / 10000000000000)); lra. }
  assert (B5 : (599646031995 / 10000000000000) <= exp (- ((28140008375111 / 10000000000000) / 1)) <= (599646032172 / 10000000000000)).
  { replace ((28140008375111 / 10000000000000) / 1) with (2 * ((28140008375111 / 10000000000000) / 2)) by lra. apply (exp_double _ (2448767102025 / 10000000000000) (2448767102384 / 10000000000000)); lra. }
  replace ((28140008375111 / 10000000000000) / 1) with (28140008375111 / 10000000000000) in B5 by lra. exact B5.
Qed.
Lemma boson_ln : - (28140008375111 / 10000000000000) <= ln (C_BosonTheta * (/ PI ^ 2 / 16)) <= - (28140008354459 / 10000000000000).
Proof.
  destruct inv_pi2 as [L U]. destruct exp_7 as [A _]. destruct exp_8 as [_ B].
  assert (0 < C_BosonTheta) by (unfold C_BosonTheta; lra).
  assert (X : (599646032601 / 10000000000000) <= C_BosonTheta * (/ PI ^ 2 / 16) <= (599646032641 / 10000000000000)) by (unfold C_BosonTheta; split; lra).
  apply ln_bounds; [lra|eapply Rle_trans; [exact B|]; lra|eapply Rle_trans; [|exact A]; lra].
Qed.

Lemma pb a b a1 a2 b1 b2 c1 c2 : 0 <= a1 -> 0 <= b1 -> a1 <= a <= a2 -> b1 <= b <= b2 -> c1 <= a1 * b1 -> a2 * b2 <= c2 ->
  c1 <= a * b <= c2.
Proof. intros. split; nra. Qed.
Lemma Rpower_half x l : 0 < x -> Rpower x (- INR l / 2) = (/ sqrt x) ^ l.
Proof.
  intro X. rewrite <- Rpower_sqrt by exact X. rewrite <- Rpower_Ropp. rewrite <- Rpower_pow by apply exp_pos.
  rewrite Rpower_mult. f_equal. field.
Qed.
Lemma Rpower_3_2 x : 0 < x -> Rpower x (3 / 2) = x * sqrt x.
Proof. intro X. replace (3 / 2) with (1 + / 2) by lra. rewrite Rpower_plus, Rpower_1, Rpower_sqrt by exact X. reflexivity. Qed.
Lemma K_high_values : K_high 0 = 1 /\ K_high 1 = 15 / 8 /\ K_high 2 = 105 / 128 /\ K_high 3 = - (315 / 1024).
Proof. unfold K_high. cbn [gamma_ratio Nat.mul Nat.add fact INR pow]. repeat split; field. Qed.
Lemma high_form x : 0 < x ->
  - high0 K_high 3 x = exp (- sqrt x) * sqrt (PI / 2 * (x * sqrt x)) *
    (1 + 15 / 8 * / sqrt x + 105 / 128 * (/ sqrt x * / sqrt x) - 315 / 1024 * (/ sqrt x * (/ sqrt x * / sqrt x))).
Proof.
  intro X. unfold high0. destruct K_high_values as (E0 & E1 & E2 & E3).
  rewrite (Rpower_3_2 x X). unfold sum_from. cbn [Nat.sub seq fold_right]. rewrite !(Rpower_half x _ X), E0, E1, E2, E3.
  cbn [pow]. ring.
Qed.

Lemma fermion_high : (13030535936030 / 10000000000000) <= - high0 K_high 3 C_FermionTheta <= (13030535936385 / 10000000000000).
Proof.
  assert (T : 0 < C_FermionTheta) by (unfold C_FermionTheta; lra). rewrite high_form by exact T.
  assert (S := fermion_sqrt). assert (X := fermion_exp). destruct PI_bounds as [P1 P2].
  assert (W : (32989664034246 / 10000000000000) <= C_FermionTheta * sqrt C_FermionTheta <= (32989664034249 / 10000000000000)). { assert (ET : C_FermionTheta = 27700989 / 12500000) by (unfold C_FermionTheta; lra). rewrite ET at 1 3. split; lra. }
  assert (Q : (22764016140767 / 10000000000000) <= sqrt (PI / 2 * (C_FermionTheta * sqrt C_FermionTheta)) <= (22764016141131 / 10000000000000)). { apply sqrt_bounds; [lra|lra| |]; nra. }
  assert (R : (6717495266697 / 10000000000000) <= / sqrt C_FermionTheta <= (6717495266698 / 10000000000000)). { split; [rewrite <- (Rinv_inv (6717495266697 / 10000000000000))|rewrite <- (Rinv_inv (6717495266698 / 10000000000000))]; apply Rinv_le_contravar; lra. }
  assert (R2 : (4512474265809 / 10000000000000) <= / sqrt C_FermionTheta * / sqrt C_FermionTheta <= (4512474265812 / 10000000000000)). { apply (pb _ _ (6717495266697 / 10000000000000) (6717495266698 / 10000000000000) (6717495266697 / 10000000000000) (6717495266698 / 10000000000000)); [lra|lra|exact R|exact R|lra|lra]. }
  assert (R3 : (3031252452166 / 10000000000000) <= / sqrt C_FermionTheta * (/ sqrt C_FermionTheta * / sqrt C_FermionTheta) <= (3031252452169 / 10000000000000)). { apply (pb _ _ (6717495266697 / 10000000000000) (6717495266698 / 10000000000000) (4512474265809 / 10000000000000) (4512474265812 / 10000000000000)); [lra|lra|exact R|exact R2|lra|lra]. }
  assert (K : (25364477317289 / 10000000000000) <= (1 + 15 / 8 * / sqrt C_FermionTheta + 105 / 128 * (/ sqrt C_FermionTheta * / sqrt C_FermionTheta) - 315 / 1024 * (/ sqrt C_FermionTheta * (/ sqrt C_FermionTheta * / sqrt C_FermionTheta))) <= (25364477317295 / 10000000000000)). { lra. }
  assert (M : (5137316954349 / 10000000000000) <= exp (- sqrt C_FermionTheta) * sqrt (PI / 2 * (C_FermionTheta * sqrt C_FermionTheta)) <= (5137316954487 / 10000000000000)). { apply (pb _ _ (2256770915370 / 10000000000000) (2256770915394 / 10000000000000) (22764016140767 / 10000000000000) (22764016141131 / 10000000000000)); [lra|lra|exact X|exact Q|lra|lra]. }
  apply (pb _ _ (5137316954349 / 10000000000000) (5137316954487 / 10000000000000) (25364477317289 / 10000000000000) (25364477317295 / 10000000000000)); [lra|lra|exact M|exact K|lra|lra].
Qed.
Lemma boson_high : (5255093521808 / 10000000000000) <= - high0 K_high 3 C_BosonTheta <= (5255093524758 / 10000000000000).
Proof.
  assert (T : 0 < C_BosonTheta) by (unfold C_BosonTheta; lra). rewrite high_form by exact T.
  assert (S := boson_sqrt). assert (X := boson_exp). destruct PI_bounds as [P1 P2].
  assert (W : (291388252558028 / 10000000000000) <= C_BosonTheta * sqrt C_BosonTheta <= (291388252558038 / 10000000000000)). { assert (ET : C_BosonTheta = 2367307649 / 250000000) by (unfold C_BosonTheta; lra). rewrite ET at 1 3. split; lra. }
  assert (Q : (67654386167953 / 10000000000000) <= sqrt (PI / 2 * (C_BosonTheta * sqrt C_BosonTheta)) <= (67654386169031 / 10000000000000)). { apply sqrt_bounds; [lra|lra| |]; nra. }
  assert (R : (3249695385064 / 10000000000000) <= / sqrt C_BosonTheta <= (3249695385066 / 10000000000000)). { split; [rewrite <- (Rinv_inv (3249695385064 / 10000000000000))|rewrite <- (Rinv_inv (3249695385066 / 10000000000000))]; apply Rinv_le_contravar; lra. }
  assert (R2 : (1056052009570 / 10000000000000) <= / sqrt C_BosonTheta * / sqrt C_BosonTheta <= (1056052009572 / 10000000000000)). { apply (pb _ _ (3249695385064 / 10000000000000) (3249695385066 / 10000000000000) (3249695385064 / 10000000000000) (3249695385066 / 10000000000000)); [lra|lra|exact R|exact R|lra|lra]. }
  assert (R3 : (343184734188 / 10000000000000) <= / sqrt C_BosonTheta * (/ sqrt C_BosonTheta * / sqrt C_BosonTheta) <= (343184734190 / 10000000000000)). { apply (pb _ _ (3249695385064 / 10000000000000) (3249695385066 / 10000000000000) (1056052009570 / 10000000000000) (1056052009572 / 10000000000000)); [lra|lra|exact R|exact R2|lra|lra]. }
  assert (K : (16853901988370 / 10000000000000) <= (1 + 15 / 8 * / sqrt C_BosonTheta + 105 / 128 * (/ sqrt C_BosonTheta * / sqrt C_BosonTheta) - 315 / 1024 * (/ sqrt C_BosonTheta * (/ sqrt C_BosonTheta * / sqrt C_BosonTheta))) <= (16853901988377 / 10000000000000)). { lra. }
  assert (M : (3118027816606 / 10000000000000) <= exp (- sqrt C_BosonTheta) * sqrt (PI / 2 * (C_BosonTheta * sqrt C_BosonTheta)) <= (3118027818354 / 10000000000000)). { apply (pb _ _ (460875930330 / 10000000000000) (460875930581 / 10000000000000) (67654386167953 / 10000000000000) (67654386169031 / 10000000000000)); [lra|lra|exact X|exact Q|lra|lra]. }
  apply (pb _ _ (3118027816606 / 10000000000000) (3118027818354 / 10000000000000) (16853901988370 / 10000000000000) (16853901988377 / 10000000000000)); [lra|lra|exact M|exact K|lra|lra].
Qed.

(** ** the small-argument expansions *)
Lemma pi2_bounds : 98696044 / 10000000 <= PI ^ 2 <= 986960440216 / 100000000000.
Proof. destruct PI_bounds. split; [apply Rle_trans with ((31415926535 / 10000000000) ^ 2)|apply Rle_trans with ((31415926536 / 10000000000) ^ 2)]; try (apply pow_incr; lra); lra. Qed.
Lemma pi4_bounds : 97409091014 / 1000000000 <= PI ^ 4 <= 97409091051 / 1000000000.
Proof. destruct PI_bounds. split; [apply Rle_trans with ((31415926535 / 10000000000) ^ 4)|apply Rle_trans with ((31415926536 / 10000000000) ^ 4)]; try (apply pow_incr; lra); lra. Qed.
Lemma ln_theta x c : 0 < x -> 0 < c -> ln (x * (/ PI ^ 2 / c)) = ln x - 2 * ln PI - ln c.
Proof.
  intros X C. assert (P := PI_RGT_0). assert (0 < PI ^ 2) by now apply pow_lt. assert (0 < / PI ^ 2) by now apply Rinv_0_lt_compat.
  rewrite ln_mult by (try apply Rdiv_lt_0_compat; assumption).
  unfold Rdiv. rewrite ln_mult by (try apply Rinv_0_lt_compat; assumption). rewrite !ln_Rinv by assumption.
  cbn [pow]. rewrite Rmult_1_r, ln_mult by assumption. ring.
Qed.
Lemma cf_form x : 0 < x -> ln x - cf = ln (x * (/ PI ^ 2 / 1)) - 3 / 2 + 2 * C_euler_gamma.
Proof.
  intro X. assert (P := PI_RGT_0). rewrite ln_theta by lra. unfold cf. rewrite ln_mult by lra. rewrite ln_1. ring.
Qed.
Lemma cb_form x : 0 < x -> ln x - cb = ln (x * (/ PI ^ 2 / 16)) - 3 / 2 + 2 * C_euler_gamma.
Proof.
  intro X. assert (P := PI_RGT_0). rewrite ln_theta by lra. unfold cb. rewrite ln_mult by lra.
  replace 16 with (4 * 4) by lra. rewrite (ln_mult 4 4) by lra. ring.
Qed.
Lemma K_fermion_values zeta : K_fermion zeta 2 = 7 / 24 * zeta 3%nat /\ K_fermion zeta 3 = 31 / 64 * zeta 5%nat /\ K_fermion zeta 4 = 127 / 128 * zeta 7%nat.
Proof. unfold K_fermion. cbn [Nat.ltb Nat.leb Nat.mul Nat.add Nat.sub doublefact INR pow]. repeat split; field. Qed.
Lemma K_boson_values zeta : K_boson zeta 2 = 1 / 24 * zeta 3%nat /\ K_boson zeta 3 = 1 / 64 * zeta 5%nat.
Proof. unfold K_boson. cbn [Nat.ltb Nat.leb Nat.mul Nat.add Nat.sub doublefact INR pow]. repeat split; field. Qed.
Lemma fermion_low_form K x : 0 < x -> fermion_low0 K 4 x =
  -7 / 360 * PI ^ 4 + x / 24 * PI ^ 2 + x ^ 2 / 32 * (ln x - cf)
  - (x ^ 3 / 16 * (/ PI ^ 2 * K 2%nat) - x ^ 4 / 64 * (/ PI ^ 2 * (/ PI ^ 2 * K 3%nat)) + x ^ 5 / 256 * (/ PI ^ 2 * (/ PI ^ 2 * (/ PI ^ 2 * K 4%nat)))).
Proof.
  intro X. unfold fermion_low0, sum_from. cbn [Nat.sub seq fold_right]. pose proof PI_RGT_0. field. lra.
Qed.
Lemma boson_low_form K x : 0 < x -> boson_low0 K 3 x =
  -1 / 45 * PI ^ 4 + x / 12 * PI ^ 2 - PI * (x * sqrt x) / 6 - x ^ 2 / 32 * (ln x - cb)
  + (x ^ 3 / 16 * (/ PI ^ 2 * K 2%nat) - x ^ 4 / 64 * (/ PI ^ 2 * (/ PI ^ 2 * K 3%nat))).
Proof.
  intro X. unfold boson_low0, sum_from. cbn [Nat.sub seq fold_right]. rewrite Rpower_3_2 by exact X. pose proof PI_RGT_0. field. lra.
Qed.

Section Zeta.
  Variable zeta : nat -> R.
  Hypothesis Z3 : is_zeta 3 (zeta 3%nat).
  Hypothesis Z5 : is_zeta 5 (zeta 5%nat).
  Hypothesis Z7 : is_zeta 7 (zeta 7%nat).

  Lemma fermion_jump :
    Rabs (- high0 K_high 3 C_FermionTheta - (- fermion_low0 (K_fermion zeta) 4 C_FermionTheta - C_FermionShift)) < 4 / 10000000.
  Proof.
    assert (T : 0 < C_FermionTheta) by (unfold C_FermionTheta; lra). destruct fermion_high as [H1 H2].
    rewrite fermion_low_form, cf_form by exact T. destruct (K_fermion_values zeta) as (E2 & E3 & E4). rewrite E2, E3, E4.
    destruct fermion_ln as [L1 L2]. destruct pi2_bounds. destruct pi4_bounds.
    assert (I := inv_pi2).
    assert (C3 : (3505999175000 / 10000000000000) <= 7 / 24 * zeta 3%nat <= (3505999583334 / 10000000000000)) by (destruct (zeta3_num _ Z3); lra).
    assert (D30 : (355231986257 / 10000000000000) <= / PI ^ 2 * (7 / 24 * zeta 3%nat) <= (355232027654 / 10000000000000)). { apply (pb _ _ (1013211836416 / 10000000000000) (1013211836482 / 10000000000000) (3505999175000 / 10000000000000) (3505999583334 / 10000000000000)); [lra|lra|exact I|exact C3|lra|lra]. }
    assert (C5 : (5022610312500 / 10000000000000) <= 31 / 64 * zeta 5%nat <= (5022634531250 / 10000000000000)) by (destruct (zeta5_num _ Z5); lra).
    assert (D50 : (508896821833 / 10000000000000) <= / PI ^ 2 * (31 / 64 * zeta 5%nat) <= (508899275739 / 10000000000000)). { apply (pb _ _ (1013211836416 / 10000000000000) (1013211836482 / 10000000000000) (5022610312500 / 10000000000000) (5022634531250 / 10000000000000)); [lra|lra|exact I|exact C5|lra|lra]. }
    assert (D51 : (51562028339 / 10000000000000) <= / PI ^ 2 * (/ PI ^ 2 * (31 / 64 * zeta 5%nat)) <= (51562276976 / 10000000000000)). { apply (pb _ _ (1013211836416 / 10000000000000) (1013211836482 / 10000000000000) (508896821833 / 10000000000000) (508899275739 / 10000000000000)); [lra|lra|exact I|exact D50|lra|lra]. }
    assert (C7 : (10004226562500 / 10000000000000) <= 127 / 128 * zeta 7%nat <= (10005218750000 / 10000000000000)) by (destruct (zeta7_num _ Z7); lra).
    assert (D70 : (1013640076731 / 10000000000000) <= / PI ^ 2 * (127 / 128 * zeta 7%nat) <= (1013740606410 / 10000000000000)). { apply (pb _ _ (1013211836416 / 10000000000000) (1013211836482 / 10000000000000) (10004226562500 / 10000000000000) (10005218750000 / 10000000000000)); [lra|lra|exact I|exact C7|lra|lra]. }
    assert (D71 : (102703212360 / 10000000000000) <= / PI ^ 2 * (/ PI ^ 2 * (127 / 128 * zeta 7%nat)) <= (102713398154 / 10000000000000)). { apply (pb _ _ (1013211836416 / 10000000000000) (1013211836482 / 10000000000000) (1013640076731 / 10000000000000) (1013740606410 / 10000000000000)); [lra|lra|exact I|exact D70|lra|lra]. }
    assert (D72 : (10406011040 / 10000000000000) <= / PI ^ 2 * (/ PI ^ 2 * (/ PI ^ 2 * (127 / 128 * zeta 7%nat))) <= (10407043078 / 10000000000000)). { apply (pb _ _ (1013211836416 / 10000000000000) (1013211836482 / 10000000000000) (102703212360 / 10000000000000) (102713398154 / 10000000000000)); [lra|lra|exact I|exact D71|lra|lra]. }
    set (LN := ln (C_FermionTheta * (/ PI ^ 2 / 1))) in *. set (HH := - high0 K_high 3 C_FermionTheta) in *.
    unfold C_FermionTheta, C_FermionShift, C_euler_gamma. apply Rabs_def1; lra.
  Qed.
  Lemma boson_jump :
    Rabs (high0 K_high 3 C_BosonTheta - C_BosonShift - boson_low0 (K_boson zeta) 3 C_BosonTheta) < 4 / 10000000.
  Proof.
    assert (T : 0 < C_BosonTheta) by (unfold C_BosonTheta; lra). destruct boson_high as [H1 H2].
    rewrite boson_low_form, cb_form by exact T. destruct (K_boson_values zeta) as (E2 & E3). rewrite E2, E3.
    destruct boson_ln as [L1 L2]. destruct pi2_bounds. destruct pi4_bounds.
    assert (I := inv_pi2).
    assert (C3 : (500857025000 / 10000000000000) <= 1 / 24 * zeta 3%nat <= (500857083334 / 10000000000000)) by (destruct (zeta3_num _ Z3); lra).
    assert (D30 : (50747426608 / 10000000000000) <= / PI ^ 2 * (1 / 24 * zeta 3%nat) <= (50747432522 / 10000000000000)). { apply (pb _ _ (1013211836416 / 10000000000000) (1013211836482 / 10000000000000) (500857025000 / 10000000000000) (500857083334 / 10000000000000)); [lra|lra|exact I|exact C3|lra|lra]. }
    assert (C5 : (162019687500 / 10000000000000) <= 1 / 64 * zeta 5%nat <= (162020468750 / 10000000000000)) by (destruct (zeta5_num _ Z5); lra).
    assert (D50 : (16416026510 / 10000000000000) <= / PI ^ 2 * (1 / 64 * zeta 5%nat) <= (16416105669 / 10000000000000)). { apply (pb _ _ (1013211836416 / 10000000000000) (1013211836482 / 10000000000000) (162019687500 / 10000000000000) (162020468750 / 10000000000000)); [lra|lra|exact I|exact C5|lra|lra]. }
    assert (D51 : (1663291236 / 10000000000000) <= / PI ^ 2 * (/ PI ^ 2 * (1 / 64 * zeta 5%nat)) <= (1663299258 / 10000000000000)). { apply (pb _ _ (1013211836416 / 10000000000000) (1013211836482 / 10000000000000) (16416026510 / 10000000000000) (16416105669 / 10000000000000)); [lra|lra|exact I|exact D50|lra|lra]. }
    assert (S := boson_sqrt). assert (PP := PI_bounds).
    assert (ET : C_BosonTheta = 9469230596 / 1000000000) by reflexivity.
    assert (W : (291388252558028 / 10000000000000) <= C_BosonTheta * sqrt C_BosonTheta <= (291388252558038 / 10000000000000)) by (rewrite ET at 1 3; split; lra).
    assert (PW : (915423193552503 / 10000000000000) <= PI * (C_BosonTheta * sqrt C_BosonTheta) <= (915423193581674 / 10000000000000)).
    { apply (pb _ _ (31415926535 / 10000000000) (31415926536 / 10000000000) (291388252558028 / 10000000000000) (291388252558038 / 10000000000000)); [lra|lra|exact PP|exact W|lra|lra]. }
    set (PX := PI * (C_BosonTheta * sqrt C_BosonTheta)) in *.
    set (LN := ln (C_BosonTheta * (/ PI ^ 2 / 16))) in *. set (HH := high0 K_high 3 C_BosonTheta) in *.
    unfold C_BosonTheta, C_BosonShift, C_euler_gamma. apply Rabs_def1; lra.
  Qed.
End Zeta.
