(** C108: profiles of the fields and of the CP-violating phase across the bubble wall. *)
From Coq Require Import Reals List ZArith Lra.
From Verif Require Import Model.WallProfile Spec.WallProfileSpec Proofs.WallProfileProofs.
Import ListNotations.
Open Scope R_scope.

(** every field goes from its broken value to zero, calculate_vev_derivative is the derivative, and the two
    implementations of profile and derivative agree *)
Theorem C108_fields : forall LW vc i, 0 < LW -> (i < length vc)%nat ->
  goes_from_to (component (calculate_vev LW vc) i) (nth i vc 0) 0 /\
  derivative_of (component (calculate_vev LW vc) i) (component (calculate_vev_derivative LW vc) i) /\
  (forall z, component (gen_phi LW vc) i z = component (calculate_vev LW vc) i z) /\
  (forall z, component (omegaprime LW vc) i z = component (calculate_vev_derivative LW vc) i z).
Proof. exact vev_profile. Qed.
Print Assumptions C108_fields.
Example C108_nonvacuous : 0 < 2 /\ (1 < length [3; 5])%nat /\ component (calculate_vev 2 [3; 5]) 1 0 = 5 / 2.
Proof.
  split; [lra|split; [apply le_n|]]. unfold component, calculate_vev. cbn [map nth].
  replace (0 / 2) with 0 by field. unfold tanh. rewrite sinh_0. unfold Rdiv. rewrite Rmult_0_l. field.
Qed.

(** the phase goes from the broken to the symmetric value, and orders 1 and 2 are its derivatives *)
Theorem C108_phase : forall LW sym brk, 0 < LW ->
  goes_from_to (calculate_theta LW sym brk 0) brk sym /\
  derivative_of (calculate_theta LW sym brk 0) (calculate_theta LW sym brk 1) /\
  derivative_of (calculate_theta LW sym brk 1) (calculate_theta LW sym brk 2).
Proof. exact theta_profile. Qed.
Print Assumptions C108_phase.

(** the second implementation returns the same three values unless both boundary phases are below 1e-12 ... *)
Theorem C108_phase_agrees : forall LW sym brk z, 0 < LW -> ~ (Rabs sym < / 10 ^ 12 /\ Rabs brk < / 10 ^ 12) ->
  Calc_theta LW sym brk z =
    (calculate_theta LW sym brk 0 z, calculate_theta LW sym brk 1 z, calculate_theta LW sym brk 2 z).
Proof. exact theta_same. Qed.
Print Assumptions C108_phase_agrees.
Example C108_nonvacuous_phase : ~ (Rabs 1 < / 10 ^ 12 /\ Rabs 2 < / 10 ^ 12).
Proof.
  intros [H _]. rewrite Rabs_R1 in H. assert (L : / 10 ^ 12 < / 1) by (apply Rinv_lt_contravar; lra). lra.
Qed.

(** ... in which case it returns zero and the phase itself is below 1e-12 everywhere *)
Theorem C108_phase_small : forall LW sym brk z, Rabs sym < / 10 ^ 12 -> Rabs brk < / 10 ^ 12 -> 0 < LW ->
  Calc_theta LW sym brk z = (0, 0, 0) /\ Rabs (calculate_theta LW sym brk 0 z) < / 10 ^ 12.
Proof. exact theta_small. Qed.
Print Assumptions C108_phase_small.
Example C108_nonvacuous_small : Rabs (/ 10 ^ 13) < / 10 ^ 12 /\ calculate_theta 1 0 (/ 10 ^ 13) 0 0 <> 0.
Proof.
  split.
  - rewrite Rabs_pos_eq; [apply Rinv_lt_contravar; lra|]. left. apply Rinv_0_lt_compat. lra.
  - unfold calculate_theta. simpl (_ =? _)%Z. cbn match. cbv zeta. replace (0 / 1) with 0 by field. unfold tanh. rewrite sinh_0. unfold Rdiv. rewrite Rmult_0_l.
    assert (0 < / 10 ^ 13) by (apply Rinv_0_lt_compat; lra). set (e := / 10 ^ 13) in *. lra.
Qed.

(** refuted: the profile does not end in the symmetric vev that was found, but in zero *)
Theorem C108_symmetric_vev_ignored_refuted :
  exists LW vc vsym i, 0 < LW /\ (i < length vc)%nat /\ length vc = length vsym /\
    ~ goes_from_to (component (calculate_vev LW vc) i) (nth i vc 0) (nth i vsym 0).
Proof.
  exists 1, [100], [20], 0%nat. split; [lra|]. split; [apply le_n|]. split; [reflexivity|].
  apply symmetric_vev_ignored; [lra|apply le_n|cbn; lra].
Qed.
Print Assumptions C108_symmetric_vev_ignored_refuted.
