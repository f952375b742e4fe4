(** C122: the first step of the bounce follows the linearised equation of motion. *)
From Coq Require Import Reals Lra Lia.
From Verif Require Import Model.BounceStart Spec.BounceStartSpec Proofs.BounceUnique.
Open Scope R_scope.

(** the motion exists and is unique, so that "the" motion makes sense below *)
Theorem C122_motion_exists : forall alpha c d l0, exists phi phi', (alpha = 2%nat \/ alpha = 3%nat -> rolls alpha (fun l => c + (l - l0) * d) l0 phi phi').
Proof. exact solution_exists. Qed.
Theorem C122_motion_unique : forall alpha c d l0 p p' q q',
  rolls alpha (fun l => c + (l - l0) * d) l0 p p' -> rolls alpha (fun l => c + (l - l0) * d) l0 q q' ->
  forall r, 0 < r -> p r = q r /\ p' r = q' r.
Proof. exact rolls_unique. Qed.

(** the position returned is the requested one (for d2 < 0 possibly nearer to l0 by a power of ten, but not when
    l - l0 <= dVdl / |d2|), rho is within 1e-10 of where the motion passes it, the speed is the one of the motion
    (for Alpha = 3 and d2 < 0 the one of a point at most 0.001 away) *)
Theorem C122_start_partial : forall fuel alpha L l0 l dVdl d2 phi phi' rho lr v,
  (alpha = 2%nat \/ alpha = 3%nat) -> 0 < L -> 0 < dVdl <= 10 ^ 150 * L -> / 10 ^ 60 <= Rabs d2 <= 10 ^ 18 ->
  L / 10 ^ 11 <= l - l0 -> (0 < d2 -> l - l0 <= dVdl * 101 ^ 2 / 8) ->
  rolls alpha (fun x => dVdl + (x - l0) * d2) l0 phi phi' ->
  ExactSolutionLin fuel alpha L l0 l dVdl d2 = Start rho lr v ->
  exists n rs, lr = l0 + (l - l0) / 10 ^ n /\ (0 < d2 \/ l - l0 <= dVdl / Rabs d2 -> n = 0%nat) /\
    0 < rs /\ phi rs = lr /\ Rabs (rho - rs) <= / 10 ^ 10 /\
    0 < rho /\ (alpha = 2%nat \/ 0 < d2 -> v = phi' rho) /\
    (1 / 1000 < rho -> exists r, Rabs (r - rho) <= 1 / 1000 /\ v = phi' r).
Proof. exact lin_start. Qed.

(** twelve nested calls suffice; it fails only when the motion cannot come as far as 1e-10 of the path *)
Theorem C122_ends : forall fuel alpha L l0 l dVdl d2,
  (alpha = 2%nat \/ alpha = 3%nat) -> 0 < L -> 0 < dVdl <= 10 ^ 150 * L -> / 10 ^ 60 <= Rabs d2 <= 10 ^ 18 ->
  L / 10 ^ 11 <= l - l0 <= L -> (0 < d2 -> l - l0 <= dVdl * 101 ^ 2 / 8) -> (12 <= fuel)%nat ->
  (exists rho lr v, ExactSolutionLin fuel alpha L l0 l dVdl d2 = Start rho lr v) \/
  (ExactSolutionLin fuel alpha L l0 l dVdl d2 = IntegrationFailed /\ d2 < 0 /\ dVdl / Rabs d2 < L / 10 ^ 10).
Proof. exact lin_ends. Qed.

Theorem C122_from_minimum_partial : forall alpha hess lmin delta l phi phi',
  (alpha = 2%nat \/ alpha = 3%nat) -> 0 < hess <= 10 ^ 18 -> 0 < delta ->
  delta / 10 ^ 150 <= l - (lmin + delta) <= hess * delta * 100 ^ 2 / 8 ->
  rolls alpha (fun x => hess * (x - lmin)) (lmin + delta) phi phi' ->
  exists rho v rs, ExactSolutionFromMinimum alpha hess lmin delta l = Start rho l v /\
    0 < rs /\ phi rs = l /\ Rabs (rho - rs) <= / 10 ^ 10 /\ 0 < rho /\ v = phi' rho.
Proof. exact from_minimum. Qed.

(** where the potential has no curvature, the friction is forgotten: the speed and the distance are too large by
    the factor Alpha + 1, whatever the slope *)
Theorem C122_flat_refuted : forall alpha fuel L l0 l dVdl phi phi', (alpha = 2%nat \/ alpha = 3%nat) -> dVdl <> 0 ->
  rolls alpha (fun x => dVdl + (x - l0) * 0) l0 phi phi' ->
  exists rho lr v, ExactSolutionLin (S fuel) alpha L l0 l dVdl 0 = Start rho lr v /\ 0 < rho /\
    v = (INR alpha + 1) * phi' rho /\ lr - l0 = (INR alpha + 1) * (phi rho - l0) /\ v <> phi' rho /\ lr <> phi rho.
Proof. exact flat_wrong. Qed.
(** when the search ends at rho = 101, the requested position is returned though the motion is not there *)
Theorem C122_far_refuted : forall phi phi', rolls 2 (fun x => 1 + (x - 0) * / 10 ^ 6) 0 phi phi' ->
  exists rho v, ExactSolutionLin 1 2 (10 ^ 6) 0 (10 ^ 5) 1 (/ 10 ^ 6) = Start rho (10 ^ 5) v /\ 0 < rho /\ phi rho < 10 ^ 5 / 2.
Proof. exact too_far. Qed.

Lemma unit_d : / 10 ^ 60 <= Rabs 1 <= 10 ^ 18 /\ / 10 ^ 60 <= Rabs (-1) <= 10 ^ 18.
Proof.
  rewrite (Rabs_left (-1)), Rabs_R1 by lra.
  assert (/ 10 ^ 60 <= 1) by (rewrite <- Rinv_1; apply Rinv_le_contravar; [lra|apply pow_R1_Rle; lra]).
  assert (1 <= 10 ^ 18) by (apply pow_R1_Rle; lra). lra.
Qed.
(** both signs of the curvature: a path of length 1, the position 1/100 is requested *)
Example C122_nonvacuous : exists alpha L l0 l dVdl rho1 v1 rho2 v2,
  ExactSolutionLin 12 alpha L l0 l dVdl 1 = Start rho1 l v1 /\ ExactSolutionLin 12 alpha L l0 l dVdl (-1) = Start rho2 l v2 /\
  (alpha = 2%nat \/ alpha = 3%nat) /\ 0 < L /\ 0 < dVdl <= 10 ^ 150 * L /\ / 10 ^ 60 <= Rabs 1 <= 10 ^ 18 /\ / 10 ^ 60 <= Rabs (-1) <= 10 ^ 18 /\
  L / 10 ^ 11 <= l - l0 <= L /\ l - l0 <= dVdl * 101 ^ 2 / 8.
Proof.
  destruct unit_d as [U1 U2].
  assert (P : 1 <= 10 ^ 150) by (apply pow_R1_Rle; lra).
  assert (Q : forall d, / 10 ^ 60 <= Rabs d <= 10 ^ 18 -> Rabs d = 1 -> exists rho v, ExactSolutionLin 12 3 1 0 (1 / 100) 1 d = Start rho (1 / 100) v).
  { intros d D E.
    destruct (lin_ends 12 3 1 0 (1 / 100) 1 d) as [(rho & lr & v & H)|(_ & _ & K)]; try lra; try (right; reflexivity); try lia.
    2:{ rewrite E in K; lra. }
    destruct (solution_exists 3 1 d 0) as (phi & phi' & RO).
    destruct (lin_start 12 3 1 0 (1 / 100) 1 d phi phi' rho lr v) as (n & rs & El & Hn & _); try assumption; try lra; try (right; reflexivity).
    { apply RO; right; reflexivity. }
    rewrite Hn, pow_O in El by (right; rewrite E; lra).
    exists rho, v; rewrite H; f_equal; lra. }
  destruct (Q 1 U1 Rabs_R1) as (r1 & v1 & H1).
  destruct (Q (-1) U2 ltac:(rewrite Rabs_left by lra; lra)) as (r2 & v2 & H2).
  exists 3%nat, 1, 0, (1 / 100), 1, r1, v1, r2, v2. repeat split; try assumption; try lra. right; reflexivity.
Qed.
Example C122_nonvacuous_minimum : exists rho v, ExactSolutionFromMinimum 2 1 0 1 2 = Start rho 2 v /\ 0 < rho.
Proof.
  destruct (solution_exists 2 1 1 1) as (phi & phi' & RO).
  destruct (from_minimum 2 1 0 1 2 phi phi') as (rho & v & rs & E & _ & _ & _ & R & _); try lra; try (left; reflexivity).
  - rewrite Rplus_0_l. destruct (RO (or_introl eq_refl)) as [[q H] N]; split; [|exact N].
    exists q; intros r Hr; destruct (H r Hr) as (A & B & C); repeat split; try assumption; rewrite C; ring.
  - exists rho, v; split; assumption.
Qed.

Print Assumptions C122_start_partial.
Print Assumptions C122_from_minimum_partial.
Print Assumptions C122_flat_refuted.
Print Assumptions C122_far_refuted.
