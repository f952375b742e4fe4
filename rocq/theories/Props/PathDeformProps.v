(** C126: deformation of the tunnelling path. *)
From Coq Require Import Reals List Lra Lia ZArith.
From Coquelicot Require Import Coquelicot.
From Verif Require Import Spec.PathDeformSpec Proofs.PathDeformProofs Model.Action Model.PathDeform.
Open Scope R_scope.

(** on a path of unit speed the equations of all fields say: the equation along the path holds and the normal force vanishes *)
Theorem C126_decomposition : forall d alpha grad c t k l l1 l2,
  unit_curve d c t k ->
  (forall r, 0 < r -> derivable_pt_lim l r (l1 r) /\ derivable_pt_lim l1 r (l2 r)) ->
  (field_equation d alpha grad (fun r => c (l r)) <->
   (forall r, 0 < r -> l2 r + alpha / r * l1 r = inner d (grad (c (l r))) (t (l r))) /\
   (forall r i, 0 < r -> (i < d)%nat -> NormalForce d (t (l r)) (k (l r)) (l1 r) (grad (c (l r))) i = 0)).
Proof. exact decomposition. Qed.
(** the normal force is perpendicular to such a path *)
Theorem C126_normal : forall d grad c t k (l l1 : R -> R), unit_curve d c t k ->
  forall r, inner d (NormalForce d (t (l r)) (k (l r)) (l1 r) (grad (c (l r)))) (t (l r)) = 0.
Proof. exact perp. Qed.
Example C126_nonvacuous_curve : unit_curve 2 (fun x i => match i with O => cos x | _ => sin x end)
  (fun x i => match i with O => - sin x | _ => cos x end) (fun x i => match i with O => - cos x | _ => - sin x end) /\
  NormalForce 2 (fun i => match i with O => 0 | _ => 1 end) (fun i => match i with O => -1 | _ => 0 end) 2 (fun i => match i with O => 1 | _ => 7 end) 0%nat = - 5.
Proof. split; [exact circle_unit|]. unfold NormalForce; cbn [dot]; lra. Qed.
(** of a path of Bernstein polynomials even one field has a normal force *)
Theorem C126_bernstein_refuted : exists coef g,
  let t := fun _ : nat => smooth_dphi 10 coef 1 0 in let k := fun _ : nat => smooth_d2phi 10 coef 1 0 in
  NormalForce 1 t k 0 (fun _ => g) 0%nat <> 0.
Proof. exact bernstein_tilted. Qed.

(** the matrix of the projection *)
Theorem C126_gram : forall deg i j l0 lf, (deg <= 14)%nat -> (i <= deg)%nat -> (j <= deg)%nat -> l0 < lf ->
  is_RInt (fun x => Bernstein (Z.of_nat deg) (Z.of_nat i) ((x - l0) / (lf - l0)) * Bernstein (Z.of_nat deg) (Z.of_nat j) ((x - l0) / (lf - l0))) l0 lf
    (K_entry deg i j (lf - l0)).
Proof. exact gram. Qed.
Example C126_nonvacuous_gram : (10 <= 14)%nat /\ K_entry 10 0 0 21 = 1 /\ 0 < K_entry 10 3 4 1.
Proof.
  split; [lia|]. unfold K_entry.
  replace (nChoosek (2 * Z.of_nat 10) (Z.of_nat 0 + Z.of_nat 0)) with 1%Z by (vm_compute; reflexivity).
  replace (nChoosek (Z.of_nat 10) (Z.of_nat 0)) with 1%Z by (vm_compute; reflexivity).
  replace (nChoosek (2 * Z.of_nat 10) (Z.of_nat 3 + Z.of_nat 4)) with 77520%Z by (vm_compute; reflexivity).
  replace (nChoosek (Z.of_nat 10) (Z.of_nat 3)) with 120%Z by (vm_compute; reflexivity).
  replace (nChoosek (Z.of_nat 10) (Z.of_nat 4)) with 210%Z by (vm_compute; reflexivity).
  replace (INR 10) with 10 by (rewrite INR_IZR_INZ; reflexivity). split; lra.
Qed.

(** the check after the one-dimensional solution: at each of 499 positions the force is below 5 per cent of the gradient *)
Theorem C126_check : forall force gradient first last, first < last ->
  (forall x, 0 <= force x /\ 0 <= gradient x) ->
  (PathDeformationCheck force gradient first last = true <->
   forall k, (1 <= k <= 499)%nat -> let x := first + INR k * ((last - first) / 500) in
     force x < 5 / 100 * gradient x \/ force x = 0 /\ gradient x = 0).
Proof. exact check_spec. Qed.
Example C126_nonvacuous_check : PathDeformationCheck (fun _ => 1) (fun _ => 30) 0 1 = true /\ PathDeformationCheck (fun _ => 1) (fun _ => 20) 0 1 = false.
Proof.
  split; [apply C126_check; [lra|intros; lra|intros; cbn zeta; left; lra]|].
  destruct (PathDeformationCheck (fun _ => 1) (fun _ => 20) 0 1) eqn:E; [|reflexivity].
  rewrite (C126_check (fun _ => 1) (fun _ => 20) 0 1 ltac:(lra) ltac:(intros; lra)) in E. destruct (E 1%nat ltac:(lia)); lra.
Qed.

(** the new path ends in the false vacuum; if it is reported as converged, it is some path on which the largest force is below
    5 per cent of the largest gradient, moved by the force *)
Theorem C126_deform_partial : forall dim L smooth force gradient start fv g0,
  let r := PathDeformation dim L smooth force gradient start fv g0 in
  (forall i, fst r 50%nat i = fv i) /\
  (snd r = true -> exists q red G, 0 < G /\
     (forall k, (k < 50)%nat -> norm dim (gradient q k) <= G) /\ (exists k, (k < 50)%nat /\ norm dim (gradient q k) = G) /\
     (forall k, (k < 50)%nat -> norm dim (force q k) < 5 / 100 * G) /\
     forall k i, (k < 50)%nat -> fst r k i = fv i + (q k i + force q k i / red)).
Proof. exact deform_max. Qed.
Example C126_nonvacuous_deform : exists L start fv g0,
  let r := PathDeformation 2 L (fun p => p) (flat_force ridge) ridge start fv g0 in snd r = true.
Proof. destruct best_bad as (L & s & f & g & H & _). exists L, s, f, g. exact H. Qed.
(** from the second call on the step size is between 1e-4 and 0.1, and the recorded error never grows *)
Theorem C126_step : forall dim L smooth force gradient s,
  (d_forces s <> None -> / 10 ^ 4 <= d_step (SinglePathDeformation dim L smooth force gradient s) <= 1 / 10) /\
  d_error (SinglePathDeformation dim L smooth force gradient s) <= d_error s.
Proof. exact single_bounds. Qed.
Example C126_nonvacuous_step : d_forces (SinglePathDeformation 2 50 (fun p => p) (flat_force ridge) ridge (mkDeformation straight straight 1 (10 ^ 100) (2 / 10 ^ 5) None)) <> None.
Proof. apply single_forces. Qed.
(** the force turned around at eight or more of the 50 knots: the step is divided by five and the search goes back to the best
    path; otherwise the step grows by one half and the path moves by the force *)
Theorem C126_reversal : forall dim L smooth force gradient s old, d_forces s = Some old ->
  let p := smooth (d_next s) in let f := force p in let s' := SinglePathDeformation dim L smooth force gradient s in
  let reversed := length (filter (fun k => if Rlt_dec (inner dim (f k) (old k)) 0 then true else false) (seq 0 50)) in
  d_forces s' = Some f /\
  ((8 <= reversed)%nat -> d_step s' = Rmax (Rmin (d_step s / 5) (1 / 10)) (/ 10 ^ 4) /\ d_next s' = d_best s') /\
  ((reversed <= 7)%nat -> d_step s' = Rmax (Rmin (d_step s * (3 / 2)) (1 / 10)) (/ 10 ^ 4) /\
     forall k i, (k < 50)%nat -> d_next s' k i = p k i + f k i / (d_gradient s / L / d_step s)).
Proof. exact single_reversal. Qed.
(** converged although at a knot the force is as large as the gradient *)
Theorem C126_ratio_refuted : exists L start fv g0, snd (PathDeformation 2 L (fun p => p) (flat_force slope) slope start fv g0) = true /\
  exists k, (k < 50)%nat /\ norm 2 (slope start k) <> 0 /\ norm 2 (flat_force slope start k) = norm 2 (slope start k).
Proof. exact ratio_large. Qed.
(** converged although on the path that is handed on the force is above 5 per cent at every knot *)
Theorem C126_best_refuted : exists L start fv g0, let r := PathDeformation 2 L (fun p => p) (flat_force ridge) ridge start fv g0 in
  snd r = true /\ forall k, (k < 50)%nat -> 5 / 100 * norm 2 (ridge (fst r) k) < norm 2 (flat_force ridge (fst r) k).
Proof. exact best_bad. Qed.

Print Assumptions C126_decomposition.
Print Assumptions C126_normal.
Print Assumptions C126_bernstein_refuted.
Print Assumptions C126_gram.
Print Assumptions C126_check.
Print Assumptions C126_deform_partial.
Print Assumptions C126_step.
Print Assumptions C126_reversal.
Print Assumptions C126_ratio_refuted.
Print Assumptions C126_best_refuted.
