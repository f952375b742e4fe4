(** C144: baryon asymmetry from the left-handed chemical potential. *)
From Coq Require Import Reals List Lra Lia.
From Coquelicot Require Import Coquelicot.
From Verif Require Import Model.EtaMubl Spec.EtaMublSpec Proofs.EtaMublProofs.
Import ListNotations.
Open Scope R_scope.

(** Integrate_mubl_interpolated is the density of baryons at the wall, up to the error of the interpolation. *)
Theorem C144_interpolated : forall boost mubl vw T zmax e eps, 0 < vw -> 0 < T -> 0 <= zmax ->
  continuous_on mubl zmax -> continuous_on (generate_mubl_spline boost mubl zmax 100) zmax ->
  (forall z, 0 <= z <= zmax -> Rabs (generate_mubl_spline boost mubl zmax 100 z - mubl z) <= eps) ->
  baryons mubl vw T zmax e ->
  Rabs (Integrate_mubl_interpolated boost mubl vw T zmax - e 0) <= 405 * sphaleron T / (4 * PI ^ 2 * vw * (10675 / 100) * T) * eps * zmax.
Proof. intros boost mubl vw T zmax e eps Pv PT Pz. exact (interpolated_close vw T zmax Pv PT Pz boost mubl e eps). Qed.
(** Integrate_mubl is that density without the constant in front of the integral. *)
Theorem C144_direct : forall mubl vw T zmax e, 0 < vw -> 0 < T -> 0 <= zmax -> continuous_on mubl zmax -> baryons mubl vw T zmax e ->
  Integrate_mubl mubl vw T zmax * (405 * sphaleron T / (4 * PI ^ 2 * vw * (10675 / 100) * T)) = e 0.
Proof. intros mubl vw T zmax e Pv PT Pz. exact (direct vw T zmax Pv PT Pz mubl e). Qed.
(** The spline gets the potential at equidistant points from the wall up to zmax, with the left end and the step that belong to them. *)
Theorem C144_knots : forall mubl zmax k, (0 < k)%nat -> length (ydata mubl zmax k) = S k /\ INR k * stepsize zmax k = zmax /\
  (forall i, (i <= k)%nat -> nth i (ydata mubl zmax k) 0 = mubl (0 + INR i * stepsize zmax k)) /\
  forall boost, generate_mubl_spline boost mubl zmax k = boost (ydata mubl zmax k) 0 (stepsize zmax k).
Proof. intros mubl zmax k K. destruct (knots mubl zmax k K) as [A [B C]]. split; [exact A|]. split; [exact B|]. split; [exact C|reflexivity]. Qed.

(** A constant chemical potential, with a spline that is constant. *)
Example C144_nonvacuous : baryons (fun _ => 2) (1 / 10) 100 3
    (fun z => 405 * sphaleron 100 / (4 * PI ^ 2 * (1 / 10) * (10675 / 100) * 100) * 2 / (45 * sphaleron 100 / (4 * (1 / 10))) * (1 - exp (45 * sphaleron 100 / (4 * (1 / 10)) * (z - 3)))) /\
  continuous_on (fun _ => 2) 3 /\
  (forall z, 0 <= z <= 3 -> Rabs (generate_mubl_spline (fun data _ _ _ => nth 0 data 0) (fun _ => 2) 3 100 z - 2) <= 0) /\
  continuous_on (generate_mubl_spline (fun data _ _ _ => nth 0 data 0) (fun _ => 2) 3 100) 3.
Proof.
  split; [apply constant_baryons; lra|]. split; [intros z _; apply continuous_const|]. split.
  - intros z _. change (Rabs (2 - 2) <= 0). rewrite Rminus_diag_eq by reflexivity. rewrite Rabs_R0. lra.
  - intros z _. apply continuous_const.
Qed.

Print Assumptions C144_interpolated.
Print Assumptions C144_direct.
Print Assumptions C144_knots.
