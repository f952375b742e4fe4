(** C128: search for a stationary point. *)
From Coq Require Import Reals Lra Lia.
From Verif Require Import Spec.LocateSpec Proofs.LocateProofs Model.Locate.
Open Scope R_scope.

(** the result comes from the guess by at most maxiter steps; its gradient is small or all steps were used up *)
Theorem C128_result_partial : forall dim solve df Hessian error c maxiter guess,
  let r := LocateMinimum dim solve df Hessian error c maxiter guess in
  exists k, (k <= maxiter)%nat /\ r = Nat.iter k (newton_step solve df Hessian c) guess /\ (length2 dim (df r) <= error \/ k = maxiter) /\
    forall m, (m < k)%nat -> error < length2 dim (df (Nat.iter m (newton_step solve df Hessian c) guess)).
Proof. exact locate_iter. Qed.
(** a step solves the linear system with the shifted Hessian; only if that is singular it goes against the gradient *)
Theorem C128_step : forall dim solve df Hessian c x, solves dim solve ->
  let y := newton_step solve df Hessian c x in let H m k := Hessian x m k + (if Nat.eqb m k then 1 / 1000 else 0) in
  (forall i, (i < dim)%nat -> apply dim H (fun j => y j - x j) i = - df x i) \/
  ((exists z, (exists i, (i < dim)%nat /\ z i <> 0) /\ forall i, (i < dim)%nat -> apply dim H z i = 0) /\
   forall i, (i < dim)%nat -> y i - x i = - (c * df x i)).
Proof. exact step_kind. Qed.
(** for a quadratic function with curvature at least lambda each step reduces the gradient by the factor 1e-3 / (lambda + 1e-3);
    if that is enough after maxiter steps, the result is stationary within the error and close to the minimum *)
Theorem C128_quadratic : forall dim solve A m lambda error c, solves dim solve -> bounded_below dim A lambda -> 0 < lambda ->
  let df := fun x => apply dim A (fun j => x j - m j) in
  (forall x, length2 dim (df (newton_step solve df (fun _ => A) c x)) <= 1 / 1000 / (lambda + 1 / 1000) * length2 dim (df x)) /\
  forall maxiter guess, (1 / 1000 / (lambda + 1 / 1000)) ^ maxiter * length2 dim (df guess) <= error ->
  let r := LocateMinimum dim solve df (fun _ => A) error c maxiter guess in
  length2 dim (df r) <= error /\ lambda * length2 dim (fun j => r j - m j) <= error.
Proof.
  intros dim solve A m lambda error c S B L df. split; [exact (quad_step dim solve A m lambda c S B L)|]. exact (quad_locate dim solve A m lambda error c S B L).
Qed.
Example C128_nonvacuous : solves 1 solve1 /\ bounded_below 1 (fun _ _ => 2) 2 /\
  (1 / 1000 / (2 + 1 / 1000)) ^ 1 * length2 1 (apply 1 (fun _ _ => 2) (fun j => 1 - 0)) <= 1 / 100.
Proof.
  split; [exact solve1_ok|]. split; [intros x; unfold apply; cbn; lra|]. rewrite length1. unfold apply; cbn. rewrite Rabs_right; lra.
Qed.
(** around a weak maximum the search moves away, and what it returns is not stationary *)
Theorem C128_stationary_refuted : exists solve A, solves 1 solve /\
  let df := fun x : vector => fun i : nat => A * x i in
  forall maxiter, let r := LocateMinimum 1 solve df (fun _ _ _ => A) (1 / 10000) (1 / 100) maxiter (fun _ => 1) in
  Rabs (r 0%nat) = 2 ^ maxiter /\ 1 / 10000 < length2 1 (df r).
Proof. exact hill_scaled. Qed.

Print Assumptions C128_result_partial.
Print Assumptions C128_step.
Print Assumptions C128_quadratic.
Print Assumptions C128_stationary_refuted.
