(** C123: the integration step of the bounce equation is an embedded Runge-Kutta method of order 5 (4). *)
From Coq Require Import Reals List Lra Lia QArith Qreals.
From Verif Require Import Model.BounceStart Model.RungeKutta Spec.RungeKuttaSpec Proofs.RungeKuttaProofs.
Import ListNotations.
Open Scope R_scope.

(** yout is one step of a method of order 5, yerr its distance from a method of order 4 with the same stages *)
Theorem C123_order_partial : exists T5 T4 : tableau,
  (forall F y rho h, RK5_step F y (F rho y) rho h =
     (rk_step T5 F y rho h, pair_add (rk_step T5 F y rho h) (pair_mul (-1) (rk_step T4 F y rho h)))) /\
  has_order 5 T5 /\ ~ has_order 6 T5 /\ has_order 4 T4 /\ rows T5 = rows T4.
Proof. exact order_5_4. Qed.

(** the slopes are those of the bounce equation: a curve moves along them at rho > 0 iff l'' + alpha / rho l' = V'(l) there *)
Theorem C123_equation : forall dV alpha (l l1 : R -> R) rho l2, 0 < rho ->
  derivable_pt_lim l rho (l1 rho) -> derivable_pt_lim l1 rho l2 ->
  (exists w, AuxFunctionDev dV alpha rho (l rho, l1 rho) = w /\ derivable_pt_lim l rho (fst w) /\ derivable_pt_lim l1 rho (snd w)) <->
  l2 + INR alpha / rho * l1 rho = dV (l rho).
Proof. exact slopes_equation. Qed.

(** exact when the slope is a polynomial of degree 4 in rho *)
Theorem C123_polynomial : forall a0 a1 a2 a3 a4 b0 b1 b2 b3 b4 y rho h,
  let P x := a0 * x + a1 * x ^ 2 / 2 + a2 * x ^ 3 / 3 + a3 * x ^ 4 / 4 + a4 * x ^ 5 / 5 in
  let W x := b0 * x + b1 * x ^ 2 / 2 + b2 * x ^ 3 / 3 + b3 * x ^ 4 / 4 + b4 * x ^ 5 / 5 in
  let F := fun (x : R) (_ : vec) => (a0 + a1 * x + a2 * x ^ 2 + a3 * x ^ 3 + a4 * x ^ 4, b0 + b1 * x + b2 * x ^ 2 + b3 * x ^ 3 + b4 * x ^ 4) in
  fst (RK5_step F y (F rho y) rho h) = (fst y + (P (rho + h) - P rho), snd y + (W (rho + h) - W rho)).
Proof. exact exact_polynomial. Qed.
(** for a linear system it is the exponential series up to the fifth power of h *)
Theorem C123_linear : forall a b c d y rho h,
  let A := lin a b c d in let F := fun (_ : R) y => A y in
  fst (RK5_step F y (F rho y) rho h) =
    y +v h *v A y +v (h ^ 2 / 2) *v A (A y) +v (h ^ 3 / 6) *v A (A (A y)) +v (h ^ 4 / 24) *v A (A (A (A y)))
      +v (h ^ 5 / 120) *v A (A (A (A (A y)))) +v (h ^ 6 / 800) *v A (A (A (A (A (A y))))).
Proof. exact exact_linear. Qed.

(** IntegrateBounce hands rho and the step to RK5_step as floats, with 24 binary digits *)
Theorem C123_float : forall x, / 2 ^ 126 <= Rabs x -> Rabs (to_float x - x) <= / 2 ^ 24 * Rabs x.
Proof. exact float_close. Qed.
(** so that the step of l is not the step of rho: the motion l = rho with speed 1 solves the equation in the force
    alpha / l, the step in doubles follows it exactly, but the point that IntegrateBounce appends is not on it *)
Theorem C123_float_refuted : forall alpha eps m root, exists dV p step q next,
  advance dV alpha eps m root p step = (q, next) /\ 0 < p_rho p /\ 0 < step /\
  (forall r, 0 < r -> dV r - INR alpha / r = 0) /\
  p_l p = p_rho p /\ p_dl p = 1 /\ p_d2l p = d2ldrho2 dV alpha (p_l p) (p_rho p) (p_dl p) /\
  fst (RK5_step (AuxFunctionDev dV alpha) (p_l p, p_dl p) (p_dl p, p_d2l p) (p_rho p) step) = (p_rho p + step, 1) /\
  p_rho q = p_rho p + step /\ p_l q <> p_rho q.
Proof. exact float_step. Qed.

(** the conditions of order 5 are not trivial: Euler's method fails them at order 2, and there are several trees *)
Example C123_nonvacuous_order : ~ has_order 2 (mkTableau [[]] [1%Q]) /\ has_order 1 (mkTableau [[]] [1%Q]).
Proof.
  split; [intros H; specialize (H (Graft Vertex Vertex) ltac:(cbn; lia)); vm_compute in H; discriminate|].
  apply checks_ok; vm_compute; reflexivity.
Qed.
(** classic midpoint rule: order 2 *)
Example C123_nonvacuous_midpoint : has_order 2 (mkTableau [[]; [1 # 2]] [0; 1]%Q).
Proof. apply checks_ok; vm_compute; reflexivity. Qed.
Example C123_nonvacuous_equation : derivable_pt_lim (fun r => r) 2 1 /\ derivable_pt_lim (fun _ => 1) 2 0 /\ 0 + INR 2 / 2 * 1 = 2 / 2.
Proof. split; [apply derivable_pt_lim_id|]. split; [apply derivable_pt_lim_const|]. cbn. lra. Qed.
Example C123_nonvacuous_float : / 2 ^ 126 <= Rabs 1 /\ to_float 1 = 1.
Proof.
  split; [|exact float_one]. rewrite Rabs_R1, <- Rinv_1. apply Rinv_le_contravar; [lra|]. apply pow_R1_Rle; lra.
Qed.
Example C123_nonvacuous_step : fst (RK5_step (fun x _ => (0 + 0 * x + 0 * x ^ 2 + 0 * x ^ 3 + 5 * x ^ 4, 0 + 2 * x + 0 * x ^ 2 + 0 * x ^ 3 + 0 * x ^ 4)) (7, 8) (0, 0) 0 1) = (8, 9).
Proof.
  pose proof (exact_polynomial 0 0 0 0 5 0 2 0 0 0 (7, 8) 0 1) as H; cbv zeta in H; cbn [fst snd] in H.
  match type of H with fst (RK5_step _ _ ?d _ _) = _ => replace d with (0, 0) in H by (apply pair_eq; ring) end.
  rewrite H. apply pair_eq; field.
Qed.

Print Assumptions C123_order_partial.
Print Assumptions C123_equation.
Print Assumptions C123_polynomial.
Print Assumptions C123_linear.
Print Assumptions C123_float.
Print Assumptions C123_float_refuted.
