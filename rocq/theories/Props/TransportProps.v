(** C109: the right-hand sides of the Fromme-Huber transport equations. *)
From Coq Require Import Reals List ZArith Lra.
From Verif Require Import Model.WallProfile Model.Transport Spec.WallProfileSpec Spec.TransportSpec Proofs.DerivLib Proofs.TransportProofs.
Import ListNotations.
Open Scope R_scope.

(** with plasma velocities: the eight derivatives are a solution of the four continuity and four force equations *)
Theorem C109_velocity_equations : forall k T vw mws m2 m2' th' th'' x,
  v_K1t k * v_K5t k * vw ^ 2 + v_K4t k <> 0 -> v_K1b k * v_K5b k * vw ^ 2 + v_K4b k <> 0 -> v_K1h k * v_K5h k * vw ^ 2 + v_K4h k <> 0 ->
  let c := coefficients k T mws m2 in let S := St_of k vw m2 m2' th' th'' in
  let top := Av (v_K1t k) (v_K2t k) (v_K4t k) (v_K5t k) (v_K6t k) in
  let bottom := massless (v_K1b k) (v_K4b k) (v_K5b k) in
  let higgs := massless (v_K1h k) (v_K4h k) (v_K5h k) in
  let d := transport_rhs true k T vw mws m2 m2' th' th'' x in
  let kt := v_K1t k in let kb := v_K1b k in
  continuity top vw m2' (x0 x) (x0 d) (x4 d) (rate_t (c_GY c) (c_GM c) (c_GW c) (c_GSS c) kt kb (x0 x) (x1 x) (x2 x) (x3 x)) /\
  continuity bottom vw m2' (x1 x) (x1 d) (x5 d) (rate_b (c_GY c) (c_GW c) (c_GSS c) kt kb (x0 x) (x1 x) (x2 x) (x3 x)) /\
  continuity top vw m2' (x2 x) (x2 d) (x6 d) (rate_c (c_GY c) (c_GM c) (c_GSS c) kt kb (x0 x) (x1 x) (x2 x) (x3 x)) /\
  continuity higgs vw m2' (x3 x) (x3 d) (x7 d) (rate_h (c_GY c) (c_GH c) (x0 x) (x1 x) (x2 x) (x3 x)) /\
  force top vw m2' (c_GTTot c) (x0 d) (x4 x) (x4 d) (S / 3) /\
  force bottom vw m2' (c_GBTot c) (x1 d) (x5 x) (x5 d) 0 /\
  force top vw m2' (c_GTTot c) (x2 d) (x6 x) (x6 d) (S / 3) /\
  force higgs vw m2' (c_GHTot c) (x3 d) (x7 x) (x7 d) 0.
Proof. intros k T vw mws m2 m2' th' th'' x. exact (velocity_solves k (coefficients k T mws m2) vw m2' (St_of k vw m2 m2' th' th'') x). Qed.
Print Assumptions C109_velocity_equations.
Example C109_nonvacuous : let k := mkK 1 1 1 1 1 1 1 1 1 1 1 1 1 in
  v_K1t k * v_K5t k * (1 / 10) ^ 2 + v_K4t k <> 0 /\ v_K1b k * v_K5b k * (1 / 10) ^ 2 + v_K4b k <> 0 /\ v_K1h k * v_K5h k * (1 / 10) ^ 2 + v_K4h k <> 0.
Proof. cbn. repeat split; lra. Qed.

(** the equations have no other solution *)
Theorem C109_equations_determine : forall A vw m2' G mu u S r p1 q1 p2 q2,
  a1 A * a5 A * vw ^ 2 + a4 A <> 0 ->
  continuity A vw m2' mu p1 q1 r -> force A vw m2' G p1 u q1 S ->
  continuity A vw m2' mu p2 q2 r -> force A vw m2' G p2 u q2 S -> p1 = p2 /\ q1 = q2.
Proof. exact fluid_unique. Qed.
Print Assumptions C109_equations_determine.

(** the rates: diffusion constants 20/T for Higgs bosons and 6/T for quarks, and the numbers of the paper *)
Theorem C109_rates : forall k T mws m2, 0 < T -> v_K1h k <> 0 -> v_K1t k <> 0 -> v_K1b k <> 0 ->
  let c := coefficients k T mws m2 in
  c_GH c = mws / (50 * T) /\ c_GY c = 42 / 10000 * T /\ c_GM c = m2 / (63 * T) /\ c_GSS c = 49 / 100000 * T /\
  c_GHTot c = total_rate (massless (v_K1h k) (v_K4h k) (v_K5h k)) (20 / T) /\
  c_GTTot c = total_rate (Av (v_K1t k) (v_K2t k) (v_K4t k) (v_K5t k) (v_K6t k)) (6 / T) /\
  c_GBTot c = total_rate (massless (v_K1b k) (v_K4b k) (v_K5b k)) (6 / T) /\
  c_GW c = total_rate (massless (v_K1h k) (v_K4h k) (v_K5h k)) (20 / T).
Proof. exact coefficients_values. Qed.
Print Assumptions C109_rates.

(** the source is - vw K8 (m^2 theta')' + vw K9 theta' m^2 (m^2)' *)
Theorem C109_source : forall k vw m2 m2' th' th'' z, derivative_of m2 m2' -> derivative_of th' th'' ->
  exists d, derivable_pt_lim (fun y => m2 y * th' y) z d /\
  St_of k vw (m2 z) (m2' z) (th' z) (th'' z) = - vw * v_K8t k * d + vw * v_K9t k * th' z * m2 z * m2' z.
Proof. exact source_form. Qed.
Print Assumptions C109_source.

(** without plasma velocities: for coefficients that do not depend on the position, and with the term K5 u' of the
    force equations left out, the derivatives of the potentials change as operator() says, if its [dSt] is the
    derivative of the source *)
Theorem C109_second_order_partial : forall k T vw mws m2 m2' th' th'' (t b r h t' b' r' h' ut ub ur uh S : R -> R) z,
  let c := coefficients k T mws m2 in
  v_K4t k <> 0 -> v_K4b k <> 0 -> v_K4h k <> 0 ->
  derivable_pt_lim ut z (rate_t (c_GY c) (c_GM c) (c_GW c) (c_GSS c) (v_K1t k) (v_K1b k) (t z) (b z) (r z) (h z) - vw * v_K1t k * t' z - vw * v_K2t k * m2' * t z) ->
  derivable_pt_lim ub z (rate_b (c_GY c) (c_GW c) (c_GSS c) (v_K1t k) (v_K1b k) (t z) (b z) (r z) (h z) - vw * v_K1b k * b' z) ->
  derivable_pt_lim ur z (rate_c (c_GY c) (c_GM c) (c_GSS c) (v_K1t k) (v_K1b k) (t z) (b z) (r z) (h z) - vw * v_K1t k * r' z - vw * v_K2t k * m2' * r z) ->
  derivable_pt_lim uh z (rate_h (c_GY c) (c_GH c) (t z) (b z) (r z) (h z) - vw * v_K1h k * h' z) ->
  derivable_pt_lim S z (dSt_of k vw m2 m2' th' th'') ->
  (forall y, force (Av (v_K1t k) (v_K2t k) (v_K4t k) (v_K5t k) (v_K6t k)) vw m2' (c_GTTot c) (t' y) (ut y) 0 (S y / 3)) ->
  (forall y, force (massless (v_K1b k) (v_K4b k) (v_K5b k)) vw m2' (c_GBTot c) (b' y) (ub y) 0 0) ->
  (forall y, force (Av (v_K1t k) (v_K2t k) (v_K4t k) (v_K5t k) (v_K6t k)) vw m2' (c_GTTot c) (r' y) (ur y) 0 (S y / 3)) ->
  (forall y, force (massless (v_K1h k) (v_K4h k) (v_K5h k)) vw m2' (c_GHTot c) (h' y) (uh y) 0 0) ->
  let d := transport_rhs false k T vw mws m2 m2' th' th'' (mk8 (t z) (b z) (r z) (h z) (t' z) (b' z) (r' z) (h' z)) in
  (x0 d = t' z /\ x1 d = b' z /\ x2 d = r' z /\ x3 d = h' z) /\
  derivable_pt_lim t' z (x4 d) /\ derivable_pt_lim b' z (x5 d) /\ derivable_pt_lim r' z (x6 d) /\ derivable_pt_lim h' z (x7 d).
Proof.
  intros k T vw mws m2 m2' th' th'' t b r h t' b' r' h' ut ub ur uh S z.
  exact (second_order_solves k (coefficients k T mws m2) vw m2' t b r h t' b' r' h' ut ub ur uh S z (dSt_of k vw m2 m2' th' th'')).
Qed.
Print Assumptions C109_second_order_partial.
(** a case with moving fluids: temperature 6, vanishing potentials, [K1 = K4 = 1] and no other average; all total
    rates are 1 or 3/10, the bottom fluid has velocity exp(-z/10), a solution of its equations at z = 0 *)
Example C109_nonvacuous_second : let k := mkK 1 0 1 0 0 0 0 1 1 0 1 1 0 in let c := coefficients k 6 0 0 in
  v_K4b k <> 0 /\
  derivable_pt_lim (fun z => exp (- (z / 10)) ) 0 (rate_b (c_GY c) (c_GW c) (c_GSS c) (v_K1t k) (v_K1b k) 0 0 0 0 - 1 / 10 * v_K1b k * exp (- (0 / 10))) /\
  (forall y, force (massless (v_K1b k) (v_K4b k) (v_K5b k)) (1 / 10) 0 (c_GBTot c) (exp (- (y / 10))) (exp (- (y / 10))) 0 0).
Proof.
  cbn. split; [lra|]. split.
  - unfold rate_b, sphaleron. eapply DerivLib.dl_eq.
    + apply (DerivLib.dl_exp (fun z => - (z / 10))). apply (DerivLib.dl_opp (fun z => z / 10)).
      apply (DerivLib.dl_div (fun z => z) (fun _ => 10)); [apply DerivLib.dl_id|apply DerivLib.dl_const|lra].
    + replace (0 / 10) with 0 by field. rewrite Ropp_0, exp_0. field.
  - intro y. unfold force. cbn. field.
Qed.

(** refuted: on a kink wall with the top mass proportional to the field, [dSt] is not the derivative of the source *)
Theorem C109_source_derivative_refuted :
  exists k vw m2 m2' th' th'' z, derivative_of m2 m2' /\ derivative_of th' th'' /\
    ~ derivable_pt_lim (fun y => St_of k vw (m2 y) (m2' y) (th' y) (th'' y)) z (dSt_of k vw (m2 z) (m2' z) (th' z) (th'' z)).
Proof.
  exists (mkK 1 1 1 1 1 1 1 1 1 1 1 1 1), (1 / 10), kink_m2, kink_m2', (calculate_theta 1 0 1 1), (calculate_theta 1 0 1 2), 0.
  split; [exact kink_d1|]. split; [exact (proj2 (proj2 (WallProfileProofs.theta_profile 1 0 1 Rlt_0_1)))|].
  apply dSt_differs; cbn; lra.
Qed.
Print Assumptions C109_source_derivative_refuted.

(** what it leaves out are the terms with the third derivative of the phase and the second of the squared mass *)
Theorem C109_source_derivative_partial : forall k vw m2 m2' m2'' th' th'' th''' z,
  derivative_of m2 m2' -> derivative_of m2' m2'' -> derivative_of th' th'' -> derivative_of th'' th''' ->
  derivable_pt_lim (fun y => St_of k vw (m2 y) (m2' y) (th' y) (th'' y)) z
    (dSt_of k vw (m2 z) (m2' z) (th' z) (th'' z)
     - vw * v_K8t k * (m2 z * th''' z + m2'' z * th' z) + vw * v_K9t k * th' z * m2 z * m2'' z).
Proof. exact source_derivative. Qed.
Print Assumptions C109_source_derivative_partial.

(** [dmtsquared] is the derivative of the squared top mass along the wall *)
Theorem C109_mass_derivative : forall LW vc F grad, 0 < LW ->
  (forall v, length v = length vc -> length (grad v) = length vc) -> gradient_of (length vc) F grad ->
  derivative_of (fun z => F (calculate_vev LW vc z))
    (fun z => dmtsquared_of (calculate_vev_derivative LW vc z) (grad (calculate_vev LW vc z))).
Proof. exact mass_chain_rule. Qed.
Print Assumptions C109_mass_derivative.
Example C109_nonvacuous_mass : gradient_of 2 (fun v => nth 0 v 0 * nth 1 v 0) (fun v => [nth 1 v 0; nth 0 v 0]).
Proof.
  intros c v z _ H. cbn [seq map fold_right nth]. pose proof (H 0%nat ltac:(repeat constructor)) as A. pose proof (H 1%nat ltac:(repeat constructor)) as B.
  eapply DerivLib.dl_eq; [apply (DerivLib.dl_mult (component c 0) (component c 1) _ _ _ A B)|]. unfold component. ring.
Qed.

(** the W mass is the doubly occurring gauge boson mass *)
Theorem C109_W_mass : forall photon w z, / 100000 < Rabs (z - w) -> / 100000 < Rabs (z - photon) ->
  get_W_mass [photon; w; w; z] = w.
Proof. exact W_mass_pattern. Qed.
Print Assumptions C109_W_mass.
Example C109_nonvacuous_W : / 100000 < Rabs (91 ^ 2 - 80 ^ 2) /\ / 100000 < Rabs (91 ^ 2 - 0).
Proof. split; rewrite Rabs_pos_eq; lra. Qed.

(** the density of left-handed particles that sources the baryon asymmetry *)
Theorem C109_left_density : forall K1t K1b x, / 10 ^ 16 < Rabs (x0 x) -> / 10 ^ 16 < Rabs (x1 x) -> / 10 ^ 16 < Rabs (x2 x) ->
  2 * mubl_of K1t K1b x = (1 + 4 * K1t) * x0 x + (1 + 4 * K1b) * x1 x - 4 * K1t * x2 x.
Proof.
  intros K1t K1b x A B C. unfold mubl_of, small_to_zero.
  destruct (Rle_dec (Rabs (x0 x)) (/ 10 ^ 16)); [lra|]. destruct (Rle_dec (Rabs (x1 x)) (/ 10 ^ 16)); [lra|]. destruct (Rle_dec (Rabs (x2 x)) (/ 10 ^ 16)); [lra|]. field.
Qed.
Print Assumptions C109_left_density.
Example C109_nonvacuous_left : / 10 ^ 16 < Rabs 1.
Proof. rewrite Rabs_R1. apply Rmult_lt_reg_l with (10 ^ 16); [lra|]. rewrite Rinv_r by lra. lra. Qed.
