(** C111: relaxation rates, CP-violating sources and thermal masses of the
    vev-insertion approach. *)
From Coq Require Import Reals List ZArith Lra Lia.
From Coquelicot Require Import Complex.
From Verif Require Import Base Model.Rates Spec.RatesSpec Proofs.DerivLib Proofs.RatesProofs.
Import ListNotations.
Open Scope R_scope.

(** the integrand of the relaxation rate is the imaginary part of the propagator expression to first order in the width *)
Theorem C111_relaxation_first_order : forall m2 k h, 0 < m2 ->
  agree_to_first_order (sqrt (k ^ 2 + m2)) (fun G => gam_poly G m2 0 k * h) (fun G => relaxation k (sqrt (k ^ 2 + m2)) G h).
Proof. exact gam_first_order. Qed.
Print Assumptions C111_relaxation_first_order.
Example C111_nonvacuous : relaxation 1 (sqrt (1 ^ 2 + 3)) 1 1 = 4 / 5 /\ gam_poly 1 3 0 1 * 1 = 13 / 16.
Proof.
  assert (W : sqrt (1 ^ 2 + 3) = 2) by (replace (1 ^ 2 + 3) with (2 ^ 2) by ring; apply sqrt_pow2; lra).
  split; [rewrite relaxation_value by (rewrite ?W; lra)|rewrite gam_poly_zero; unfold gam_lead]; rewrite W; field.
Qed.

(** the terms with the difference of the thermal masses are the derivative with respect to that difference, the mean of both masses being shifted by half of it *)
Theorem C111_relaxation_mass_difference : forall G m2 dm2 k, 0 < m2 -> G <> 0 ->
  exists c, derivable_pt_lim (fun x => gam_poly G (m2 + x / 2) 0 k) 0 c /\ gam_poly G m2 dm2 k = gam_poly G m2 0 k + c * dm2.
Proof. exact gam_mass_difference. Qed.
Print Assumptions C111_relaxation_mass_difference.

(** what operator() returns for a quark *)
Theorem C111_rate_partial : forall T m m2 dm2 k r, gam_integrand false T m m2 dm2 k = Ok r -> / 10 ^ 4 < Rabs m2 ->
  exists I, r = rate_density 3 T m I /\
    let p := gam_poly (16 / 100 * T) m2 dm2 k in
    Rabs (I - p * hf_value T (sqrt (k ^ 2 + m2))) <= (1 + Rabs p) * / 10 ^ 20.
Proof. exact (gam_value false). Qed.
Print Assumptions C111_rate_partial.
(** the number of colours of a quark is also used for the tau *)
Theorem C111_rate_refuted : exists T m m2 dm2 k r I,
  gam_integrand true T m m2 dm2 k = Ok r /\ r = rate_density 3 T m I /\ r <> rate_density 1 T m I.
Proof. exists 1, 1, 1, 0, 1. exact colour_lepton. Qed.
Print Assumptions C111_rate_refuted.

(** the distribution functions: nf_prime is the derivative of the Fermi distribution, hf is -T times it and hf_prime the derivative of hf *)
Theorem C111_distributions : forall T w, T <> 0 ->
  derivable_pt_lim (fun w => / (exp (w / T) + 1)) w (nf_prime_value T w) /\
  hf_value T w = - T * nf_prime_value T w /\ derivable_pt_lim (hf_value T) w (hf_prime_value T w).
Proof.
  intros T w H. split; [|split; [exact (hf_is_derivative T w H)|exact (hf_derivative T w H)]].
  apply (dl_ext (nf_value T)); [intro y; unfold nf_value; field; pose proof (exp_pos (y / T)); lra|exact (nf_derivative T w H)].
Qed.
Print Assumptions C111_distributions.

(** over the whole range of integration up to 10^4 the rate can be computed for temperatures of at least 15 *)
Theorem C111_no_overflow_partial : forall T k m2, 15 <= T -> 0 < m2 <= T ^ 2 -> 0 <= k <= 10 ^ 4 ->
  exists h, hf T (sqrt (k ^ 2 + m2)) = Ok h.
Proof. exact hf_defined. Qed.
Print Assumptions C111_no_overflow_partial.
(** for lower temperatures it throws *)
Theorem C111_no_overflow_refuted : exists T k m2, 0 < T /\ 0 < m2 <= T ^ 2 /\ 0 <= k <= 10 ^ 4 /\
  forall lepton m dm2, gam_integrand lepton T m m2 dm2 k = Throw RuntimeError.
Proof.
  exists 10, (10 ^ 4), 1. repeat split; try lra. intros lepton m dm2. unfold gam_integrand.
  destruct (Rlt_dec mass_threshold (Rabs 1)) as [A|A]; [rewrite hf_overflow; reflexivity|].
  exfalso. apply A. rewrite Rabs_R1. unfold mass_threshold. replace (10 ^ 4) with 10000 by ring. lra.
Qed.
Print Assumptions C111_no_overflow_refuted.

(** the sum of the six terms of the source does not agree with the formula to first order in the width … *)
Theorem C111_source_refuted : exists m2 k n n', 0 < m2 /\ 0 < k /\ n' < 0 < n /\
  ~ agree_to_first_order (sqrt (k ^ 2 + m2)) (fun G => fold_right Rplus 0 (scp_terms G (sqrt (k ^ 2 + m2)) 0 n n' k))
      (fun G => source k (sqrt (k ^ 2 + m2)) G n n').
Proof.
  exists 1, 1, (1 / 4), (- 1). repeat split; try lra. exact (scp_not_first_order 1 1 (1 / 4) (- 1) ltac:(lra) ltac:(lra) ltac:(lra)).
Qed.
Print Assumptions C111_source_refuted.
(** … but does so when the fourth power of the energy, not of the momentum, is in the denominator of the fifth *)
Theorem C111_source_partial : forall m2 k n n', 0 < m2 -> k <> 0 ->
  agree_to_first_order (sqrt (k ^ 2 + m2))
    (fun G => fold_right Rplus 0 (scp_terms G (sqrt (k ^ 2 + m2)) 0 n n' k) + G / 2 * (1 - k ^ 4 / sqrt (k ^ 2 + m2) ^ 4) * n')
    (fun G => source k (sqrt (k ^ 2 + m2)) G n n').
Proof. exact scp_first_order. Qed.
Print Assumptions C111_source_partial.

(** the terms with the difference of the masses are the derivative of that repaired sum *)
Theorem C111_source_mass_difference : forall G m2 dm2 k (n : R -> R) n', 0 < m2 -> G <> 0 -> k <> 0 ->
  let repaired := fun w dw n => fold_right Rplus 0 (scp_terms G w dw n n' k) + G / 2 * (1 - k ^ 4 / w ^ 4) * n' in
  let w := sqrt (k ^ 2 + m2) in
  derivable_pt_lim n w n' ->
  exists c, derivable_pt_lim (fun x => let v := sqrt (k ^ 2 + (m2 + x / 2)) in repaired v 0 (n v)) 0 c /\
    repaired w (dm2 / (2 * w)) (n w) = repaired w 0 (n w) + c * dm2.
Proof. exact scp_mass_difference. Qed.
Print Assumptions C111_source_mass_difference.

(** what operator() returns *)
Theorem C111_source_value : forall lepton T vw m thp m2 dm2 k r,
  scp_integrand lepton T vw m thp m2 dm2 k = Ok r -> 1 / 1000 < Rabs m2 -> k <> 0 ->
  exists I n n', r = source_density 3 vw m thp I /\
    let w := sqrt (k ^ 2 + m2) in
    Rabs (n - nf_value T w) <= / 10 ^ 20 /\ Rabs (n' - nf_prime_value T w) <= / 10 ^ 20 /\
    Rabs (I - fold_right Rplus 0 (scp_terms (if lepton then 2 / 1000 * T else 16 / 100 * T) w (dm2 / (2 * w)) n n' k)) <= 6 * / 10 ^ 20.
Proof. exact scp_value. Qed.
Print Assumptions C111_source_value.
Example C111_nonvacuous_source : exists r, scp_integrand false 100 (1 / 10) 10 1 1 0 1 = Ok r.
Proof.
  unfold scp_integrand. destruct (Rlt_dec (1 / 1000) (Rabs 1)) as [A|A]; [|exfalso; apply A; rewrite Rabs_R1; lra].
  destruct (Req_EM_T 1 0); eexists; reflexivity.
Qed.

(** squared masses below the thresholds throw *)
Theorem C111_thresholds : forall lepton T vw m thp m2 dm2 k,
  (Rabs m2 < / 10 ^ 4 -> gam_integrand lepton T m m2 dm2 k = Throw RuntimeError) /\
  (Rabs m2 < 1 / 1000 -> scp_integrand lepton T vw m thp m2 dm2 k = Throw RuntimeError).
Proof. exact thresholds. Qed.
Print Assumptions C111_thresholds.

(** thermal masses: those of the top follow from the charges of the top *)
Theorem C111_thermal_partial : forall gp g gs y T, thermal_q gp g gs y T =
  (singlet_mass gp g gs (2 / 3) casimir_colour y T,
   singlet_mass gp g gs (2 / 3) casimir_colour y T - doublet_mass gp g gs (1 / 6) casimir_colour y T) /\
  fst (thermal_l gp g y T) = singlet_mass gp g gs (- 1) 0 y T.
Proof. intros. split; [apply top_thermal|rewrite (tau_thermal gp g gs); reflexivity]. Qed.
Print Assumptions C111_thermal_partial.
(** those of bottom and tau do not; the deviations are *)
Theorem C111_thermal_deviation : forall gp g gs y T,
  thermal_q gp g gs y T =
  (singlet_mass gp g gs (- (1 / 3)) casimir_colour y T + gp ^ 2 * T ^ 2 / 24,
   singlet_mass gp g gs (- (1 / 3)) casimir_colour y T - doublet_mass gp g gs (1 / 6) casimir_colour y T + gp ^ 2 * T ^ 2 / 24) /\
  snd (thermal_l gp g y T) =
  singlet_mass gp g gs (- 1) 0 y T - doublet_mass gp g gs (- (1 / 2)) 0 y T + 21 / 32 * gp ^ 2 * T ^ 2.
Proof. intros. split; [apply bottom_thermal|rewrite (tau_thermal gp g gs); reflexivity]. Qed.
Print Assumptions C111_thermal_deviation.
Theorem C111_thermal_refuted : exists gp g gs y T, 0 < gp /\ 0 < T /\
  fst (thermal_q gp g gs y T) <> singlet_mass gp g gs (- (1 / 3)) casimir_colour y T /\
  snd (thermal_l gp g y T) <> singlet_mass gp g gs (- 1) 0 y T - doublet_mass gp g gs (- (1 / 2)) 0 y T.
Proof.
  exists 1, 1, 1, 1, 1. split; [lra|]. split; [lra|]. split.
  - rewrite bottom_thermal. cbn [fst]. lra.
  - rewrite (tau_thermal 1 1 1). cbn [snd]. lra.
Qed.
Print Assumptions C111_thermal_refuted.

(** set_class: the Yukawa couplings give the masses back; only the types 1 and 2 are accepted *)
Theorem C111_yukawas : forall gp g gs v tanb type mt mb mtau T t, 0 < v -> 0 < tanb ->
  set_thermal gp g gs v tanb type mt mb mtau T = Ok t ->
  (type = 1%Z \/ type = 2%Z) /\
  let v2 := v * sin (atan tanb) in
  let vd := if Z.eqb type 1 then v2 else v * cos (atan tanb) in
  t_yt t * v2 / sqrt 2 = mt /\ t_yb t * vd / sqrt 2 = mb /\ t_ytau t * vd / sqrt 2 = mtau /\
  t_top t = thermal_q gp g gs (t_yt t) T /\ t_bot t = thermal_q gp g gs (t_yb t) T /\ t_tau t = thermal_l gp g (t_ytau t) T.
Proof. exact yukawa_masses. Qed.
Print Assumptions C111_yukawas.
Example C111_nonvacuous_types : (forall gp g gs v tanb mt mb mtau T, exists t, set_thermal gp g gs v tanb 2 mt mb mtau T = Ok t) /\
  (forall gp g gs v tanb mt mb mtau T, set_thermal gp g gs v tanb 3 mt mb mtau T = Throw RuntimeError).
Proof. split; [eexists; reflexivity|reflexivity]. Qed.
