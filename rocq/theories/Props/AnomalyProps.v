(** C133: the strength of the transition. *)
From Coq Require Import Reals Lra Lia.
From Coquelicot Require Import Coquelicot.
From Verif Require Import Model.GW Model.DecayRate Model.Anomaly Spec.AnomalySpec Spec.DecayRateSpec Proofs.AnomalyProofs.
Open Scope R_scope.

(** the derivative with respect to the temperature at fixed fields is the derivative along a phase, whatever the number of fields *)
Theorem C133_envelope : forall n V x T h, phase_at n V x T h -> is_derive (fun S => V (x S) S) T h /\ entropy (pressure V x) T = - h.
Proof. intros n V x T h P. split; [apply (envelope n), P|apply (entropy_phase n), P]. Qed.
(** the strength is the difference of the trace anomalies over the energy density of the radiation, which enters the expansion rate *)
Theorem C133_anomaly_partial : forall n V xf xt T hf ht g, 0 < g -> 0 < T -> phase_at n V xf T hf -> phase_at n V xt T ht ->
  PTStrength g T (V (xf T) T) (V (xt T) T) hf ht = (anomaly (pressure V xf) T - anomaly (pressure V xt) T) / radiation g T.
Proof. exact strength_anomaly. Qed.
(** ... with the number of degrees of freedom of the program the strength in the standard model is smaller by 427 / 439 *)
Theorem C133_degrees_refuted : forall T Vi Vf a b, 0 < T ->
  PTStrength (GstarPureRad 4) T Vi Vf a b = 427 / 439 * PTStrength (effective (bosons_symmetric 4) fermions) T Vi Vf a b.
Proof.
  intros T Vi Vf a b H. assert (A : GstarPureRad 4 = 10975 / 100) by (unfold GstarPureRad; cbn [INR]; lra).
  assert (B : effective (bosons_symmetric 4) fermions = 10675 / 100) by (unfold effective, bosons_symmetric, fermions; lra).
  rewrite A, B. unfold PTStrength, rho_gam. assert (P := PI_RGT_0). field. split; lra.
Qed.
(** at the critical temperature it is the latent heat over four times that density *)
Theorem C133_latent : forall n V xf xt T hf ht g, 0 < g -> 0 < T -> phase_at n V xf T hf -> phase_at n V xt T ht -> V (xf T) T = V (xt T) T ->
  PTStrength g T (V (xf T) T) (V (xt T) T) hf ht = (energy (pressure V xf) T - energy (pressure V xt) T) / (4 * radiation g T).
Proof. exact strength_critical. Qed.
(** with the equation of state of the bag model it is the difference of the vacuum energies *)
Theorem C133_bag : forall g T af at' ef et, 0 < g -> 0 < T -> let V a e S := e - a / 3 * S ^ 4 in
  PTStrength g T (V af ef T) (V at' et T) (Derive (V af ef) T) (Derive (V at' et) T) = (ef - et) / radiation g T.
Proof. exact strength_bag. Qed.
(** below the critical temperature, for a false vacuum with at least the entropy of the true one, the strength is positive and the
    velocity of mode -1 lies between 0 and 1; below 1 its square is the ratio of the pressure difference to that of the anomalies *)
Theorem C133_velocity : forall n V xf xt T hf ht g, 0 < g -> 0 < T -> phase_at n V xf T hf -> phase_at n V xt T ht ->
  V (xt T) T < V (xf T) T -> entropy (pressure V xt) T <= entropy (pressure V xf) T ->
  0 < PTStrength g T (V (xf T) T) (V (xt T) T) hf ht /\
  exists v, WallVelocity1 g T (V (xf T) T) (V (xt T) T) hf ht = Some v /\ 0 < v <= 1 /\
    (v < 1 -> v ^ 2 * (anomaly (pressure V xf) T - anomaly (pressure V xt) T) = pressure V xt T - pressure V xf T).
Proof.
  intros n V xf xt T hf ht g G H Pf Pt L E. rewrite (entropy_phase n V xf T hf Pf), (entropy_phase n V xt T ht Pt) in E.
  assert (E' : hf <= ht) by lra. split; [apply strength_positive; assumption|].
  destruct (velocity_bounds g T _ _ hf ht G H L E') as (v & A & B & C). exists v. split; [exact A|]. split; [exact B|]. intros N. assert (Q := C N).
  unfold anomaly, energy, enthalpy. rewrite (entropy_phase n V xf T hf Pf), (entropy_phase n V xt T ht Pt). unfold pressure.
  replace (- V (xt T) T - - V (xf T) T) with (V (xf T) T - V (xt T) T) by ring. rewrite <- Q. field.
Qed.
(** the wall runs away to 1 exactly if the root of the ratio is above the Chapman-Jouguet velocity *)
Theorem C133_jouguet : forall n V xf xt T hf ht g, 0 < g -> 0 < T -> phase_at n V xf T hf -> phase_at n V xt T ht ->
  V (xt T) T < V (xf T) T -> entropy (pressure V xt) T <= entropy (pressure V xf) T ->
  let al := PTStrength g T (V (xf T) T) (V (xt T) T) hf ht in
  let r := sqrt ((pressure V xt T - pressure V xf T) / (anomaly (pressure V xf) T - anomaly (pressure V xt) T)) in
  (jouguet al < r -> WallVelocity1 g T (V (xf T) T) (V (xt T) T) hf ht = Some 1) /\
  (r <= jouguet al -> WallVelocity1 g T (V (xf T) T) (V (xt T) T) hf ht = Some r).
Proof.
  intros n V xf xt T hf ht g G H Pf Pt L E. rewrite (entropy_phase n V xf T hf Pf), (entropy_phase n V xt T ht Pt) in E.
  assert (J := velocity_jouguet g T _ _ hf ht G H L ltac:(lra)). cbv zeta in J |- *.
  replace ((pressure V xt T - pressure V xf T) / (anomaly (pressure V xf) T - anomaly (pressure V xt) T))
    with ((V (xf T) T - V (xt T) T) / (V (xf T) T - V (xt T) T - T / 4 * (hf - ht))); [exact J|].
  unfold anomaly, energy, enthalpy. rewrite (entropy_phase n V xf T hf Pf), (entropy_phase n V xt T ht Pt). unfold pressure. f_equal; field.
Qed.
(** psi of mode -2 is the ratio of the enthalpies *)
Theorem C133_enthalpy : forall n V xf xt T hf ht, 0 < T -> hf <> 0 -> phase_at n V xf T hf -> phase_at n V xt T ht ->
  psi hf ht = enthalpy (pressure V xt) T / enthalpy (pressure V xf) T.
Proof. exact psi_enthalpy. Qed.

Print Assumptions C133_envelope.
Print Assumptions C133_anomaly_partial.
Print Assumptions C133_degrees_refuted.
Print Assumptions C133_latent.
Print Assumptions C133_bag.
Print Assumptions C133_velocity.
Print Assumptions C133_jouguet.
Print Assumptions C133_enthalpy.

(** two wells at 0 and 1 with the critical temperature 2 *)
Example C133_nonvacuous : phase_at 1 wells (fun _ _ => 0) (9 / 5) 0 /\ phase_at 1 wells (fun _ _ => 1) (9 / 5) 1 /\
  wells (fun _ => 1) (9 / 5) < wells (fun _ => 0) (9 / 5) /\
  entropy (pressure wells (fun _ _ => 1)) (9 / 5) <= entropy (pressure wells (fun _ _ => 0)) (9 / 5) /\
  PTStrength (120 / PI ^ 2) (9 / 5) (wells (fun _ => 0) (9 / 5)) (wells (fun _ => 1) (9 / 5)) 0 1 * (9 / 5) ^ 4 = 13 / 80.
Proof.
  assert (A := wells_phase 0 (9 / 5) (or_introl eq_refl)). assert (B := wells_phase 1 (9 / 5) (or_intror eq_refl)).
  split; [exact A|]. split; [exact B|]. rewrite (entropy_phase 1 _ _ _ _ A), (entropy_phase 1 _ _ _ _ B). unfold wells. split; [lra|]. split; [lra|].
  unfold PTStrength, rho_gam. assert (P := PI_RGT_0). field. lra.
Qed.
Example C133_nonvacuous_critical : phase_at 1 wells (fun _ _ => 0) 2 0 /\ phase_at 1 wells (fun _ _ => 1) 2 1 /\ wells (fun _ => 0) 2 = wells (fun _ => 1) 2.
Proof. split; [apply wells_phase; left; reflexivity|]. split; [apply wells_phase; right; reflexivity|]. unfold wells. ring. Qed.
Example C133_nonvacuous_enthalpy : phase_at 1 wells (fun _ _ => 1) 3 1 /\ (1 : R) <> 0.
Proof. split; [apply wells_phase; right; reflexivity|lra]. Qed.
