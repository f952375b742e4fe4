(** C125: the start and the interval of the overshoot-undershoot search. *)
From Coq Require Import Reals List Lra Lia ZArith.
From Coquelicot Require Import Coquelicot.
From Verif Require Import Model.BounceInterval Spec.BounceIntervalSpec Proofs.BounceIntervalProofs.
Open Scope R_scope.

(** the accepted position comes from a step shorter than 1e-8 of the path, has positive curvature and lies before the
    first hundredth of the path; the threshold is the best of the distances tried - about the minimum that was known
    before the call; otherwise the search starts before the path and without a threshold *)
Theorem C125_start_partial : forall dV d2V L min_rho lin_rho m m', 0 < L -> m_fraction m <= / 10 ^ 4 ->
  (forall l0 l, 0 < lin_rho l0 l) -> (forall lmin d l, 0 < min_rho lmin d l) ->
  (forall old, m_lmin m = Some old -> old < L) ->
  BackwardsPropagation dV d2V L min_rho lin_rho m = Ready m' ->
  m_fraction m' = m_fraction m /\
  ((exists l a old b, m_lmin m' = Some l /\ (d2V a <> 0 /\ l = a - dV a / d2V a \/ l = a - dV a / 100) /\
     Rabs (l - a) < / 10 ^ 8 * L /\ 0 < d2V l /\ l <= L / 100 /\
     m_lmin m = Some old /\ m_threshold m' = Some b /\ tried L old b /\
     forall d, tried L old d -> disagreement min_rho lin_rho L (m_fraction m) old b <= disagreement min_rho lin_rho L (m_fraction m) old d) \/
   (m_lmin m' = Some (- L / 1000) /\ m_threshold m' = None)).
Proof. exact prepared_ok. Qed.
(** the recursion that makes the fraction smaller ends, keeps the minimum and divides the fraction by powers of ten *)
Theorem C125_fraction : forall L min_rho lin_rho fuel MinError m lmin, m_lmin m = Some lmin -> m_fraction m <= 10 ^ fuel / 10 ^ 4 ->
  exists m', CalculateExactSolutionThreshold L min_rho lin_rho (S fuel) MinError m = Ready m' /\ m_lmin m' = Some lmin /\
    exists k, (k <= fuel)%nat /\ m_fraction m' = m_fraction m / 10 ^ k.
Proof. exact threshold_ends. Qed.
(** such a Newton step ends where the gradient is of second order in its length *)
Theorem C125_stationary : forall dV d2V d3V M a l, d2V a <> 0 -> l = a - dV a / d2V a ->
  (forall x, Rmin a l <= x <= Rmax a l -> derivable_pt_lim dV x (d2V x) /\ derivable_pt_lim d2V x (d3V x) /\ Rabs (d3V x) <= M) ->
  Rabs (dV l) <= M * (l - a) ^ 2.
Proof. exact newton_stationary. Qed.

(** a new object: when the Newton steps converge, Initial_lmin is read before it has a value *)
Theorem C125_new_refuted : forall L c k min_rho lin_rho, 0 < L -> 0 < k -> c <= L / 100 ->
  BackwardsPropagation (fun l => k * (l - c)) (fun _ => k) L min_rho lin_rho new_members = Undefined.
Proof. intros; eapply new_undefined, newton_parabola; assumption. Qed.
(** an old object: the threshold is the one of the minimum of an earlier path, and can be larger than all distances
    that should be tried *)
Theorem C125_threshold_refuted : exists dV d2V L min_rho lin_rho m m' l b, 0 < L /\ (forall l0 l, 0 < lin_rho l0 l) /\ (forall lmin d l, 0 < min_rho lmin d l) /\
  m_fraction m = / 10 ^ 4 /\ BackwardsPropagation dV d2V L min_rho lin_rho m = Ready m' /\
  m_lmin m' = Some l /\ l < L /\ m_threshold m' = Some b /\ forall d, tried L l d -> d < b.
Proof. exact stale_ok. Qed.
(** a disagreement of more than one per cent never reduces the fraction of the path *)
Theorem C125_fraction_refuted : exists dV d2V L min_rho lin_rho m m' l, l < L /\ (forall l0 l, 0 < lin_rho l0 l) /\ (forall lmin d l, 0 < min_rho lmin d l) /\
  m_fraction m = m_fraction new_members /\ BackwardsPropagation dV d2V L min_rho lin_rho m = Ready m' /\
  m_lmin m = Some l /\ m_lmin m' = Some l /\ m_threshold m' <> None /\
  (forall d, tried L l d -> / 10 ^ 2 < disagreement min_rho lin_rho L (m_fraction m') l d) /\ m_fraction m' = m_fraction m.
Proof. exact coarse_ok. Qed.

(** the end of the search interval is the first of 1000 points where the potential is above the false vacuum or falls -
    if the minimum is at 0 *)
Theorem C125_interval_partial : forall dV V L,
  (search_end dV V L 0 = L /\ forall j, (0 < j <= Pos.to_nat 1000)%nat -> V (L * INR j / 1000) <= 0 /\ 0 <= dV (L * INR j / 1000)) \/
  exists j, (0 < j <= Pos.to_nat 1000)%nat /\ search_end dV V L 0 = L * INR j / 1000 /\
    (0 < V (search_end dV V L 0) \/ dV (search_end dV V L 0) < 0) /\
    forall k, (0 < k < j)%nat -> V (L * INR k / 1000) <= 0 /\ 0 <= dV (L * INR k / 1000).
Proof. exact interval_zero. Qed.
(** for another minimum the gradient is taken at a shifted position: here the interval ends below 0 though potential and
    gradient are as required up to 1/4 *)
Theorem C125_interval_refuted : exists V dV L lmin j, 0 < L /\ lmin <= L / 100 /\ (forall l, derivable_pt_lim V l (dV l)) /\
  search_end dV V L lmin = lmin + (L - lmin) * INR j / 1000 /\ search_end dV V L lmin < 0 /\
  forall l, lmin <= l < / 4 -> V l < 0 /\ 0 < dV l.
Proof. exact cut. Qed.

Example C125_nonvacuous : exists m', BackwardsPropagation (fun l => 2 * (l - / 200)) (fun _ => 2) 1 (fun _ _ _ => 1) (fun _ _ => 2)
    (mkMembers (Some (- / 2)) None (/ 10 ^ 4)) = Ready m' /\ m_lmin m' = Some (/ 200).
Proof. apply (parabola_ready _ _ _ _ _ _ (- / 2)); try lra; [cbn [m_fraction]; lra|reflexivity]. Qed.
Example C125_nonvacuous_step : let dV := fun l => (l - 1) * (l + 3) in let d2V := fun l => 2 * l + 2 in
  forall x, derivable_pt_lim dV x (d2V x) /\ derivable_pt_lim d2V x 2 /\ Rabs 2 <= 2.
Proof.
  intros dV d2V x; unfold dV, d2V. split; [|split; [|rewrite Rabs_pos_eq; lra]];
    apply is_derive_Reals; auto_derive; try exact I; ring.
Qed.

Print Assumptions C125_start_partial.
Print Assumptions C125_fraction.
Print Assumptions C125_stationary.
Print Assumptions C125_new_refuted.
Print Assumptions C125_threshold_refuted.
Print Assumptions C125_fraction_refuted.
Print Assumptions C125_interval_partial.
Print Assumptions C125_interval_refuted.
