(** C114: the K functions of the Fromme-Huber transport equations. *)
From Coq Require Import Reals List ZArith Lra Lia.
From Verif Require Import Base Model.KFunctions Spec.KSpec Proofs.KProofs.
Import ListNotations.
Open Scope R_scope.

(** the distribution and its first two derivatives *)
Theorem C114_distribution : forall E s T, 0 < T -> 0 < E -> s = 1%Z \/ s = (-1)%Z ->
  distribution_f0 E s T 0 = thermal (IZR s) T E /\
  derivable_pt_lim (thermal (IZR s) T) E (distribution_f0 E s T 1) /\
  derivable_pt_lim (fun E => distribution_f0 E s T 1) E (distribution_f0 E s T 2) /\
  (forall d, d <> 0%Z -> d <> 1%Z -> d <> 2%Z -> distribution_f0 E s T d = 0).
Proof.
  intros E s T HT HE S. destruct (f0_derivatives E s T HT HE S) as [D0 D1]. repeat split.
  - apply f0_is_thermal. lra.
  - apply (DerivLib.dl_ext (fun E => distribution_f0 E s T 0)); [intro; apply f0_is_thermal; lra|exact D0].
  - exact D1.
  - intros. apply f0_other; assumption.
Qed.
Print Assumptions C114_distribution.

(** K1, K4, K5 and K6 are built from derivatives along the wall normal *)
Theorem C114_momentum : forall px py pz m2 T s, 0 < T -> 0 < px ^ 2 + py ^ 2 + pz ^ 2 + m2 -> s = 1%Z \/ s = (-1)%Z ->
  exists d0 d1 dv,
  derivable_pt_lim (fun p => distribution_f0 (energy px py p m2) s T 0) pz d0 /\
  derivable_pt_lim (fun p => distribution_f0 (energy px py p m2) s T 1) pz d1 /\
  derivable_pt_lim (fun p => p / energy px py p m2) pz dv /\
  K_integrand px py pz m2 1 s T = - pz * d1 /\
  K_integrand px py pz m2 4 s T = pz / energy px py pz m2 * d0 /\
  K_integrand px py pz m2 5 s T = pz * d0 /\
  K_integrand px py pz m2 6 s T = / 2 * distribution_f0 (energy px py pz m2) s T 1 * dv.
Proof. exact meaning_pz. Qed.
Print Assumptions C114_momentum.

(** K2 and K3 are derivatives by the squared mass *)
Theorem C114_mass : forall px py pz m2 T s, 0 < T -> 0 < px ^ 2 + py ^ 2 + pz ^ 2 + m2 -> s = 1%Z \/ s = (-1)%Z ->
  exists d0 d1,
  derivable_pt_lim (fun m => distribution_f0 (energy px py pz m) s T 0) m2 d0 /\
  derivable_pt_lim (fun m => distribution_f0 (energy px py pz m) s T 1) m2 d1 /\
  K_integrand px py pz m2 2 s T = d1 /\ K_integrand px py pz m2 3 s T = d0.
Proof. exact meaning_mass. Qed.
Print Assumptions C114_mass.

(** K7 to K10, which contain the speed along the normal *)
Theorem C114_speed : forall px py pz m2 T s, 0 < T -> 0 < px ^ 2 + py ^ 2 + pz ^ 2 + m2 -> s = 1%Z \/ s = (-1)%Z -> 0 < pz ^ 2 + m2 ->
  let E := energy px py pz m2 in
  exists d, derivable_pt_lim (fun E => distribution_f0 E s T 1 / E) E d /\
  K_integrand px py pz m2 7 s T = - speed pz m2 / (2 * E) * d /\
  K_integrand px py pz m2 9 s T = - speed pz m2 / (4 * E ^ 2) * d /\
  K_integrand px py pz m2 8 s T = speed pz m2 / (2 * E ^ 2) * distribution_f0 E s T 1 /\
  K_integrand px py pz m2 10 s T = speed pz m2 / (2 * E ^ 3) * distribution_f0 E s T 0.
Proof. exact meaning_speed. Qed.
Print Assumptions C114_speed.

(** the integrand is even in every component, as the factor 8 for one octant needs *)
Theorem C114_octant : forall px py pz m2 sw s T,
  K_integrand (- px) py pz m2 sw s T = K_integrand px py pz m2 sw s T /\
  K_integrand px (- py) pz m2 sw s T = K_integrand px py pz m2 sw s T /\
  K_integrand px py (- pz) m2 sw s T = K_integrand px py pz m2 sw s T.
Proof. exact even. Qed.
Print Assumptions C114_octant.

(** behaviour under a common rescaling of momenta, masses and temperature *)
Theorem C114_scaling : forall l px py pz m2 sw s T, 0 < l -> 0 < T -> s = 1%Z \/ s = (-1)%Z ->
  0 < px ^ 2 + py ^ 2 + pz ^ 2 + m2 -> 0 < pz ^ 2 + m2 ->
  K_integrand (l * px) (l * py) (l * pz) (l ^ 2 * m2) sw s (l * T) = powerRZ l (degree sw) * K_integrand px py pz m2 sw s T.
Proof. exact scaling. Qed.
Print Assumptions C114_scaling.
Theorem C114_scaling_averages : forall cube line l m2 T sw s r,
  (forall f g, (forall x y z, f x y z = g x y z) -> cube f = cube g) ->
  (forall a f, cube (fun x y z => a * f x y z) = a * cube f) ->
  (forall f, cube (fun x y z => f (x / l) (y / l) (z / l)) = l ^ 3 * cube f) ->
  (forall f g, (forall x, f x = g x) -> line f = line g) ->
  0 < l -> 0 < T -> 0 < m2 -> s = 1%Z \/ s = (-1)%Z -> Ktilde_normalization line T s m2 <> 0 ->
  K_functions cube line m2 T sw s = Value r ->
  K_functions cube line (l ^ 2 * m2) (l * T) sw s = Value (powerRZ l (normalised_degree sw) * r).
Proof. exact functions_scale. Qed.
Print Assumptions C114_scaling_averages.

(** the second normalisation depends on m^2/T^2 alone; the tabulated range covers the grid of masses and temperatures *)
Theorem C114_second_norm : forall line T s m2, (forall f g, (forall x, f x = g x) -> line f = line g) -> T <> 0 ->
  Ktilde_normalization line T s m2 = T ^ 3 * Ktilde_normalization line 1 s (m2 / T ^ 2).
Proof. intros. apply Ktilde_scale; assumption. Qed.
Print Assumptions C114_second_norm.
Theorem C114_second_norm_range : forall m2 T, 0 <= m2 <= 200 ^ 2 -> 10 <= T -> 0 <= m2 / T ^ 2 <= INR 400.
Proof. intros m2 T M H. replace (INR 400) with 400 by (rewrite INR_IZR_INZ; reflexivity). exact (Ktilde_range m2 T M H). Qed.
Print Assumptions C114_second_norm_range.

(** where the tables have nodes, interpolated and direct functions agree *)
Theorem C114_interpolated_partial : forall cube line fermion boson K sw s m2 T i,
  (forall f g, (forall x, f x = g x) -> line f = line g) ->
  s = 1%Z \/ s = (-1)%Z -> 0 < T -> m2 / T ^ 2 = INR i ->
  (forall i, fermion (INR i) = Ktilde_grid line 1 i) -> (forall i, boson (INR i) = Ktilde_grid line (-1) i) ->
  K sw s m2 T = table_entry cube sw s m2 T ->
  In sw [1; 2; 4; 5; 6]%Z \/ sw = 9%Z /\ / 10 ^ 15 <= m2 ->
  K_functions cube line m2 T sw s = Value (normalized fermion boson K sw s m2 T).
Proof. intros. eapply normalized_agrees; eassumption. Qed.
Print Assumptions C114_interpolated_partial.

(** K8 is divided by the wrong normalisation: the result always has the opposite sign *)
Theorem C114_K8_sign : forall cube line fermion boson K m2 T i r,
  (forall f g, (forall x, f x = g x) -> line f = line g) ->
  0 < T -> m2 / T ^ 2 = INR i -> (forall i, fermion (INR i) = Ktilde_grid line 1 i) ->
  K 8%Z 1%Z m2 T = table_entry cube 8 1 m2 T -> 0 < Ktilde_normalization line T 1 m2 ->
  K_functions cube line m2 T 8 1 = Value r -> r <> 0 -> r * normalized fermion boson K 8 1 m2 T < 0.
Proof. exact K8_sign. Qed.
Print Assumptions C114_K8_sign.

(** one-point rules as integrals, tables without interpolation error *)
Definition cube1 (f : R -> R -> R -> R) : R := f 1 1 1.
Definition line1 (f : R -> R) : R := f 1.
Definition exact_spline (s : Z) (x : R) : R := Ktilde_normalization line1 1 s x.
Definition exact_table (sw s : Z) (m2 T : R) : R := table_entry cube1 sw s m2 T.

Lemma line1_pos : forall T, 0 < T -> 0 < Ktilde_normalization line1 T 1 0.
Proof.
  intros T HT. unfold Ktilde_normalization, line1. pose proof PI_RGT_0. pose proof (exp_pos (sqrt (0 * (1 / T) ^ 2 + 1 ^ 2))). pose proof (pow_lt T 3 HT).
  apply Rmult_lt_0_compat; [apply Rdiv_lt_0_compat; lra|]. apply Rmult_lt_0_compat; lra.
Qed.
Lemma cube1_K8 : K_integration cube1 0 1 8 1 < 0.
Proof.
  unfold K_integration, cube1, K_integrand, distribution_f0. cbn [Z.eqb Pos.eqb].
  assert (A : 0 < sqrt (1 * 1 + 1 * 1 + 1 * 1 + 0)) by (apply sqrt_lt_R0; lra).
  assert (B : 0 < sqrt (1 * 1 + 0)) by (apply sqrt_lt_R0; lra). rewrite Rabs_R1.
  set (E := sqrt (1 * 1 + 1 * 1 + 1 * 1 + 0)) in *. set (z := sqrt (1 * 1 + 0)) in *. pose proof (exp_pos (1 / 1 * E)) as X.
  set (x := exp (1 / 1 * E)) in *. replace (1 * (- (1 / 1) * x / (x + 1) ^ 2) / (2 * E * E * z) * 8) with (- (x * 4 / ((x + 1) ^ 2 * (E * E * z)))) by (field; repeat split; lra).
  assert (P : 0 < x * 4 / ((x + 1) ^ 2 * (E * E * z))).
  { apply Rdiv_lt_0_compat; [lra|]. apply Rmult_lt_0_compat; [apply pow_lt; lra|]. apply Rmult_lt_0_compat; [apply Rmult_lt_0_compat; lra|lra]. }
  lra.
Qed.
Lemma K8_value : exists r, r <> 0 /\ K_functions cube1 line1 0 1 8 1 = Value r.
Proof.
  eexists. split; [|unfold K_functions; cbn [Z.ltb Z.compare Pos.compare Pos.compare_cont Z.eqb Pos.eqb orb]; reflexivity].
  pose proof cube1_K8 as K. pose proof PI_RGT_0 as P. pose proof (pow_lt PI 3 P). intro E.
  unfold Rdiv at 1 in E. apply Rmult_integral in E. destruct E as [E|E]; [lra|].
  revert E. apply Rinv_neq_0_compat. nra.
Qed.
Theorem C114_interpolated_refuted : ~ (forall cube line fermion boson K sw s m2 T i,
  (forall f g, (forall x, f x = g x) -> line f = line g) ->
  s = 1%Z \/ s = (-1)%Z -> 0 < T -> m2 / T ^ 2 = INR i ->
  (forall i, fermion (INR i) = Ktilde_grid line 1 i) -> (forall i, boson (INR i) = Ktilde_grid line (-1) i) ->
  K sw s m2 T = table_entry cube sw s m2 T ->
  In sw [1; 2; 4; 5; 6; 8]%Z ->
  K_functions cube line m2 T sw s = Value (normalized fermion boson K sw s m2 T)).
Proof.
  intro H. destruct K8_value as [r [NZ E]].
  assert (LE : forall f g, (forall x, f x = g x) -> line1 f = line1 g) by (intros f g X; apply X).
  assert (I : 0 / 1 ^ 2 = INR 0) by (cbn; lra).
  specialize (H cube1 line1 (exact_spline 1) (exact_spline (-1)) exact_table 8%Z 1%Z 0 1 0%nat LE (or_introl eq_refl) Rlt_0_1 I (fun _ => eq_refl) (fun _ => eq_refl) eq_refl ltac:(cbn; tauto)).
  rewrite E in H. apply (f_equal (fun v => match v with Value x => x | _ => r end)) in H.
  pose proof (C114_K8_sign cube1 line1 (exact_spline 1) (exact_spline (-1)) exact_table 0 1 0%nat r LE Rlt_0_1 I (fun _ => eq_refl) eq_refl (line1_pos 1 Rlt_0_1) E NZ) as X.
  rewrite <- H in X. nra.
Qed.
Print Assumptions C114_interpolated_refuted.

(** which numbers end the program *)
Theorem C114_exit : forall cube line m2 T sw s, K_functions cube line m2 T sw s = Exits <-> (10 < sw)%Z.
Proof. exact K_exits. Qed.
Print Assumptions C114_exit.

(** the array for GSL is filled within its bounds and completely, in GSL's order *)
Theorem C114_array : forall M N table, exists v, grid_array M N table = Ok v /\ length v = (M * N)%nat /\
  forall i j, (i < M)%nat -> (j < N)%nat -> nth (j * M + i) v 0 = table i j.
Proof. exact grid_ok. Qed.
Print Assumptions C114_array.

Example C114_nonvacuous : exists r, r <> 0 /\ K_functions cube1 line1 0 1 8 1 = Value r /\ r * normalized (exact_spline 1) (exact_spline (-1)) exact_table 8 1 0 1 < 0.
Proof.
  destruct K8_value as [r [NZ E]]. exists r. split; [exact NZ|]. split; [exact E|].
  apply (C114_K8_sign cube1 line1 _ _ _ 0 1 0%nat); try reflexivity; try assumption; try lra; [intros f g X; apply X|cbn; lra|apply line1_pos; lra].
Qed.
Example C114_nonvacuous_agree : K_functions cube1 line1 0 1 5 (-1) = Value (normalized (exact_spline 1) (exact_spline (-1)) exact_table 5 (-1) 0 1).
Proof.
  apply (C114_interpolated_partial cube1 line1 _ _ _ _ _ _ _ 0%nat); try reflexivity; try lra; [intros f g X; apply X|right; reflexivity|cbn; lra|left; cbn; tauto].
Qed.
Example C114_nonvacuous_array : grid_array 2 3 (fun i j => INR (10 * i + j)) = Ok [INR 0; INR 10; INR 1; INR 11; INR 2; INR 12].
Proof. reflexivity. Qed.
