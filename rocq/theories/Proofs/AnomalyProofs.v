(** Strength of a phase transition. *)
From Coq Require Import Reals Lra Lia.
From Coquelicot Require Import Coquelicot.
From Verif Require Import Model.GW Model.Anomaly Spec.AnomalySpec Spec.DecayRateSpec.
Open Scope R_scope.

Lemma summed_bound : forall n f c, (forall i, (i < n)%nat -> f i <= c) -> summed n f <= INR n * c.
Proof.
  induction n as [|n IH]; intros f c H; [cbn; lra|]. rewrite S_INR. cbn [summed].
  assert (A := IH f c (fun i I => H i (Nat.lt_lt_succ_r _ _ I))). assert (B := H n (Nat.lt_succ_diag_r n)). lra.
Qed.
Lemma summed_zero : forall n f, summed n (fun i => 0 * f i) = 0.
Proof. induction n as [|n IH]; intros f; cbn [summed]; [reflexivity|]. rewrite IH. ring. Qed.

(** near T every component moves by at most K |S - T| *)
Lemma component_lipschitz : forall (f : R -> R) T, ex_derive f T -> exists K delta, 0 < K /\ 0 < delta /\
  forall S, Rabs (S - T) < delta -> Rabs (f S - f T) <= K * Rabs (S - T).
Proof.
  intros f T [d D]. apply is_derive_Reals in D. destruct (D 1 Rlt_0_1) as [delta H]. exists (Rabs d + 1), delta.
  assert (P := Rabs_pos d). split; [lra|]. split; [apply cond_pos|]. intros S B. destruct (Req_dec S T) as [->|N].
  - replace (f T - f T) with 0 by ring. rewrite Rabs_R0. apply Rmult_le_pos; [lra|apply Rabs_pos].
  - assert (N' : S - T <> 0) by lra. assert (Q := H (S - T) N' B). replace (T + (S - T)) with S in Q by ring.
    replace (f S - f T) with ((f S - f T) / (S - T) * (S - T)) by (field; lra). rewrite Rabs_mult. apply Rmult_le_compat_r; [apply Rabs_pos|].
    replace ((f S - f T) / (S - T)) with (d + ((f S - f T) / (S - T) - d)) by ring. eapply Rle_trans; [apply Rabs_triang|]. lra.
Qed.
Lemma components_lipschitz : forall n (x : R -> nat -> R) T, (forall i, (i < n)%nat -> ex_derive (fun S => x S i) T) ->
  exists K delta, 0 < K /\ 0 < delta /\ forall S, Rabs (S - T) < delta -> forall i, (i < n)%nat -> Rabs (x S i - x T i) <= K * Rabs (S - T).
Proof.
  induction n as [|n IH]; intros x T H; [exists 1, 1; split; [lra|]; split; [lra|]; intros; lia|].
  destruct (IH x T (fun i I => H i (Nat.lt_lt_succ_r _ _ I))) as (K & d & K0 & d0 & A).
  destruct (component_lipschitz _ T (H n (Nat.lt_succ_diag_r n))) as (K' & d' & K0' & d0' & A').
  exists (K + K'), (Rmin d d'). split; [lra|]. split; [apply Rmin_glb_lt; assumption|]. intros S B i I.
  assert (B1 : Rabs (S - T) < d) by (eapply Rlt_le_trans; [exact B|apply Rmin_l]).
  assert (B2 : Rabs (S - T) < d') by (eapply Rlt_le_trans; [exact B|apply Rmin_r]). assert (P := Rabs_pos (S - T)).
  destruct (Nat.eq_dec i n) as [->|N].
  - eapply Rle_trans; [apply A', B2|]. apply Rmult_le_compat_r; lra.
  - eapply Rle_trans; [apply A; [exact B1|lia]|]. apply Rmult_le_compat_r; lra.
Qed.

(** the temperature derivative at fixed fields is the derivative along the phase *)
Lemma envelope : forall n V x T h, phase_at n V x T h -> is_derive (fun S => V (x S) S) T h.
Proof.
  intros n V x T h [X D]. destruct (components_lipschitz n x T X) as (K & d & K0 & d0 & L). apply is_derive_Reals. intros eps E.
  assert (N0 : 0 <= INR n) by apply pos_INR. assert (W : 0 < INR n * K + 1) by (assert (0 <= INR n * K) by (apply Rmult_le_pos; lra); lra).
  assert (E' : 0 < eps / 2 / (INR n * K + 1)) by (apply Rdiv_lt_0_compat; lra). destruct (D _ E') as (d' & d0' & Q).
  assert (M : 0 < Rmin d (Rmin d' (d' / K))) by (repeat apply Rmin_glb_lt; try assumption; apply Rdiv_lt_0_compat; assumption).
  exists (mkposreal _ M). intros s S0 B. cbn [pos] in B.
  assert (B1 : Rabs s < d) by (eapply Rlt_le_trans; [exact B|apply Rmin_l]).
  assert (B2 : Rabs s < d') by (eapply Rlt_le_trans; [exact B|]; eapply Rle_trans; [apply Rmin_r|apply Rmin_l]).
  assert (B3 : Rabs s < d' / K) by (eapply Rlt_le_trans; [exact B|]; eapply Rle_trans; [apply Rmin_r|apply Rmin_r]).
  assert (F : T + s - T = s) by ring. assert (C := L (T + s)). rewrite F in C. assert (C' := C B1). clear C.
  assert (Z : K * Rabs s < d') by (apply (Rmult_lt_compat_l K) in B3; [|exact K0]; replace (K * (d' / K)) with d' in B3 by (field; lra); exact B3).
  assert (I1 : forall i, (i < n)%nat -> Rabs (x (T + s) i - x T i) < d') by (intros i I; eapply Rle_lt_trans; [apply C', I|exact Z]).
  assert (I2 : Rabs (T + s - T) < d') by (rewrite F; exact B2). assert (G := Q (x (T + s)) (T + s) I1 I2). rewrite F in G.
  rewrite summed_zero in G. assert (U := summed_bound n (fun i => Rabs (x (T + s) i - x T i)) (K * Rabs s) C').
  assert (P : 0 < Rabs s) by (apply Rabs_pos_lt, S0).
  assert (H : Rabs (V (x (T + s)) (T + s) - V (x T) T - h * s) <= eps / 2 * Rabs s).
  { replace (V (x (T + s)) (T + s) - V (x T) T - h * s) with (V (x (T + s)) (T + s) - V (x T) T - 0 - h * s) by ring.
    eapply Rle_trans; [exact G|]. apply (Rle_trans _ (eps / 2 / (INR n * K + 1) * (INR n * (K * Rabs s) + Rabs s))).
    - apply Rmult_le_compat_l; [lra|]. lra.
    - apply Req_le. field. lra. }
  replace ((V (x (T + s)) (T + s) - V (x T) T) / s - h) with ((V (x (T + s)) (T + s) - V (x T) T - h * s) / s) by (field; exact S0).
  unfold Rdiv at 1. rewrite Rabs_mult, Rabs_inv. apply (Rle_lt_trans _ (eps / 2 * Rabs s * / Rabs s)).
  - apply Rmult_le_compat_r; [left; apply Rinv_0_lt_compat, P|exact H].
  - rewrite Rmult_assoc, Rinv_r by lra. lra.
Qed.
Lemma entropy_phase : forall n V x T h, phase_at n V x T h -> entropy (pressure V x) T = - h.
Proof.
  intros n V x T h P. unfold entropy, pressure. replace (Derive (fun S : R => - V (x S) S) T) with (- h); [reflexivity|].
  symmetry. apply is_derive_unique. apply (is_derive_opp (fun S : R => V (x S) S)). apply (envelope n), P.
Qed.

Lemma rho_pos : forall g T, 0 < g -> 0 < T -> 0 < rho_gam g T.
Proof.
  intros g T G H. unfold rho_gam. assert (P := PI_RGT_0). assert (0 < PI ^ 2) by (apply pow_lt, P). assert (0 < T ^ 4) by (apply pow_lt, H).
  apply Rmult_lt_0_compat; [|assumption]. unfold Rdiv. apply Rmult_lt_0_compat; [|lra]. apply Rmult_lt_0_compat; assumption.
Qed.
Lemma rho_radiation : forall g T, rho_gam g T = radiation g T.
Proof. intros. unfold rho_gam, radiation. field. Qed.
Lemma strength_rho : forall g T Vi Vf a b, 0 < g -> 0 < T -> PTStrength g T Vi Vf a b * rho_gam g T = Vi - Vf - T / 4 * (a - b).
Proof. intros g T Vi Vf a b G H. assert (P := rho_pos g T G H). unfold PTStrength. field. lra. Qed.

Lemma strength_anomaly : forall n V xf xt T hf ht g, 0 < g -> 0 < T -> phase_at n V xf T hf -> phase_at n V xt T ht ->
  PTStrength g T (V (xf T) T) (V (xt T) T) hf ht = (anomaly (pressure V xf) T - anomaly (pressure V xt) T) / radiation g T.
Proof.
  intros n V xf xt T hf ht g G H Pf Pt. rewrite <- rho_radiation. assert (P := rho_pos g T G H).
  unfold anomaly, energy, enthalpy. rewrite (entropy_phase n V xf T hf Pf), (entropy_phase n V xt T ht Pt). unfold pressure, PTStrength. field. lra.
Qed.
Lemma strength_critical : forall n V xf xt T hf ht g, 0 < g -> 0 < T -> phase_at n V xf T hf -> phase_at n V xt T ht ->
  V (xf T) T = V (xt T) T ->
  PTStrength g T (V (xf T) T) (V (xt T) T) hf ht = (energy (pressure V xf) T - energy (pressure V xt) T) / (4 * radiation g T).
Proof.
  intros n V xf xt T hf ht g G H Pf Pt E. rewrite <- rho_radiation. assert (P := rho_pos g T G H).
  unfold energy, enthalpy. rewrite (entropy_phase n V xf T hf Pf), (entropy_phase n V xt T ht Pt). unfold pressure, PTStrength. rewrite E. field. lra.
Qed.
(** bag equation of state *)
Lemma strength_bag : forall g T af at' ef et, 0 < g -> 0 < T ->
  let V a e S := e - a / 3 * S ^ 4 in
  PTStrength g T (V af ef T) (V at' et T) (Derive (V af ef) T) (Derive (V at' et) T) = (ef - et) / radiation g T.
Proof.
  intros g T af at' ef et G H V. rewrite <- rho_radiation. assert (P := rho_pos g T G H).
  assert (D : forall a e, Derive (V a e) T = - (a / 3 * (4 * T ^ 3))).
  { intros a e. apply is_derive_unique. unfold V. auto_derive; [exact I|]. cbn [Nat.pred INR]. ring. }
  rewrite !D. unfold V, PTStrength. field. lra.
Qed.

Lemma strength_positive : forall g T Vi Vf a b, 0 < g -> 0 < T -> Vf < Vi -> a <= b -> 0 < PTStrength g T Vi Vf a b.
Proof.
  intros g T Vi Vf a b G H L E. assert (P := rho_pos g T G H). assert (R := strength_rho g T Vi Vf a b G H).
  assert (0 <= T / 4 * (b - a)) by (apply Rmult_le_pos; lra). apply (Rmult_lt_reg_r (rho_gam g T)); [exact P|]. rewrite Rmult_0_l, R. lra.
Qed.
Lemma velocity_bounds : forall g T Vi Vf a b, 0 < g -> 0 < T -> Vf < Vi -> a <= b ->
  exists v, WallVelocity1 g T Vi Vf a b = Some v /\ 0 < v <= 1 /\
    (v < 1 -> v ^ 2 * (Vi - Vf - T / 4 * (a - b)) = Vi - Vf).
Proof.
  intros g T Vi Vf a b G H L E. assert (R := strength_rho g T Vi Vf a b G H). assert (A : 0 <= T / 4 * (b - a)) by (apply Rmult_le_pos; lra).
  unfold WallVelocity1, vwall_mode1. rewrite R. set (D := Vi - Vf - T / 4 * (a - b)). assert (Vi - Vf <= D) by (unfold D; lra). clearbody D.
  destruct (Req_EM_T D 0) as [Z|_]; [lra|]. cbn zeta. assert (Q : 0 < (Vi - Vf) / D) by (apply Rdiv_lt_0_compat; lra).
  assert (Q1 : (Vi - Vf) / D <= 1) by (apply (Rmult_le_reg_r D); [lra|]; unfold Rdiv; rewrite Rmult_assoc, Rinv_l by lra; lra).
  destruct (Rlt_dec ((Vi - Vf) / D) 0) as [Z|_]; [lra|]. destruct (Rlt_dec _ (sqrt ((Vi - Vf) / D))) as [_|_].
  - exists 1. split; [reflexivity|]. split; [lra|]. intros; lra.
  - exists (sqrt ((Vi - Vf) / D)). split; [reflexivity|]. split.
    + split; [apply sqrt_lt_R0, Q|]. rewrite <- sqrt_1. apply sqrt_le_1_alt, Q1.
    + intros _. rewrite pow2_sqrt by lra. field. lra.
Qed.
Lemma jouguet_model : forall al, 0 < al -> v_ChapmanJouget (sqrt (1 / 3)) al = jouguet al.
Proof.
  intros al H. unfold v_ChapmanJouget, jouguet. assert (T : 0 < sqrt 3) by (apply sqrt_lt_R0; lra).
  assert (A : sqrt (1 / 3) = 1 / sqrt 3) by (rewrite sqrt_div_alt by lra; rewrite sqrt_1; reflexivity).
  assert (B : sqrt (al ^ 2 + 2 / 3 * al) = sqrt (3 * al ^ 2 + 2 * al) / sqrt 3) by (rewrite <- sqrt_div_alt by lra; f_equal; field).
  rewrite A, B. field. split; lra.
Qed.
Lemma velocity_jouguet : forall g T Vi Vf a b, 0 < g -> 0 < T -> Vf < Vi -> a <= b ->
  let al := PTStrength g T Vi Vf a b in let r := sqrt ((Vi - Vf) / (Vi - Vf - T / 4 * (a - b))) in
  (jouguet al < r -> WallVelocity1 g T Vi Vf a b = Some 1) /\ (r <= jouguet al -> WallVelocity1 g T Vi Vf a b = Some r).
Proof.
  intros g T Vi Vf a b G H L E al r. assert (R := strength_rho g T Vi Vf a b G H). assert (A : 0 <= T / 4 * (b - a)) by (apply Rmult_le_pos; lra).
  assert (P : 0 < al) by (apply strength_positive; assumption). unfold WallVelocity1, vwall_mode1. rewrite R. fold al. rewrite (jouguet_model al P).
  unfold r. set (D := Vi - Vf - T / 4 * (a - b)). assert (Vi - Vf <= D) by (unfold D; lra). clearbody D.
  destruct (Req_EM_T D 0) as [Z|_]; [lra|]. cbn zeta. assert (Q : 0 < (Vi - Vf) / D) by (apply Rdiv_lt_0_compat; lra).
  destruct (Rlt_dec ((Vi - Vf) / D) 0) as [Z|_]; [lra|]. destruct (Rlt_dec (jouguet al) (sqrt ((Vi - Vf) / D))) as [Y|Y]; split; intros X; try reflexivity; lra.
Qed.
Lemma psi_enthalpy : forall n V xf xt T hf ht, 0 < T -> hf <> 0 -> phase_at n V xf T hf -> phase_at n V xt T ht ->
  psi hf ht = enthalpy (pressure V xt) T / enthalpy (pressure V xf) T.
Proof.
  intros n V xf xt T hf ht H N Pf Pt. unfold enthalpy. rewrite (entropy_phase n V xf T hf Pf), (entropy_phase n V xt T ht Pt). unfold psi. field. lra.
Qed.

(** * The barrier (x^2 - 1)^2 (x - 2)^2-like example: two wells with different slopes in the temperature *)
(** V x T = x0^2 (x0 - 1)^2 - x0^2 (3 - 2 x0) / T: minima at 0 and at 1 for every temperature *)
Definition wells (x : nat -> R) (T : R) : R := x 0%nat ^ 2 * (x 0%nat - 1) ^ 2 + x 0%nat ^ 2 * (3 - 2 * x 0%nat) * (T - 2).
Lemma wells_diff : forall c T, (c = 0 \/ c = 1) -> differentiable_at 1 wells (fun _ => c) T (fun _ => 0) c.
Proof.
  intros c T C eps E. set (M := 40 + 10 * Rabs (T - 2)). assert (P := Rabs_pos (T - 2)). assert (0 < M) by (unfold M; lra).
  exists (Rmin 1 (eps / M)). split; [apply Rmin_glb_lt; [lra|apply Rdiv_lt_0_compat; assumption]|]. intros y S B B'. cbn [summed].
  assert (Y := B 0%nat Nat.lt_0_1). clear B. unfold wells. set (d := y 0%nat - c) in *. set (s := S - T) in *.
  assert (D1 : Rabs d < 1) by (eapply Rlt_le_trans; [exact Y|apply Rmin_l]). assert (D2 : Rabs d < eps / M) by (eapply Rlt_le_trans; [exact Y|apply Rmin_r]).
  replace (y 0%nat) with (c + d) by (unfold d; ring). replace (S - 2) with ((T - 2) + s) by (unfold s; ring).
  assert (D0 := Rabs_pos d). assert (S0 := Rabs_pos s). assert (S1 : Rabs s < 1) by (eapply Rlt_le_trans; [exact B'|apply Rmin_l]).
  assert (W : exists k l, (c + d) ^ 2 * (c + d - 1) ^ 2 + (c + d) ^ 2 * (3 - 2 * (c + d)) * (T - 2 + s) -
      (c ^ 2 * (c - 1) ^ 2 + c ^ 2 * (3 - 2 * c) * (T - 2)) - (0 + 0 * d) - c * s = d * (d * (k + l * (T - 2 + s))) /\ Rabs k <= 4 /\ Rabs l <= 5).
  { assert (A := Rabs_def2 d 1 D1). destruct C as [-> | ->].
    - exists ((d - 1) ^ 2), (3 - 2 * d). split; [ring|]. split; apply Rabs_le; nra.
    - exists ((1 + d) ^ 2), (- 3 - 2 * d). split; [ring|]. split; apply Rabs_le; nra. }
  destruct W as (k & l & Eq & Hk & Hl). match goal with |- Rabs ?e <= _ => replace e with (d * (d * (k + l * (T - 2 + s)))) by (symmetry; rewrite <- Eq; ring) end.
  rewrite !Rabs_mult.
  assert (Bk : Rabs (k + l * (T - 2 + s)) <= M).
  { eapply Rle_trans; [apply Rabs_triang|]. rewrite Rabs_mult. assert (Rabs (T - 2 + s) <= Rabs (T - 2) + 1) by (eapply Rle_trans; [apply Rabs_triang|]; lra).
    assert (Rabs l * Rabs (T - 2 + s) <= 5 * (Rabs (T - 2) + 1)) by (apply Rmult_le_compat; try apply Rabs_pos; assumption). unfold M. lra. }
  assert (Rabs d * Rabs (k + l * (T - 2 + s)) <= eps).
  { apply (Rle_trans _ (eps / M * M)); [apply Rmult_le_compat; try apply Rabs_pos; lra|]. apply Req_le. field. lra. }
  apply (Rle_trans _ (Rabs d * eps)); [apply Rmult_le_compat_l; assumption|]. rewrite Rplus_0_l.
  assert (0 <= eps * Rabs s) by (apply Rmult_le_pos; lra). lra.
Qed.
Lemma wells_phase : forall c T, (c = 0 \/ c = 1) -> phase_at 1 wells (fun _ _ => c) T c.
Proof. intros c T C. split; [intros i I; apply ex_derive_const|apply wells_diff, C]. Qed.
