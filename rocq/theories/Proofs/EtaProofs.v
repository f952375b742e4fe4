(** Proofs for the asymmetry integral. *)
From Coq Require Import Reals List ZArith Lra Lia.
From Coquelicot Require Import Coquelicot.
From Verif Require Import Base Model.Eta Spec.EtaSpec Proofs.DerivLib.
Import ListNotations.
Open Scope R_scope.

Lemma alpha_pos : 0 < alpha_W.
Proof.
  pose proof PI_RGT_0. unfold alpha_W. apply Rdiv_lt_0_compat; [lra|lra].
Qed.
Lemma rate_pos : forall T, 0 < T -> 0 < GamWS T.
Proof.
  intros T H. unfold GamWS. pose proof (pow_lt alpha_W 5 alpha_pos). nra.
Qed.
Lemma diff_pos : forall T, 0 < T -> 0 < diff_q T.
Proof. intros. unfold diff_q. apply Rdiv_lt_0_compat; lra. Qed.
Lemma entr_pos : forall T, 0 < T -> 0 < s_entr T.
Proof.
  intros T H. unfold s_entr. pose proof PI_RGT_0. pose proof (pow_lt T 3 H).
  assert (0 < T ^ 3 * (PI * PI)) by (apply Rmult_lt_0_compat; [assumption|nra]). lra.
Qed.
Lemma omega_facts : forall T vw, 0 < T -> 0 <= vw -> 0 < omega T vw /\ omega T vw ^ 2 = vw ^ 2 + 4 * GamWS T * diff_q T * relax_factor /\ vw < omega T vw.
Proof.
  intros T vw H V. pose proof (rate_pos T H) as G. pose proof (diff_pos T H) as D.
  assert (P : 0 < 4 * GamWS T * diff_q T * relax_factor).
  { unfold relax_factor. apply Rmult_lt_0_compat; [apply Rmult_lt_0_compat; lra|lra]. }
  assert (Q : 0 < vw * vw + 4 * GamWS T * diff_q T * relax_factor) by nra.
  unfold omega. set (x := 4 * GamWS T * diff_q T * relax_factor) in *.
  assert (S : 0 < sqrt (vw * vw + x)) by (apply sqrt_lt_R0; exact Q).
  assert (E : sqrt (vw * vw + x) ^ 2 = vw ^ 2 + x). { rewrite pow2_sqrt by lra. ring. }
  split; [exact S|]. split; [exact E|]. nra.
Qed.

Lemma constants : forall T, 0 < T -> s_entr T = entropy (10675 / 100) T /\ GamWS T = sphaleron_rate 20 (65 / 100) T.
Proof.
  intros T H. pose proof PI_RGT_0. unfold s_entr, entropy, GamWS, sphaleron_rate, alpha_W. split; [field|].
  replace (65 / 100 * (65 / 100)) with ((65 / 100) ^ 2) by ring. ring.
Qed.

(** roots of the characteristic polynomial *)
Lemma roots : forall T vw a, 0 < T -> 0 <= vw -> free_exponent (diff_q T) vw (GamWS T) relax_factor a ->
  (0 < a -> a = - exponent T vw) /\ (a < 0 -> a = - (vw + omega T vw) / (2 * diff_q T)).
Proof.
  intros T vw a H V F. destruct (omega_facts T vw H V) as [W [W2 VW]]. pose proof (diff_pos T H) as D. unfold free_exponent in F.
  unfold exponent. set (w := omega T vw) in *. set (d := diff_q T) in *.
  assert (Q : (2 * d * a + vw) ^ 2 = w ^ 2). { rewrite W2. replace ((2 * d * a + vw) ^ 2) with (4 * d * (d * a ^ 2 + vw * a - relax_factor * GamWS T) + (vw ^ 2 + 4 * GamWS T * d * relax_factor)) by ring. rewrite F. ring. }
  assert (S : 2 * d * a + vw = w \/ 2 * d * a + vw = - w).
  { destruct (Rmult_integral (2 * d * a + vw - w) (2 * d * a + vw + w)) as [E|E]; [|left; lra|right; lra].
    replace ((2 * d * a + vw - w) * (2 * d * a + vw + w)) with ((2 * d * a + vw) ^ 2 - w ^ 2) by ring. lra. }
  split; intro A.
  - assert (0 < 2 * d * a) by nra. destruct S as [S|S]; [|exfalso; lra].
    apply Rmult_eq_reg_l with (2 * d); [|lra]. replace (2 * d * - ((vw - w) / (2 * d))) with (w - vw) by (field; lra). lra.
  - assert (2 * d * a < 0) by nra. destruct S as [S|S]; [exfalso; lra|].
    apply Rmult_eq_reg_l with (2 * d); [|lra]. replace (2 * d * (- (vw + w) / (2 * d))) with (- (vw + w)) by (field; lra). lra.
Qed.
Lemma root_positive : forall T vw, 0 < T -> 0 <= vw -> 0 < - exponent T vw /\ free_exponent (diff_q T) vw (GamWS T) relax_factor (- exponent T vw).
Proof.
  intros T vw H V. destruct (omega_facts T vw H V) as [W [W2 VW]]. pose proof (diff_pos T H) as D. unfold exponent, free_exponent.
  set (w := omega T vw) in *. set (d := diff_q T) in *. split.
  - replace (- ((vw - w) / (2 * d))) with ((w - vw) / (2 * d)) by (field; lra). apply Rdiv_lt_0_compat; lra.
  - replace (d * (- ((vw - w) / (2 * d))) ^ 2 + vw * - ((vw - w) / (2 * d)) - relax_factor * GamWS T)
      with ((w ^ 2 - (vw ^ 2 + 4 * GamWS T * d * relax_factor)) / (4 * d)) by (field; lra). rewrite W2. field. lra.
Qed.

(** the combination whose derivative is the weighted drive *)
Lemma weighted : forall T vw (drive n n1 n2 : R -> R) z, 0 < T -> 0 <= vw ->
  dl n z (n1 z) -> dl n1 z (n2 z) ->
  diff_q T * n2 z + vw * n1 z - relax_factor * GamWS T * n z + drive z = 0 ->
  dl (fun y => exp (exponent T vw * y) * (diff_q T * n1 y + (vw + omega T vw) / 2 * n y)) z (- (drive z * exp (exponent T vw * z))).
Proof.
  intros T vw drive n n1 n2 z H V D0 D1 E. destruct (omega_facts T vw H V) as [W [W2 VW]]. pose proof (diff_pos T H) as D.
  eapply dl_eq.
  - apply (dl_mult (fun y => exp (exponent T vw * y)) (fun y => diff_q T * n1 y + (vw + omega T vw) / 2 * n y)).
    + apply (dl_exp (fun y => exponent T vw * y)). apply (dl_mult (fun _ => exponent T vw) (fun y => y)); [apply dl_const|apply dl_id].
    + apply dl_plus.
      * apply (dl_mult (fun _ => diff_q T) n1); [apply dl_const|exact D1].
      * apply (dl_mult (fun _ => (vw + omega T vw) / 2) n); [apply dl_const|exact D0].
  - cbv beta. set (x := exp (exponent T vw * z)). unfold exponent. set (w := omega T vw) in *. set (d := diff_q T) in *.
    assert (Q : drive z = - (d * n2 z + vw * n1 z - relax_factor * GamWS T * n z)) by lra. rewrite Q.
    replace (x * (0 * z + (vw - w) / (2 * d) * 1) * (d * n1 z + (vw + w) / 2 * n z) + x * (0 * n1 z + d * n2 z + (0 * n z + (vw + w) / 2 * n1 z)))
      with (x * (d * n2 z + vw * n1 z - (w ^ 2 - vw ^ 2) / (4 * d) * n z)) by (field; lra).
    rewrite W2. field. lra.
Qed.

Lemma integral_of_drive : forall T vw (drive n n1 n2 : R -> R) Z, 0 < T -> 0 <= vw -> 0 < Z ->
  (forall z, 0 <= z <= Z -> continuity_pt drive z) ->
  stationary (diff_q T) vw (GamWS T) relax_factor drive n n1 n2 Z ->
  decays_beyond (diff_q T) vw (GamWS T) relax_factor n n1 Z ->
  RInt (fun z => drive z * exp (exponent T vw * z)) 0 Z = diff_q T * n1 0 + (vw + omega T vw) / 2 * n 0.
Proof.
  intros T vw drive n n1 n2 Z H V HZ C St [b [B0 [B1 B2]]].
  set (W := fun y => exp (exponent T vw * y) * (diff_q T * n1 y + (vw + omega T vw) / 2 * n y)).
  pose proof (diff_pos T H) as D.
  assert (I : is_RInt (fun z => - (drive z * exp (exponent T vw * z))) 0 Z (minus (W Z) (W 0))).
  { apply (is_RInt_derive W (fun z => - (drive z * exp (exponent T vw * z)))).
    - intros z Hz. rewrite Rmin_left, Rmax_right in Hz by lra. destruct (St z Hz) as [S0 [S1 S2]].
      apply is_derive_Reals. apply (weighted T vw drive n n1 n2 z H V S0 S1 S2).
    - intros z Hz. rewrite Rmin_left, Rmax_right in Hz by lra. apply (continuous_opp (V := R_NormedModule)).
      apply (continuous_mult (K := R_AbsRing)).
      + apply continuity_pt_filterlim. apply C. exact Hz.
      + apply (continuous_comp (fun z => exponent T vw * z) exp).
        * apply (continuous_mult (K := R_AbsRing)); [apply continuous_const|apply continuous_id].
        * apply continuity_pt_filterlim. apply derivable_continuous_pt. apply derivable_pt_exp. }
  apply is_RInt_unique. apply (is_RInt_ext (fun z => opp (- (drive z * exp (exponent T vw * z))))).
  { intros z _. unfold opp; cbn. apply Ropp_involutive. }
  assert (WZ : W Z = 0).
  { unfold W. rewrite B2. apply (roots T vw b H V) in B1. destruct B1 as [_ B1]. rewrite (B1 B0). field. lra. }
  assert (W0 : W 0 = diff_q T * n1 0 + (vw + omega T vw) / 2 * n 0). { unfold W. rewrite Rmult_0_r, exp_0. ring. }
  assert (E : diff_q T * n1 0 + (vw + omega T vw) / 2 * n 0 = opp (minus (W Z) (W 0))).
  { rewrite WZ, W0. unfold opp, minus, plus, opp; cbn. ring. }
  rewrite E. apply (is_RInt_opp (V := R_NormedModule)). exact I.
Qed.

Lemma eta_integral : forall T vw (nL : R -> R) Z, 0 < T -> 0 <= vw ->
  (forall z, 0 <= z <= Z -> continuity_pt nL z) -> 0 < Z ->
  eta_of T vw nL Z = RInt (fun z => 3 / 2 * GamWS T * nL z * exp (exponent T vw * z)) 0 Z / (omega T vw * s_entr T).
Proof.
  intros T vw nL Z H V C HZ. unfold eta_of, Nintegrate_eta, prefactor.
  destruct (omega_facts T vw H V) as [W _]. pose proof (entr_pos T H) as S.
  assert (X : ex_RInt (fun z => nL z * exp (exponent T vw * z)) 0 Z).
  { apply (ex_RInt_continuous (V := R_CompleteNormedModule)). intros z Hz. rewrite Rmin_left, Rmax_right in Hz by lra. apply (continuous_mult (K := R_AbsRing)).
    - apply continuity_pt_filterlim. apply C. exact Hz.
    - apply (continuous_comp (fun z => exponent T vw * z) exp).
      + apply (continuous_mult (K := R_AbsRing)); [apply continuous_const|apply continuous_id].
      + apply continuity_pt_filterlim. apply derivable_continuous_pt. apply derivable_pt_exp. }
  rewrite <- (opp_RInt_swap (V := R_CompleteNormedModule)) by exact X.
  assert (Q : RInt (fun z => 3 / 2 * GamWS T * nL z * exp (exponent T vw * z)) 0 Z
    = 3 / 2 * GamWS T * RInt (fun z => nL z * exp (exponent T vw * z)) 0 Z).
  2: { rewrite Q. set (i := RInt _ 0 Z). change (opp i) with (- i). field. split; lra. } rewrite <- (RInt_scal (V := R_CompleteNormedModule)) by exact X. apply RInt_ext. intros z _. unfold scal; cbn; unfold mult; cbn. ring.
Qed.

Lemma eta_washed_out : forall T vw (nL n n1 n2 : R -> R) Z, 0 < T -> 0 <= vw -> 0 < Z ->
  (forall z, 0 <= z <= Z -> continuity_pt nL z) ->
  stationary (diff_q T) vw (GamWS T) relax_factor (fun z => 3 / 2 * GamWS T * nL z) n n1 n2 Z ->
  decays_beyond (diff_q T) vw (GamWS T) relax_factor n n1 Z ->
  washed_out_behind (diff_q T) vw (GamWS T) relax_factor n n1 ->
  eta_of T vw nL Z = n 0 / s_entr T.
Proof.
  intros T vw nL n n1 n2 Z H V HZ C St De [a [A0 [A1 A2]]]. rewrite eta_integral by assumption.
  rewrite (integral_of_drive T vw (fun z => 3 / 2 * GamWS T * nL z) n n1 n2 Z H V HZ).
  2: { intros z Hz. apply (continuity_pt_mult (fun _ => 3 / 2 * GamWS T) nL); [apply continuity_pt_const; intros ? ?; reflexivity|apply C; exact Hz]. }
  2, 3: assumption.
  apply (roots T vw a H V) in A1. destruct A1 as [A1 _]. rewrite A2, (A1 A0). unfold exponent.
  destruct (omega_facts T vw H V) as [W _]. pose proof (entr_pos T H) as S. pose proof (diff_pos T H) as D.
  field. repeat split; lra.
Qed.

Lemma eta_frozen : forall T vw (nL n n1 n2 : R -> R) Z, 0 < T -> 0 <= vw -> 0 < Z ->
  (forall z, 0 <= z <= Z -> continuity_pt nL z) ->
  stationary (diff_q T) vw (GamWS T) relax_factor (fun z => 3 / 2 * GamWS T * nL z) n n1 n2 Z ->
  decays_beyond (diff_q T) vw (GamWS T) relax_factor n n1 Z ->
  frozen_behind n1 ->
  eta_of T vw nL Z = (vw + omega T vw) / (2 * omega T vw) * (n 0 / s_entr T).
Proof.
  intros T vw nL n n1 n2 Z H V HZ C St De F. rewrite eta_integral by assumption.
  rewrite (integral_of_drive T vw (fun z => 3 / 2 * GamWS T * nL z) n n1 n2 Z H V HZ).
  2: { intros z Hz. apply (continuity_pt_mult (fun _ => 3 / 2 * GamWS T) nL); [apply continuity_pt_const; intros ? ?; reflexivity|apply C; exact Hz]. }
  2, 3: assumption.
  unfold frozen_behind in F. rewrite F.
  destruct (omega_facts T vw H V) as [W _]. pose proof (entr_pos T H) as S. pose proof (diff_pos T H) as D.
  field. repeat split; lra.
Qed.

(** a quadratic density that meets the conditions, for any slope at the wall *)
Lemma quadratic_solution : forall T vw c, 0 < T -> 0 <= vw ->
  exists nL n n1 n2, n 0 = 1 /\ n1 0 = c /\ (forall z, 0 <= z <= 1 -> continuity_pt nL z) /\
  stationary (diff_q T) vw (GamWS T) relax_factor (fun z => 3 / 2 * GamWS T * nL z) n n1 n2 1 /\
  decays_beyond (diff_q T) vw (GamWS T) relax_factor n n1 1.
Proof.
  intros T vw c H V. destruct (omega_facts T vw H V) as [W [W2 VW]]. pose proof (diff_pos T H) as D. pose proof (rate_pos T H) as G.
  set (w := omega T vw) in *. set (d := diff_q T) in *. set (g := GamWS T) in *.
  set (k := (vw + w) / 2). assert (K : 0 < k) by (unfold k; lra).
  set (r := - (d * c + k * (1 + c)) / (2 * d + k)).
  set (n := fun z => 1 + c * z + r * z ^ 2). set (n1 := fun z => c + 2 * r * z).
  exists (fun z => - (d * (2 * r) + vw * n1 z - relax_factor * g * n z) / (3 / 2 * g)), n, n1, (fun _ => 2 * r).
  assert (N : forall z, dl n z (n1 z)).
  { intro z. unfold n, n1. eapply dl_eq; [apply dl_plus; [apply dl_plus; [apply dl_const|apply (dl_mult (fun _ => c) (fun y => y)); [apply dl_const|apply dl_id]]|apply (dl_mult (fun _ => r) (fun y => y ^ 2)); [apply dl_const|apply (dl_pow (fun y => y)); apply dl_id]]|].
    cbn [INR pred pow]. ring. }
  assert (N1 : forall z, dl n1 z (2 * r)).
  { intro z. unfold n1. eapply dl_eq; [apply dl_plus; [apply dl_const|apply (dl_mult (fun _ => 2 * r) (fun y => y)); [apply dl_const|apply dl_id]]|]. ring. }
  split; [unfold n; ring|]. split; [unfold n1; ring|]. split; [|split].
  - intros z _. apply derivable_continuous_pt. eexists.
    apply (dl_div (fun z => - (d * (2 * r) + vw * n1 z - relax_factor * g * n z)) (fun _ => 3 / 2 * g)).
    + apply dl_opp. apply dl_minus; [apply dl_plus; [apply dl_const|apply (dl_mult (fun _ => vw) n1); [apply dl_const|apply N1]]|apply (dl_mult (fun _ => relax_factor * g) n); [apply dl_const|apply N]].
    + apply dl_const.
    + lra.
  - intros z _. split; [apply N|]. split; [apply N1|]. field. lra.
  - exists (- (vw + w) / (2 * d)). split; [|split].
    + replace (- (vw + w) / (2 * d)) with (- ((vw + w) / (2 * d))) by (field; lra). apply Ropp_lt_gt_0_contravar. apply Rdiv_lt_0_compat; lra.
    + unfold free_exponent. replace (d * (- (vw + w) / (2 * d)) ^ 2 + vw * (- (vw + w) / (2 * d)) - relax_factor * g)
        with ((w ^ 2 - (vw ^ 2 + 4 * g * d * relax_factor)) / (4 * d)) by (field; lra). rewrite W2. field. lra.
    + unfold n1, n. replace (- (vw + w) / (2 * d)) with (- k / d) by (unfold k; field; lra). unfold r. field. split; lra.
Qed.

(** the grid *)
Lemma grid_positions : forall n zmax nL zs vs m, (0 < n)%nat ->
  set_up_nL_grid n m m zmax nL = Ok (zs, vs) ->
  length zs = S n /\ length vs = S n /\ (forall i, (i <= n)%nat -> nth i zs 0 = INR i * (zmax / INR n) /\ nth i vs 0 = nL zmax (nth i zs 0)).
Proof.
  intros n zmax nL zs vs m N H. unfold set_up_nL_grid in H. replace (network_eqb m m) with true in H by (destruct m; reflexivity).
  apply (f_equal (fun o => match o with Ok x => x | _ => (zs, vs) end)) in H. apply pair_equal_spec in H. destruct H as [<- <-].
  split; [rewrite map_length, seq_length; reflexivity|]. split; [rewrite !map_length, seq_length; reflexivity|].
  intros i I.
  assert (E : nth i (map (fun j => INR j * zmax / INR n) (seq 0 (S n))) 0 = INR i * (zmax / INR n)).
  { rewrite (nth_indep _ 0 ((fun j => INR j * zmax / INR n) 0%nat)) by (rewrite map_length, seq_length; lia).
    rewrite (map_nth (fun j => INR j * zmax / INR n)), seq_nth by lia. rewrite Nat.add_0_l. unfold Rdiv. ring. }
  split; [exact E|].
  rewrite (nth_indep _ 0 (nL zmax 0)) by (rewrite !map_length, seq_length; lia). rewrite (map_nth (nL zmax)). reflexivity.
Qed.

Lemma last_nth : forall (l : list R) d, l <> [] -> last l d = nth (length l - 1) l d.
Proof.
  intros l d. induction l as [|x l IH]; [congruence|]. intros _. destruct l as [|y l]; [reflexivity|].
  change (last (x :: y :: l) d) with (last (y :: l) d). rewrite IH by discriminate. cbn [length]. 
  replace (S (S (length l)) - 1)%nat with (S (S (length l) - 1))%nat by lia. reflexivity.
Qed.

Lemma grid_nodes : forall n zmax nL zs vs m, (0 < n)%nat -> 0 < zmax ->
  set_up_nL_grid n m m zmax nL = Ok (zs, vs) ->
  exists t0 h, spline_nodes zs = Ok (t0, h) /\ forall i, (i <= n)%nat -> t0 + INR i * h = nth i zs 0.
Proof.
  intros n zmax nL zs vs m N Z H. destruct (grid_positions n zmax nL zs vs m N H) as [L [_ P]].
  assert (NP : 0 < INR n) by (apply lt_0_INR; exact N).
  assert (HP : 0 < zmax / INR n) by (apply Rdiv_lt_0_compat; assumption).
  destruct zs as [|z0 [|z1 zs]]; cbn [length] in L; try lia.
  pose proof (proj1 (P 0%nat ltac:(lia))) as P0. pose proof (proj1 (P 1%nat ltac:(lia))) as P1.
  pose proof (proj1 (P n ltac:(lia))) as PN. cbn [nth INR] in P0, P1.
  assert (LA : last (z0 :: z1 :: zs) 0 = zmax).
  { rewrite last_nth by discriminate. cbn [length]. replace (S (S (length zs)) - 1)%nat with n by lia. rewrite PN. field. lra. }
  unfold spline_nodes. rewrite LA. destruct (Rlt_dec z0 zmax) as [A|A].
  - exists z0, (z1 - z0). split; [reflexivity|]. intros i I. rewrite (proj1 (P i I)), P0, P1. ring.
  - exfalso. apply A. rewrite P0. lra.
Qed.

Lemma mirrored : exists zs t0 h, spline_nodes zs = Ok (t0, h) /\ nth 2 zs 0 < nth 1 zs 0 < nth 0 zs 0 /\
  nth 0 zs 0 - nth 1 zs 0 = nth 1 zs 0 - nth 2 zs 0 /\ t0 + INR 0 * h <> nth 0 zs 0.
Proof.
  exists [2; 1; 0], 0, 1. unfold spline_nodes. cbn [last nth INR].
  destruct (Rlt_dec 2 0) as [A|A]; [exfalso; lra|]. destruct (Rlt_dec 0 2) as [B|B]; [|exfalso; lra].
  repeat split; try lra. repeat f_equal; lra.
Qed.
Lemma mirrored_general : forall zs t0 h n, length zs = S n -> (0 < n)%nat -> 0 < h ->
  (forall i, (i <= n)%nat -> nth i zs 0 = nth n zs 0 + INR (n - i) * h) ->
  spline_nodes zs = Ok (nth n zs 0, h) /\ (t0 = nth n zs 0 -> forall i, (i <= n)%nat -> t0 + INR i * h = nth (n - i) zs 0).
Proof.
  intros zs t0 h n L N H P. split.
  - destruct zs as [|z0 [|z1 zs]]; cbn [length] in L; try lia.
    assert (LA : last (z0 :: z1 :: zs) 0 = nth n (z0 :: z1 :: zs) 0).
    { rewrite last_nth by discriminate. cbn [length]. replace (S (S (length zs)) - 1)%nat with n by lia. reflexivity. }
    assert (P0 : z0 = nth n (z0 :: z1 :: zs) 0 + INR (n - 0) * h) by exact (P 0%nat ltac:(lia)).
    assert (P1 : z1 = nth n (z0 :: z1 :: zs) 0 + INR (n - 1) * h) by exact (P 1%nat ltac:(lia)).
    assert (NP : 0 < INR (n - 0)) by (apply lt_0_INR; lia). assert (NH : 0 < INR (n - 0) * h) by (apply Rmult_lt_0_compat; assumption).
    unfold spline_nodes. rewrite LA. set (zl := nth n (z0 :: z1 :: zs) 0) in *. clearbody zl.
    destruct (Rlt_dec z0 zl) as [A|A]; [exfalso; lra|]. destruct (Rlt_dec zl z0) as [B|B]; [|exfalso; lra].
    repeat f_equal. rewrite P0, P1. rewrite !minus_INR by lia. cbn [INR]. ring.
  - intros -> i I. rewrite (P (n - i)%nat ltac:(lia)). replace (n - (n - i))%nat with i by lia. reflexivity.
Qed.
Lemma orientation : forall T vw nL Z, 0 < T -> 0 <= vw -> 0 < Z ->
  (forall z, 0 <= z <= Z -> continuity_pt nL z) ->
  Nintegrate_eta T vw nL Z 0 = - eta_of T vw nL Z /\
  eta_of T vw nL Z = RInt (fun z => 3 / 2 * GamWS T * nL z * exp (exponent T vw * z)) 0 Z / (omega T vw * s_entr T).
Proof.
  intros T vw nL Z H V HZ C. split; [|exact (eta_integral T vw nL Z H V C HZ)].
  unfold eta_of, Nintegrate_eta.
  assert (X : ex_RInt (fun z => nL z * exp (exponent T vw * z)) 0 Z).
  { apply (ex_RInt_continuous (V := R_CompleteNormedModule)). intros z Hz. rewrite Rmin_left, Rmax_right in Hz by lra. apply (continuous_mult (K := R_AbsRing)).
    - apply continuity_pt_filterlim. apply C. exact Hz.
    - apply (continuous_comp (fun z => exponent T vw * z) exp).
      + apply (continuous_mult (K := R_AbsRing)); [apply continuous_const|apply continuous_id].
      + apply continuity_pt_filterlim. apply derivable_continuous_pt. apply derivable_pt_exp. }
  rewrite <- (opp_RInt_swap (V := R_CompleteNormedModule) _ 0 Z) by exact X. set (i := RInt _ 0 Z). change (opp i) with (- i). ring.
Qed.
