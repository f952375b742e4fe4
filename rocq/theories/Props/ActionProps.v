(** C46-C49, C72: path smoothing, blending of the exact solutions, action integrals, control flow of the action. *)
From Coq Require Import ZArith Reals Lra Lia List Arith Bool.
From Verif.Model Require Import Action.
From Verif.Spec Require Import ActionSpec.
From Verif.Proofs Require Import BernsteinProofs ActionProofs ActionControl.
Import ListNotations.
Local Open Scope R_scope.

(** ** C46 *)
Theorem C46_basis_nonnegative : forall n nu x, 0 <= x <= 1 -> 0 <= Bernstein n nu x.
Proof. exact Bernstein_nonneg. Qed.
Print Assumptions C46_basis_nonnegative.
Theorem C46_end_fixed : forall deg coef, (forall nu, (nu < Z.of_nat deg)%Z -> Bernstein (Z.of_nat deg) nu 1 = 0) /\ smooth_phi deg coef 1 = 0.
Proof. intros deg coef. split; [intros nu H; now apply Bernstein_end|apply smooth_end]. Qed.
Print Assumptions C46_end_fixed.
(** the coefficient is the binomial one as long as no product of the loop leaves the range of int *)
Theorem C46_binomial_partial :
  forall n k, (k <= n)%nat -> (Z.of_nat n < 2147483648)%Z -> (forall i, (i <= Nat.min k (n - k))%nat -> (Z.of_nat i * choose n i < 2147483648)%Z) ->
    nChoosek (Z.of_nat n) (Z.of_nat k) = choose n k.
Proof. exact nChoosek_exact. Qed.
Print Assumptions C46_binomial_partial.
(** in particular for every degree up to 29, which covers the degrees 10 and 20 in use *)
Theorem C46_partition_partial :
  forall n, (n <= 29)%nat -> (forall k, nChoosek (Z.of_nat n) (Z.of_nat k) = choose n k) /\
    forall x, sum_upto (fun k => Bernstein (Z.of_nat n) (Z.of_nat k) x) n = 1.
Proof. intros n H. split; [intro k; now apply nChoosek_small|intro x; now apply Bernstein_partition]. Qed.
Print Assumptions C46_partition_partial.
(** the slopes used for the force on the path are the derivatives of the smoothed path *)
Theorem C46_slopes_partial :
  forall deg coef l0 lf t, (deg <= 29)%nat -> l0 < lf ->
    derivable_pt_lim (fun u => smooth_phi deg coef ((u - l0) / (lf - l0))) t (smooth_dphi deg coef (lf - l0) ((t - l0) / (lf - l0))) /\
    derivable_pt_lim (fun u => smooth_dphi deg coef (lf - l0) ((u - l0) / (lf - l0))) t (smooth_d2phi deg coef (lf - l0) ((t - l0) / (lf - l0))).
Proof. intros deg coef l0 lf t H1 H2. split; [now apply smooth_derivative|now apply smooth_derivative2]. Qed.
Print Assumptions C46_slopes_partial.
Theorem C46_refuted : exists n k, (k <= n)%nat /\ nChoosek (Z.of_nat n) (Z.of_nat k) <> choose n k.
Proof. exists 31%nat, 15%nat. split; [lia|]. rewrite <- row_choose. vm_compute. discriminate. Qed.
Print Assumptions C46_refuted.
Example C46_nonvacuous : (20 <= 29)%nat /\ nChoosek 20 10 = 184756%Z /\ Bernstein 2 1 (1 / 2) = 1 / 2.
Proof. split; [lia|]. split; [vm_compute; reflexivity|]. unfold Bernstein. change (nChoosek 2 1) with 2%Z. change (Z.to_nat 1) with 1%nat. change (Z.to_nat (2 - 1)) with 1%nat. cbn [Z.ltb Z.gtb Z.compare Pos.compare Pos.compare_cont orb pow]. lra. Qed.

(** ** C47 *)
Theorem C47_logistic :
  forall x y, exists a b c, LogisticFunction (Fin x) = Some a /\ LogisticFunction (Fin y) = Some b /\ LogisticFunction (Fin (- x)) = Some c /\
    0 <= a <= 1 /\ (-10 < x < 10 -> 0 < a < 1) /\ (x <= y -> a <= b) /\ (-10 < x -> x < y -> y < 10 -> a < b) /\ a + c = 1.
Proof.
  intros x y. exists (sigm x), (sigm y), (sigm (- x)). rewrite !Logistic_fin. repeat (split; [reflexivity|]).
  split; [apply sigm_range|]. split; [apply sigm_open|]. split; [apply sigm_mono|]. split; [apply sigm_strict|apply sigm_sym].
Qed.
Print Assumptions C47_logistic.
Theorem C47_blend :
  forall thr d init L dVdl m c, 0 < dVdl -> ~ (thr = init /\ d = thr) ->
    exists s, ExactSolution (Some thr) d init L dVdl m c = Solution s /\ between (s_rho s) (s_rho m) (s_rho c) /\ between (s_v s) (s_v m) (s_v c).
Proof. exact blended. Qed.
Print Assumptions C47_blend.
(** the excluded case is not a number *)
Theorem C47_blend_undefined : forall thr L dVdl m c, 0 < dVdl -> ExactSolution (Some thr) thr thr L dVdl m c = Undefined.
Proof. exact blend_undefined. Qed.
Print Assumptions C47_blend_undefined.
Example C47_nonvacuous : ~ (1 / 100 = 0 /\ 1 / 50 = 1 / 100) /\ -10 < 0 < 10. Proof. split; lra. Qed.

(** ** C48: with 2000 cells the sum has 2001 terms and the weight of each cell is taken at its left end, so a constant integrand
    comes out too large by a fixed factor *)
Theorem C48_constant_partial :
  forall alpha rmax v fuel, (alpha = 2 \/ alpha = 3)%Z -> 0 < rmax -> (2002 <= fuel)%nat ->
    CalculateKineticTermAction fuel alpha rmax (fun _ => v) =
      Some ((if (alpha =? 2)%Z then 8006001 / 8000000 else 4004001 / 4000000) * ball_integral alpha rmax (1 / 2 * v ^ 2)).
Proof.
  intros alpha rmax v fuel Ha Hr Hf. unfold CalculateKineticTermAction. rewrite radial_constant by assumption. do 2 f_equal. unfold surplus.
  destruct (alpha =? 2)%Z; lra.
Qed.
Print Assumptions C48_constant_partial.
Theorem C48_bounds_partial :
  forall alpha rmax g lo hi fuel, (alpha = 2 \/ alpha = 3)%Z -> 0 < rmax -> (2002 <= fuel)%nat -> (forall r, lo <= g r <= hi) ->
    exists v, radial_integral fuel alpha rmax g = Some v /\
      (if (alpha =? 2)%Z then 8006001 / 8000000 else 4004001 / 4000000) * ball_integral alpha rmax lo <= v <=
      (if (alpha =? 2)%Z then 8006001 / 8000000 else 4004001 / 4000000) * ball_integral alpha rmax hi.
Proof.
  intros alpha rmax g lo hi fuel Ha Hr Hf Hg. replace (if (alpha =? 2)%Z then 8006001 / 8000000 else 4004001 / 4000000) with (surplus alpha) by (unfold surplus; destruct (alpha =? 2)%Z; lra).
  now apply radial_bounds.
Qed.
Print Assumptions C48_bounds_partial.
(** a profile of zero length makes the loop run for ever *)
Theorem C48_zero_radius : forall fuel g, radial_integral fuel 2 0 g = None /\ radial_integral fuel 3 0 g = None.
Proof. intros fuel g. unfold radial_integral. cbn [Z.eqb Pos.eqb]. rewrite !radial_stuck. split; reflexivity. Qed.
Print Assumptions C48_zero_radius.
(** an unsupported dimension is answered by the marker -1 *)
Theorem C48_other_dimension : forall fuel alpha rmax g, (alpha <> 2)%Z -> (alpha <> 3)%Z -> radial_integral fuel alpha rmax g = Some (-1).
Proof. exact radial_other. Qed.
Print Assumptions C48_other_dimension.
Theorem C48_refuted :
  forall alpha, (alpha = 2 \/ alpha = 3)%Z -> exists rmax v, 0 < rmax /\ forall fuel, (2002 <= fuel)%nat ->
    exists s, CalculateKineticTermAction fuel alpha rmax (fun _ => v) = Some s /\ s <> ball_integral alpha rmax (1 / 2 * v ^ 2).
Proof.
  intros alpha Ha. exists 1, 1. split; [lra|]. intros fuel Hf. rewrite C48_constant_partial by (assumption || lra). eexists. split; [reflexivity|].
  unfold ball_integral. pose proof PI_RGT_0 as P. assert (0 < PI * PI) by (apply Rmult_lt_0_compat; assumption).
  destruct Ha as [-> | ->]; cbn [Z.eqb Pos.eqb]; intro H0; nra.
Qed.
Print Assumptions C48_refuted.
Example C48_nonvacuous : (2 = 2 \/ 2 = 3)%Z /\ 0 < 1 /\ (2002 <= 2002)%nat /\ ball_integral 3 1 2 = PI * PI.
Proof. split; [now left|]. split; [lra|]. split; [apply le_n|]. unfold ball_integral. cbn [Z.eqb Pos.eqb]. field. Qed.

(** ** C49 *)
Theorem C49_control_flow_partial :
  forall P dim fv_bad mx error b b' assigned,
    (forall k l0 d why, e_run (p_env P k) l0 d = Refused why -> failure why) -> b_status b = NotCalculated \/ failure (b_status b) ->
    CalculateAction P dim fv_bad mx error b = (b', assigned) ->
    if assigned then
      b_1d b' = true /\ ((1 < dim)%nat -> b_path b' = true) /\
      exists k, b_action b' = p_kin P k + p_pot P k /\
        (b_status b' = NotCalculated -> exists c u o, let r := Solve1DBounce (p_env P k) error 100 c u o in v_conv r = true /\ v_status r = NotCalculated) /\
        ((1 < dim)%nat -> b_status b' = NotCalculated /\ (b_without b' = true \/ p_check P k = true)) /\ ((dim <= 1)%nat -> k = 0%nat)
    else failure (b_status b') /\ b_action b' = b_action b.
Proof. intros P dim fv_bad mx error b b' assigned Hp. apply action_known. exact Hp. Qed.
Print Assumptions C49_control_flow_partial.
(** what convergence of the solver means when some shot overshot *)
Theorem C49_solver_partial :
  forall env error maxiter c u o, e_high env = false ->
    v_conv (Solve1DBounce env error maxiter c u o) = true -> v_over (Solve1DBounce env error maxiter c u o) = true ->
    has_bounce env error \/ narrow_linear env error \/ narrow_log env error.
Proof. exact solver_converged. Qed.
Print Assumptions C49_solver_partial.
(** UndershotOnce and OvershotOnce: set only if such a shot was made, and set when the first shot is one *)
Theorem C49_shot_flags :
  forall env error n c u o, e_high env = false ->
    let r := Solve1DBounce env error n c u o in
    let mid := (e_lmax env + e_lmin env) / 2 in
    (v_over r = true -> exists l0 d, passes_clearly env error l0 d) /\ (v_under r = true -> exists l0 d, falls_back env error l0 d) /\
    ((1 <= n)%nat -> passes_clearly env error mid (mid - e_lmin env) -> v_over r = true) /\
    ((1 <= n)%nat -> falls_back env error mid (mid - e_lmin env) -> v_under r = true).
Proof. intros env error n c u o. apply solver_flags. Qed.
Print Assumptions C49_shot_flags.
(** in several dimensions an action is assigned only on the accepted initial path or after shots of both kinds *)
Theorem C49_both_kinds :
  forall P dim mx error b b', (1 < dim)%nat -> -1 <= b_action b -> CalculateAction P dim false mx error b = (b', true) ->
    p_check P 0 = true \/ (b_under b' = true /\ b_over b' = true).
Proof. exact action_both. Qed.
Print Assumptions C49_both_kinds.
(** a path on which shots of both kinds occur *)
Example C49_nonvacuous_shots :
  let env := mkEnv false 0 1 1 (fun l0 _ => if Rle_dec l0 (1 / 2) then Ended 1 2 10 else Ended 0 (1 / 2) 10) in
  e_high env = false /\ passes_clearly env (1 / 10) (1 / 2) (1 / 2) /\ falls_back env (1 / 10) 1 1.
Proof.
  cbv zeta. split; [reflexivity|]. unfold passes_clearly, falls_back, reaches_false_vacuum. cbn [e_run e_L]. split.
  - destruct (Rle_dec (1 / 2) (1 / 2)); [|lra]. exists 1, 2, 10%nat. repeat split; lra.
  - destruct (Rle_dec 1 (1 / 2)); [lra|]. exists 0, (1 / 2), 10%nat. repeat split; [lra|]. intros (_ & Q). revert Q. unfold Rabs. destruct (Rcase_abs _); lra.
Qed.
(** a potential whose trajectories all fall short still gets an action, in one dimension and, when the path is accepted, in several *)
Theorem C49_refuted :
  exists env error, 0 < error /\ 0 < e_L env /\ ~ has_bounce env error /\ ~ overshoots env error /\
    forall dim mx deform kin pot b, b_status b = NotCalculated -> 
      exists b', CalculateAction (mkPaths (fun _ => env) (fun _ => true) deform kin pot) dim false mx error b = (b', true) /\ b_status b' = NotCalculated.
Proof.
  exists falls_short, tol. split; [unfold tol; lra|]. split; [cbn; lra|]. destruct short_nothing as (A & B). split; [exact A|]. split; [exact B|].
  intros dim mx deform kin pot b Hb. unfold CalculateAction, solve_on. cbn [p_env p_check b_status]. rewrite Hb. cbn [is_nc]. cbv zeta. rewrite !short_converges.
  cbn [v_status v_conv v_under v_over v_points is_nc negb]. destruct (1 <? dim)%nat.
  - cbn [Nat.ltb Nat.leb with_path]. destruct (mx - 1)%nat; cbn [deform_loop b_path negb b_1d]; eexists; (split; [reflexivity|reflexivity]).
  - cbn [b_1d negb]. eexists. split; reflexivity.
Qed.
Print Assumptions C49_refuted.
(** the state 'success' is never reached *)
Theorem C49_never_success :
  forall P dim fv_bad mx error b b' assigned,
    (forall k l0 d why, e_run (p_env P k) l0 d = Refused why -> failure why) -> b_status b = NotCalculated ->
    CalculateAction P dim fv_bad mx error b = (b', assigned) -> b_status b' <> Success.
Proof. exact never_success. Qed.
Print Assumptions C49_never_success.
Example C49_nonvacuous : exists P b b', (forall k l0 d why, e_run (p_env P k) l0 d = Refused why -> failure why) /\ b_status b = NotCalculated /\
  CalculateAction P 2 false 7 (1 / 10) b = (b', true) /\ b_action b' = 3.
Proof.
  exists (mkPaths (fun _ => mkEnv false 0 1 1 (fun _ _ => Ended 0 1 10)) (fun _ => true) (fun _ => false) (fun _ => 1) (fun _ => 2)).
  exists (mkBounce NotCalculated false false false false false (-1)). eexists. split; [discriminate|]. split; [reflexivity|].
  assert (C : forall l0 d u o p, shoot (mkEnv false 0 1 1 (fun _ _ => Ended 0 1 10)) (1 / 10) l0 d u o p = Stop (mkSolver NotCalculated true u o 10)).
  { intros. unfold shoot, classify. cbn [e_run e_L]. replace (1 - 1) with 0 by ring. rewrite Rabs_R0.
    rewrite (proj2 (Rleb_true 0 (1 / 10))), (proj2 (Rleb_true (0 / 1) (1 / 10))) by lra. reflexivity. }
  assert (D : forall f a b x y u o p, search (mkEnv false 0 1 1 (fun _ _ => Ended 0 1 10)) (1 / 10) (S f) false a b x y u o p = mkSolver NotCalculated true u o 10).
  { intros. cbn [search]. rewrite C. reflexivity. }
  unfold CalculateAction, solve_on, Solve1DBounce. cbn [p_env p_check b_status is_nc e_high]. change 100%nat with (S 99). rewrite D.
  cbn [v_status v_conv v_under v_over v_points is_nc negb Nat.ltb Nat.leb b_status Nat.sub deform_loop b_path with_path]. split; [reflexivity|]. cbn [b_action p_kin p_pot]. lra.
Qed.

(** ** C72: near the minimum the expansion about the minimum should dominate, far from it the other solution *)
Theorem C72_weight_partial :
  forall thr d init L dVdl m c, 0 < dVdl -> init < thr ->
    exists s w, ExactSolution (Some thr) d init L dVdl m c = Solution s /\ 0 <= w <= 1 /\
      s_rho s = w * s_rho m + (1 - w) * s_rho c /\ s_v s = w * s_v m + (1 - w) * s_v c /\ (d <= thr -> 1 / 2 <= w) /\ (thr <= d -> w <= 1 / 2).
Proof. exact blend_weight. Qed.
Print Assumptions C72_weight_partial.
(** without a threshold the linear solution is used; against a wrong gradient the expansion about the minimum is used close to it,
    and elsewhere the attempt is given up; the position is never blended *)
Theorem C72_other_cases :
  forall thr d init L dVdl m c,
    ExactSolution None d init L dVdl m c = Solution c /\
    (dVdl <= 0 -> d / L < 1 / 100 -> ExactSolution (Some thr) d init L dVdl m c = Solution m) /\
    (dVdl <= 0 -> 1 / 100 <= d / L -> ExactSolution (Some thr) d init L dVdl m c = NegativeGradient) /\
    (forall t s, ExactSolution t d init L dVdl m c = Solution s -> s = m \/ s_l s = s_l c).
Proof.
  intros thr d init L dVdl m c. destruct (exact_elsewhere thr d init L dVdl m c) as (A & B & C). repeat (split; [assumption|]).
  intros t s. apply exact_position.
Qed.
Print Assumptions C72_other_cases.
(** with the minimum found at 0.005 of a path of length one and a threshold distance of 0.001, a start ten times further away
    than the threshold uses the expansion about the minimum alone *)
Theorem C72_refuted :
  exists thr d init L, 0 < thr /\ thr < d /\ init <= L / 100 /\ thr <= (L - init) / 100 /\
    forall dVdl m c, 0 < dVdl -> ExactSolution (Some thr) d init L dVdl m c = Solution m.
Proof. exists (1 / 1000), (1 / 100), (1 / 200), 1. repeat (split; [lra|]). intros. now apply blend_far. Qed.
Print Assumptions C72_refuted.
Example C72_nonvacuous : 0 < 1 /\ 0 < 1 / 1000. Proof. lra. Qed.
