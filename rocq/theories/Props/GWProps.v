(** C30-C34 and C68: wall velocity, gravitational-wave spectrum, efficiency factor. *)
From Coq Require Import Reals List Lra.
Import ListNotations.
From Verif.Model Require Import GW.
From Verif.Spec Require Import GWSpec.
From Verif.Proofs Require Import GWProofs KappaProofs.
Open Scope R_scope.

(** ** C30 *)
Theorem C30_chapman_jouguet_between_sound_and_light :
  forall alpha, 0 <= alpha -> Csound <= v_ChapmanJouget Csound alpha <= 1.
Proof. intros. apply cj_bounds; [unfold Csound; lra|assumption]. Qed.
Print Assumptions C30_chapman_jouguet_between_sound_and_light.

(** mode -1: whenever a number comes out it is a velocity, and none comes out exactly when the
    potential does not drop (or does not change while alpha = 0) *)
Theorem C30_equilibrium_estimate_physical :
  forall alpha rho Vi Vf, 0 <= alpha -> 0 < rho ->
    (forall v, vwall_mode1 Csound alpha rho Vi Vf = Some v -> physical_velocity v) /\
    (vwall_mode1 Csound alpha rho Vi Vf = None <-> Vi < Vf \/ alpha = 0 /\ Vi = Vf).
Proof. intros. apply mode1_defined; [unfold Csound; lra|assumption|assumption]. Qed.
Print Assumptions C30_equilibrium_estimate_physical.

(** mode -2 is only physical for alpha >= (1 - psi)/3 ... *)
Theorem C30_enthalpy_estimate_physical_partial :
  forall alpha psi, 0 < alpha -> 0 <= psi <= 1 -> 1 - psi <= 3 * alpha ->
    exists v, vwall_mode2 Csound alpha psi = Some v /\ physical_velocity v.
Proof. intros. apply mode2_range; try assumption. unfold Csound; lra. Qed.
Print Assumptions C30_enthalpy_estimate_physical_partial.

(** ... and faster than light for some weaker transitions *)
Theorem C30_enthalpy_estimate_refuted :
  exists alpha psi v, 0 < alpha /\ 0 < psi < 1 /\ vwall_mode2 Csound alpha psi = Some v /\ 1 < v.
Proof. exact mode2_refuted. Qed.
Print Assumptions C30_enthalpy_estimate_refuted.

Example C30_nonvacuous :
  vwall_mode1 Csound 1 1 4 0 = Some 1 /\ vwall_mode1 Csound 4 1 1 0 = Some (1 / 2) /\
  1 - 9 / 10 <= 3 * (1 / 10).
Proof.
  unfold vwall_mode1. repeat split.
  - destruct (Req_EM_T (1 * 1) 0); [lra|]. destruct (Rlt_dec _ 0); [lra|].
    destruct (Rlt_dec _ _) as [|N]; [reflexivity|]. exfalso. apply N.
    pose proof (cj_bounds Csound 1 ltac:(unfold Csound; lra) ltac:(lra)).
    replace ((4 - 0) / (1 * 1)) with (2 ^ 2) by lra. rewrite sqrt_pow2 by lra. lra.
  - destruct (Req_EM_T (4 * 1) 0); [lra|]. destruct (Rlt_dec _ 0); [lra|].
    replace ((1 - 0) / (4 * 1)) with ((1 / 2) ^ 2) by lra. rewrite sqrt_pow2 by lra.
    destruct (Rlt_dec _ _) as [L|N]; [|reflexivity]. exfalso.
    pose proof (cj_bounds Csound 4 ltac:(unfold Csound; lra) ltac:(lra)). unfold Csound in *. lra.
  - lra.
Qed.

(** ** C31 *)
Theorem C31_peak_is_maximum :
  forall d f, 0 < g_T d -> 0 < g_HR d -> 0 < g_gstar d -> 0 < g_Ksw d -> 0 <= f ->
    exists v, snd (CalcGWAmplitude (set_peaks d) f true false) = Some v /\
      0 <= v <= g_asw (set_peaks d) /\ (v = g_asw (set_peaks d) <-> f = g_fsw (set_peaks d)).
Proof. exact sw_peak. Qed.
Print Assumptions C31_peak_is_maximum.

Theorem C31_cubic_rise :
  forall d, 0 < g_T d -> 0 < g_HR d -> 0 < g_gstar d -> 0 < g_Ksw d ->
    exists C, 0 < C /\ forall e, 0 < e -> exists del, 0 < del /\ forall f, 0 < f < del ->
      exists v, snd (CalcGWAmplitude (set_peaks d) f true false) = Some v /\ Rabs (v / f ^ 3 - C) < e.
Proof. exact sw_cubic. Qed.
Print Assumptions C31_cubic_rise.

(** the peak frequency: 26 microhertz for H R = 1, T = 100 and 100 degrees of freedom; proportional to T and to 1 / (H R), and to the
    sixth root of the number of degrees of freedom *)
Theorem C31_peak_frequency :
  forall d, 0 < g_T d -> 0 < g_HR d -> 0 < g_gstar d ->
    0 < g_fsw (set_peaks d) /\ (g_fsw (set_peaks d) * g_HR d * 1000000 / 26) ^ 6 = (g_T d / 100) ^ 6 * (g_gstar d / 100).
Proof. exact sw_frequency. Qed.
Print Assumptions C31_peak_frequency.

Definition sample : gwdata :=
  {| g_T := 100; g_HR := 1 / 10; g_Ksw := 1 / 100; g_Kturb := 1 / 1000; g_gstar := 100; g_Hstar := 1 / 100000;
     g_fsw := 0; g_asw := 0; g_ftb := 0; g_atb := 0 |}.
Example C31_nonvacuous :
  0 < g_T sample /\ 0 < g_HR sample /\ 0 < g_gstar sample /\ 0 < g_Ksw sample /\
  g_fsw (set_peaks sample) = 26e-5.
Proof.
  cbn [g_T g_HR g_gstar g_Ksw sample]. do 4 (split; [lra|]).
  change (26e-6 * (1 / (1 / 10)) * (100 / 100) * cpow (100 / 100) (1 / 6) = 26e-5).
  replace (100 / 100) with 1 by lra. rewrite cpow_pos by lra. rewrite Rpower_1_l. lra.
Qed.

(** ** C32 *)
(** a fresh object: the first evaluation is not a number, the second one is *)
Theorem C32_history_dependent_refuted :
  forall d f, g_asw d = 0 -> g_fsw d = 0 -> 0 < g_T d -> 0 < g_HR d -> 0 < g_gstar d -> 0 < g_Ksw d ->
    snd (CalcGWAmplitude d f true false) = None /\
    exists v, snd (CalcGWAmplitude (fst (CalcGWAmplitude d f true false)) f true false) = Some v.
Proof.
  intros d f A F T H G K. split; [now apply fresh_first|]. destruct (peaks_pos d T H G K).
  destruct (fresh_second d f f A F ltac:(lra) ltac:(lra)) as (v & E & _). now exists v.
Qed.
Print Assumptions C32_history_dependent_refuted.

(** once the four peak values have been computed no evaluation changes the object *)
Theorem C32_independent_once_peaks_are_set_partial :
  forall d h f sw tb,
    run (set_peaks d) h = set_peaks d /\
    snd (CalcGWAmplitude (run (set_peaks d) h) f sw tb) = snd (CalcGWAmplitude (set_peaks d) f sw tb).
Proof. intros. split; [apply run_fix|now rewrite run_fix]. Qed.
Print Assumptions C32_independent_once_peaks_are_set_partial.

(** the same for the turbulence term *)
Theorem C32_turbulence_history_dependent_refuted :
  forall d f, g_atb d = 0 -> g_ftb d = 0 -> 0 < g_T d -> 0 < g_HR d -> 0 < g_gstar d -> 0 < g_Kturb d ->
    snd (CalcGWAmplitude d f false true) = None /\
    exists v, snd (CalcGWAmplitude (fst (CalcGWAmplitude d f false true)) f false true) = Some v.
Proof.
  intros d f A F T H G K. split; [now apply fresh_first_tb|]. destruct (peaks_pos_tb d T H G K).
  apply (fresh_second_tb d f f A F); lra.
Qed.
Print Assumptions C32_turbulence_history_dependent_refuted.

Example C32_nonvacuous : g_asw sample = 0 /\ g_fsw sample = 0 /\
  snd (CalcGWAmplitude (run (set_peaks sample) [(1, true, true); (2, false, true)]) (g_fsw (set_peaks sample)) true false)
  = Some (g_asw (set_peaks sample)).
Proof.
  split; [reflexivity|]. split; [reflexivity|]. rewrite run_fix.
  destruct (sw_peak sample (g_fsw (set_peaks sample))) as (v & E & _ & P); cbn [g_T g_HR g_gstar g_Ksw sample]; try lra.
  - change (g_fsw (set_peaks sample)) with (peak_f_sw sample).
    apply Rlt_le, (peaks_pos sample); cbn [g_T g_HR g_gstar g_Ksw sample]; lra.
  - rewrite E. f_equal. now apply P.
Qed.

(** ** C33 *)
Theorem C33_turbulence_exponent_refuted :
  forall d f, 0 < g_T d -> 0 < g_HR d -> 0 < g_gstar d -> 0 < g_Kturb d -> 0 < g_Hstar d -> 0 < f ->
    exists v, snd (CalcGWAmplitude (set_peaks d) f false true) = Some v /\
      turb_documented (g_atb (set_peaks d)) (g_ftb (set_peaks d)) (g_Hstar d) f < v.
Proof.
  intros d f T H G K HS F. destruct (peaks_pos_tb d T H G K). rewrite turb_eval by lra.
  apply (turb_differs (set_peaks d) f); assumption.
Qed.
Print Assumptions C33_turbulence_exponent_refuted.

(** what the code computes instead: exponent 3, still below the reported amplitude *)
Theorem C33_turbulence_cubic_partial :
  forall d f, 0 < g_T d -> 0 < g_HR d -> 0 < g_gstar d -> 0 < g_Kturb d -> 0 < g_Hstar d -> 0 <= f ->
    exists v, snd (CalcGWAmplitude (set_peaks d) f false true) = Some v /\
      v = g_atb (set_peaks d) * (f / g_ftb (set_peaks d)) ^ 3 / (1 + f / g_ftb (set_peaks d)) ^ 3
          / (1 + 8 * PI * f / g_Hstar d) /\
      0 <= v < g_atb (set_peaks d).
Proof.
  intros d f T H G K HS F. destruct (peaks_pos_tb d T H G K). rewrite turb_eval by lra.
  assert (N : g_ftb (set_peaks d) <> 0) by (change (peak_f_tb d <> 0); lra).
  eexists. split; [now apply turb_value|]. split; [reflexivity|].
  eapply turb_bound with (f := f); try eassumption. now apply turb_value.
Qed.
Print Assumptions C33_turbulence_cubic_partial.

(** the peak frequency: 79.09 microhertz for H R = 1, T = 100 and 100 degrees of freedom, with the same proportionalities as
    that of the sound waves *)
Theorem C33_peak_frequency :
  forall d, 0 < g_T d -> 0 < g_HR d -> 0 < g_gstar d ->
    0 < g_ftb (set_peaks d) /\ (g_ftb (set_peaks d) * g_HR d * 100000000 / 7909) ^ 6 = (g_T d / 100) ^ 6 * (g_gstar d / 100).
Proof. exact tb_frequency. Qed.
Print Assumptions C33_peak_frequency.

Example C33_nonvacuous :
  0 < g_T sample /\ 0 < g_HR sample /\ 0 < g_gstar sample /\ 0 < g_Kturb sample /\ 0 < g_Hstar sample.
Proof. cbn. repeat split; lra. Qed.

(** ** C34 *)
Theorem C34_efficiency_continuous :
  forall alpha v, 1e-20 <= alpha -> 0 < v < 1 -> continuity_pt (fun v => Getkappa_sw alpha v Csound) v.
Proof.
  intros alpha v A V. apply kappa_cont; try lra; [unfold Csound; lra|now apply Csound_lt_xiJ].
Qed.
Print Assumptions C34_efficiency_continuous.

(** for every sound speed below the detonation velocity, with the values at both boundaries and
    positivity in the deflagration and detonation regimes *)
Theorem C34_regime_boundaries :
  forall alpha cs, 0 < alpha -> 0 < cs -> cs < xiJ alpha ->
    Getkappa_sw alpha cs cs = kappaB alpha /\ Getkappa_sw alpha (xiJ alpha) cs = kappaC alpha /\
    (forall v, 0 < v < 1 -> continuity_pt (fun v => Getkappa_sw alpha v cs) v) /\
    (forall v, 0 < v < cs \/ xiJ alpha < v <= 1 -> 0 < Getkappa_sw alpha v cs).
Proof.
  intros alpha cs A C H. destruct (kappa_values alpha cs H). split; [assumption|]. split; [assumption|].
  split; [intros; now apply kappa_cont|]. intros v [V|V]; [now apply defl_pos|now apply deto_pos].
Qed.
Print Assumptions C34_regime_boundaries.

Example C34_nonvacuous : 1e-20 <= 1 / 10 /\ 0 < Csound < xiJ (1 / 10) /\ xiJ (1 / 10) < 1.
Proof.
  split; [lra|]. split; [split; [unfold Csound; lra|apply Csound_lt_xiJ; lra]|]. apply xiJ_lt1. lra.
Qed.

(** ** C68 *)
Theorem C68_peak_amplitude_suppressed_by_lifetime :
  forall d, 0 < g_gstar d -> 0 < g_HR d -> 0 < g_Ksw d ->
    g_asw (set_peaks d) = sw_peak_documented (g_gstar d) (g_HR d) (g_Ksw d).
Proof.
  intros d G H K. change (g_asw (set_peaks d)) with (peak_a_sw d). rewrite peak_amplitude by assumption.
  rewrite cpow_pos by (apply Rdiv_lt_0_compat; lra). unfold sw_peak_documented, turnover_time, h0. ring.
Qed.
Print Assumptions C68_peak_amplitude_suppressed_by_lifetime.

Theorem C68_turbulence_fraction_range :
  forall HR K eps, 0 < K -> 0 < HR -> (eps = -1 \/ 0 <= eps <= 1) ->
    0 <= CalcEpsTurb HR K eps <= 1 /\
    (eps <> -1 -> CalcEpsTurb HR K eps = eps) /\
    (eps = -1 -> (CalcEpsTurb HR K eps = 0 <-> 1 <= turnover_time HR K)).
Proof.
  intros HR K eps HK HH E. destruct (eps_turb HR K eps HK HH E) as [B Z]. split; [exact B|]. split.
  - intro N. unfold CalcEpsTurb. destruct (Req_EM_T eps (-1)); [contradiction|reflexivity].
  - intro M. rewrite (Z M). unfold IsFluidTurnoverApproxOne, turnover_time. rewrite tau_eq by exact HK.
    destruct (Rlt_dec _ 1); split; intro; try discriminate; try lra; reflexivity.
Qed.
Print Assumptions C68_turbulence_fraction_range.

Example C68_nonvacuous : turnover_time (1 / 10) 1 < 1 /\ 1 <= turnover_time 2 1 /\ CalcEpsTurb (1 / 10) 1 (-1) <> 0.
Proof.
  assert (S : 1 <= sqrt 3 <= 2).
  { split; [rewrite <- sqrt_1 at 1; apply sqrt_le_1; lra|]. rewrite <- (sqrt_pow2 2) by lra. apply sqrt_le_1; lra. }
  assert (I : 1 / 2 <= / sqrt 3 <= 1).
  { split; [replace (1 / 2) with (/ 2) by lra; apply Rinv_le_contravar; lra|]. rewrite <- Rinv_1. apply Rinv_le_contravar; lra. }
  assert (A : turnover_time (1 / 10) 1 < 1). { unfold turnover_time. rewrite sqrt_1. unfold Rdiv in *. lra. }
  assert (B : 1 <= turnover_time 2 1). { unfold turnover_time. rewrite sqrt_1. unfold Rdiv in *. lra. }
  split; [exact A|]. split; [exact B|]. intro Z.
  destruct (C68_turbulence_fraction_range (1 / 10) 1 (-1) ltac:(lra) ltac:(lra) ltac:(lra)) as (_ & _ & P).
  apply (P eq_refl) in Z. lra.
Qed.
