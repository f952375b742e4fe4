(** C145: the signal-to-noise ratio of gravitational waves. *)
From Coq Require Import Reals Lra.
From Verif Require Import Model.GW Model.SNR Spec.SNRSpec Proofs.SNRProofs.
Open Scope R_scope.

Theorem C145_ratio : forall d swON turbON fmin fmax T, valid_wave d -> 0 < fmin -> fmin <= fmax -> 0 <= T ->
  exists omega rho, (forall f, snd (CalcGWAmplitude (set_peaks d) f swON turbON) = Some (omega f)) /\
    GetSNR (set_peaks d) swON turbON fmin fmax T = Some rho /\ signal_to_noise omega fmin fmax T rho.
Proof. exact (fun d a b fmin fmax T V => wave_def d V a b fmin fmax T). Qed.
Print Assumptions C145_ratio.

Theorem C145_sources : forall d fmin fmax T s t r, valid_wave d -> 0 < fmin -> fmin <= fmax -> 0 <= T ->
  GetSNR (set_peaks d) true false fmin fmax T = Some s ->
  GetSNR (set_peaks d) false true fmin fmax T = Some t ->
  GetSNR (set_peaks d) true true fmin fmax T = Some r ->
  s ^ 2 + t ^ 2 <= r ^ 2 /\ r <= s + t.
Proof. exact (fun d fmin fmax T s t r V => wave_combined d V fmin fmax T s t r). Qed.
Print Assumptions C145_sources.

Theorem C145_time : forall d swON turbON fmin fmax T c r, valid_wave d -> 0 < fmin -> fmin <= fmax -> 0 <= T -> 0 <= c ->
  GetSNR (set_peaks d) swON turbON fmin fmax T = Some r ->
  GetSNR (set_peaks d) swON turbON fmin fmax (c * T) = Some (sqrt c * r).
Proof. exact (fun d a b fmin fmax T c r V => wave_time d V a b fmin fmax T c r). Qed.
Print Assumptions C145_time.

Theorem C145_bands : forall d swON turbON f0 f1 f2 T r r1 r2, valid_wave d -> 0 < f0 -> f0 <= f1 -> f1 <= f2 -> 0 <= T ->
  GetSNR (set_peaks d) swON turbON f0 f2 T = Some r ->
  GetSNR (set_peaks d) swON turbON f0 f1 T = Some r1 ->
  GetSNR (set_peaks d) swON turbON f1 f2 T = Some r2 ->
  r ^ 2 = r1 ^ 2 + r2 ^ 2.
Proof. exact (fun d a b f0 f1 f2 T r r1 r2 V => wave_band d V a b f0 f1 f2 T r r1 r2). Qed.
Print Assumptions C145_bands.

(** a transition at 100 GeV, over the band of the tracer and three years: the ratios exist *)
Definition snr_sample : gwdata :=
  {| g_T := 100; g_HR := 1 / 10; g_Ksw := 1 / 100; g_Kturb := 1 / 1000; g_gstar := 100; g_Hstar := 1 / 100000;
     g_fsw := 0; g_asw := 0; g_ftb := 0; g_atb := 0 |}.
Example C145_nonvacuous : valid_wave snr_sample /\
  (exists s t r, GetSNR (set_peaks snr_sample) true false (1 / 10 ^ 6) 10 3 = Some s /\
    GetSNR (set_peaks snr_sample) false true (1 / 10 ^ 6) 10 3 = Some t /\ GetSNR (set_peaks snr_sample) true true (1 / 10 ^ 6) 10 3 = Some r) /\
  seconds 1 = 31557600 /\ sensitivity 1 > 0.
Proof.
  assert (V : valid_wave snr_sample) by (unfold valid_wave; cbn [g_T g_HR g_gstar g_Ksw g_Kturb g_Hstar snr_sample]; repeat split; lra).
  split; [exact V|]. split.
  - destruct (C145_ratio snr_sample true false (1 / 10 ^ 6) 10 3 V ltac:(lra) ltac:(lra) ltac:(lra)) as (o1 & s & _ & S & _).
    destruct (C145_ratio snr_sample false true (1 / 10 ^ 6) 10 3 V ltac:(lra) ltac:(lra) ltac:(lra)) as (o2 & t & _ & T & _).
    destruct (C145_ratio snr_sample true true (1 / 10 ^ 6) 10 3 V ltac:(lra) ltac:(lra) ltac:(lra)) as (o3 & r & _ & R & _).
    exists s, t, r. split; [exact S|]. split; [exact T|exact R].
  - split; [unfold seconds; lra|]. apply sens_pos. lra.
Qed.
