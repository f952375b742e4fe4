(** Proofs about the signal-to-noise ratio. *)
From Coq Require Import Reals Lra Lia.
From Coquelicot Require Import Coquelicot.
From Verif Require Import Model.GW Model.SNR Spec.SNRSpec Proofs.GWProofs.
Open Scope R_scope.

Lemma sens_spec f : 0 < f -> h2OmSens f = sensitivity f.
Proof.
  intros F. unfold h2OmSens, sensitivity, strain, acceleration, optical, powspec_density, SIfunc, Rfunc. pose proof PI_RGT_0. field. repeat split; lra.
Qed.
Lemma sens_pos f : 0 < f -> 0 < sensitivity f.
Proof.
  intros F. unfold sensitivity, strain, acceleration, optical. generalize PI_RGT_0. generalize PI. intros q Q.
  assert (A : 0 < 576 / 10 ^ 50 / (2 * q * f) ^ 4 * (1 + (/ 2500 / f) ^ 2)).
  { apply Rmult_lt_0_compat; [|pose proof (pow2_ge_0 (/ 2500 / f)); lra]. apply Rdiv_lt_0_compat; [lra|]. apply pow_lt. apply Rmult_lt_0_compat; lra. }
  assert (B := pow2_ge_0 (40 * f)). assert (C : 0 < f ^ 3) by (apply pow_lt; exact F). assert (D : 0 < q ^ 2) by (apply pow_lt; lra).
  apply Rmult_lt_0_compat; [apply Rmult_lt_0_compat; [|exact C]|].
  - apply Rdiv_lt_0_compat; [apply Rdiv_lt_0_compat; lra|]. apply pow_lt. lra.
  - apply Rmult_lt_0_compat; [|lra]. apply Rmult_lt_0_compat; lra.
Qed.
Lemma sens_cont f : 0 < f -> continuous sensitivity f.
Proof.
  intros F. apply (ex_derive_continuous sensitivity). unfold sensitivity, strain, acceleration, optical. generalize PI_RGT_0. generalize PI. intros q Q. auto_derive.
  assert (0 < 2 * q * f) by (apply Rmult_lt_0_compat; lra). repeat split; try lra. apply Rgt_not_eq. repeat apply Rmult_lt_0_compat; lra.
Qed.

Section Source.
  Variable d : gwdata.
  Hypothesis init_sw_id : init_sw d = d.
  Hypothesis init_tb_id : init_tb d = d.
  Hypothesis P : 0 < g_fsw d /\ 0 <= g_asw d /\ 0 < g_ftb d /\ 0 <= g_atb d /\ 0 < g_Hstar d.
  Definition sw (f : R) : R := g_asw d * cpow (4 / 7) (- (7 / 2)) * (f / g_fsw d) ^ 3 * cpow (1 + 3 / 4 * (f / g_fsw d) ^ 2) (- (7 / 2)).
  Definition tb (f : R) : R := g_atb d * (f / g_ftb d) ^ 3 / (1 + f / g_ftb d) ^ (Nat.div 11 3) / (1 + 8 * PI * f / g_Hstar d).
  Definition amp (a b : bool) (f : R) : R := (if a then sw f else 0) + (if b then tb f else 0).
  Lemma amplitude a b f : snd (CalcGWAmplitude d f a b) = Some (amp a b f).
  Proof.
    destruct P as [A [_ [B _]]]. unfold CalcGWAmplitude, amp. rewrite init_sw_id. unfold sw_term. destruct (Req_EM_T (g_fsw d) 0); [lra|].
    destruct a; cbn [add_opt]; destruct b; cbn [snd]; rewrite ?init_tb_id; unfold tb_term; try (destruct (Req_EM_T (g_ftb d) 0); [lra|]); cbn [add_opt];
      f_equal; fold (sw f); fold (tb f); ring.
  Qed.
  Lemma sw_pos f : 0 < f -> 0 <= sw f.
  Proof.
    destruct P as [A [B _]]. intros F. unfold sw, cpow. assert (Q : 0 < f / g_fsw d) by (apply Rdiv_lt_0_compat; assumption). assert (S := pow2_ge_0 (f / g_fsw d)).
    destruct (Rlt_dec 0 (4 / 7)); [|lra]. destruct (Rlt_dec 0 (1 + 3 / 4 * (f / g_fsw d) ^ 2)); [|lra].
    apply Rmult_le_pos; [apply Rmult_le_pos; [apply Rmult_le_pos; [exact B|apply Rlt_le, exp_pos]|apply Rlt_le, pow_lt; exact Q]|apply Rlt_le, exp_pos].
  Qed.
  Lemma tb_pos f : 0 < f -> 0 <= tb f.
  Proof.
    destruct P as [_ [_ [A [B C]]]]. intros F. unfold tb. assert (Q : 0 < f / g_ftb d) by (apply Rdiv_lt_0_compat; assumption).
    assert (H : 0 < 8 * PI * f / g_Hstar d) by (pose proof PI_RGT_0; apply Rdiv_lt_0_compat; [apply Rmult_lt_0_compat; lra|exact C]).
    apply Rmult_le_pos; [apply Rmult_le_pos; [apply Rmult_le_pos; [exact B|apply Rlt_le, pow_lt; exact Q]|]|]; apply Rlt_le, Rinv_0_lt_compat; [apply pow_lt; lra|lra].
  Qed.
  Lemma sw_cont f : 0 < f -> continuous sw f.
  Proof.
    destruct P as [A [B _]]. intros F. apply (continuous_ext (fun f => g_asw d * cpow (4 / 7) (- (7 / 2)) * (f / g_fsw d) ^ 3 * exp (- (7 / 2) * ln (1 + 3 / 4 * (f / g_fsw d) ^ 2)))).
    - intros x. unfold sw. f_equal. unfold cpow. assert (S := pow2_ge_0 (x / g_fsw d)). destruct (Rlt_dec 0 (1 + 3 / 4 * (x / g_fsw d) ^ 2)); [reflexivity|lra].
    - apply (ex_derive_continuous (fun f => g_asw d * cpow (4 / 7) (- (7 / 2)) * (f / g_fsw d) ^ 3 * exp (- (7 / 2) * ln (1 + 3 / 4 * (f / g_fsw d) ^ 2)))).
      generalize (cpow (4 / 7) (- (7 / 2))). intros c. auto_derive. assert (S := pow2_ge_0 (f / g_fsw d)). unfold Rdiv in *. cbn in S. repeat split; try lra.
  Qed.
  Lemma tb_cont f : 0 < f -> continuous tb f.
  Proof.
    destruct P as [_ [_ [A [B C]]]]. intros F. apply (ex_derive_continuous tb). unfold tb. change (Nat.div 11 3) with 3%nat. assert (Q : 0 < f / g_ftb d) by (apply Rdiv_lt_0_compat; assumption).
    assert (H : 0 < 8 * PI * f / g_Hstar d) by (pose proof PI_RGT_0; apply Rdiv_lt_0_compat; [apply Rmult_lt_0_compat; lra|exact C]).
    generalize dependent PI. intros q H. auto_derive. unfold Rdiv in *. repeat split; try lra. apply Rgt_not_eq. repeat apply Rmult_lt_0_compat; lra.
  Qed.
  Lemma amp_cont a b f : 0 < f -> continuous (amp a b) f.
  Proof.
    intros F. unfold amp. apply (continuous_plus (fun f => if a then sw f else 0) (fun f => if b then tb f else 0)).
    - destruct a; [apply sw_cont; exact F|apply continuous_const].
    - destruct b; [apply tb_cont; exact F|apply continuous_const].
  Qed.
  Definition q a b (f : R) : R := amp a b f / sensitivity f.
  Lemma q_cont a b f : 0 < f -> continuous (q a b) f.
  Proof.
    intros F. unfold q, Rdiv. apply (continuous_mult (amp a b) (fun f => / sensitivity f)); [apply amp_cont; exact F|].
    apply continuous_Rinv_comp; [apply sens_cont; exact F|]. apply Rgt_not_eq. apply sens_pos. exact F.
  Qed.
  Lemma q_nonneg a b f : 0 < f -> 0 <= q a b f.
  Proof.
    intros F. unfold q. assert (S := sens_pos f F). assert (U := sw_pos f F). assert (V := tb_pos f F). apply Rmult_le_pos; [unfold amp; destruct a, b; lra|left; apply Rinv_0_lt_compat; exact S].
  Qed.
  Lemma q_sum f : q true true f = q true false f + q false true f.
  Proof. unfold q, amp. unfold Rdiv. ring. Qed.
  Variables fmin fmax : R.
  Hypothesis F0 : 0 < fmin.
  Hypothesis F1 : fmin <= fmax.
  Lemma in_band x : Rmin fmin fmax <= x <= Rmax fmin fmax -> 0 < x.
  Proof. rewrite Rmin_left by exact F1. lra. Qed.
  Lemma ex_prod a b a' b' : ex_RInt (fun f => q a b f * q a' b' f) fmin fmax.
  Proof.
    apply (ex_RInt_continuous (V := R_CompleteNormedModule)). intros x X. apply in_band in X. apply (continuous_mult (q a b) (q a' b')); apply q_cont; exact X.
  Qed.
  Definition I2 a b a' b' : R := RInt (fun f => q a b f * q a' b' f) fmin fmax.
  Lemma integral a b : RInt (snr_integrand d a b) fmin fmax = I2 a b a b.
  Proof.
    unfold I2. apply RInt_ext. intros x X. assert (0 < x) by (rewrite Rmin_left in X by exact F1; lra). unfold snr_integrand. rewrite amplitude. cbn [number]. rewrite sens_spec by assumption. unfold q.
    change (@eq R ((amp a b x / sensitivity x) ^ 2) (amp a b x / sensitivity x * (amp a b x / sensitivity x))). ring.
  Qed.
  Lemma snr_is a b T : GetSNR d a b fmin fmax T = Some (sqrt (seconds T * I2 a b a b)).
  Proof. unfold GetSNR. rewrite amplitude, integral. f_equal. f_equal. unfold seconds. field. Qed.
  Lemma I2_nonneg a b a' b' : 0 <= I2 a b a' b'.
  Proof.
    unfold I2. apply RInt_ge_0; [exact F1|apply ex_prod|]. intros x X. apply Rmult_le_pos; apply q_nonneg; lra.
  Qed.
  Lemma I2_quad t : 0 <= I2 true false true false + 2 * t * I2 true false false true + t ^ 2 * I2 false true false true.
  Proof.
    assert (H : is_RInt (fun f => (q true false f + t * q false true f) ^ 2) fmin fmax (I2 true false true false + 2 * t * I2 true false false true + t ^ 2 * I2 false true false true)).
    { apply (is_RInt_ext (fun f => plus (plus (q true false f * q true false f) (scal (2 * t) (q true false f * q false true f))) (scal (t ^ 2) (q false true f * q false true f)))).
      - intros x _. change (@eq R (q true false x * q true false x + 2 * t * (q true false x * q false true x) + t ^ 2 * (q false true x * q false true x)) ((q true false x + t * q false true x) ^ 2)). ring.
      - apply @is_RInt_plus; [apply @is_RInt_plus|]; [|apply @is_RInt_scal|apply @is_RInt_scal]; apply (RInt_correct (V := R_CompleteNormedModule)); apply ex_prod. }
    rewrite <- (is_RInt_unique _ _ _ _ H). apply RInt_ge_0; [exact F1|eexists; exact H|]. intros x _. apply pow2_ge_0.
  Qed.
  Lemma I2_cs : I2 true false false true ^ 2 <= I2 true false true false * I2 false true false true.
  Proof.
    pose proof I2_quad as H. pose proof (I2_nonneg false true false true) as C. revert H C. generalize (I2 true false true false), (I2 true false false true), (I2 false true false true).
    intros x y z H C. destruct C as [C|C].
    - assert (Q := H (- y / z)). assert (x + 2 * (- y / z) * y + (- y / z) ^ 2 * z = x - y ^ 2 / z) as E by (field; lra). rewrite E in Q.
      assert (y ^ 2 / z <= x) by lra. apply (Rmult_le_compat_r z) in H0; [|lra]. replace (y ^ 2 / z * z) with (y ^ 2) in H0 by (field; lra). exact H0.
    - subst z. destruct (Req_dec y 0) as [-> |Y]; [lra|]. assert (Q := H (- (x + 1) / (2 * y))). replace (x + 2 * (- (x + 1) / (2 * y)) * y + (- (x + 1) / (2 * y)) ^ 2 * 0) with (-1) in Q by (field; exact Y). lra.
  Qed.
  Lemma I2_sum : I2 true true true true = I2 true false true false + 2 * I2 true false false true + I2 false true false true.
  Proof.
    assert (H : is_RInt (fun f => q true true f * q true true f) fmin fmax (I2 true false true false + 2 * I2 true false false true + I2 false true false true)).
    { apply (is_RInt_ext (fun f => plus (plus (q true false f * q true false f) (scal 2 (q true false f * q false true f))) (q false true f * q false true f))).
      - intros x _. rewrite !q_sum. change (@eq R (q true false x * q true false x + 2 * (q true false x * q false true x) + q false true x * q false true x) ((q true false x + q false true x) * (q true false x + q false true x))). ring.
      - apply @is_RInt_plus; [apply @is_RInt_plus|]; [|apply @is_RInt_scal|]; apply (RInt_correct (V := R_CompleteNormedModule)); apply ex_prod. }
    exact (is_RInt_unique _ _ _ _ H).
  Qed.
  Lemma snr_def a b T : 0 <= T -> exists omega rho, (forall f, snd (CalcGWAmplitude d f a b) = Some (omega f)) /\
    GetSNR d a b fmin fmax T = Some rho /\ signal_to_noise omega fmin fmax T rho.
  Proof.
    intros HT. exists (amp a b), (sqrt (seconds T * I2 a b a b)). split; [apply amplitude|]. split; [apply snr_is|].
    assert (S : 0 <= seconds T * I2 a b a b) by (apply Rmult_le_pos; [unfold seconds; lra|apply I2_nonneg]).
    split; [apply sqrt_pos|]. exists (I2 a b a b). split; [|rewrite <- Rsqr_pow2; apply Rsqr_sqrt; exact S].
    apply (is_RInt_ext (fun f => q a b f * q a b f)); [|apply (RInt_correct (V := R_CompleteNormedModule)); apply ex_prod].
    intros x _. unfold q. change (@eq R (amp a b x / sensitivity x * (amp a b x / sensitivity x)) ((amp a b x / sensitivity x) ^ 2)). ring.
  Qed.
  Lemma snr_combined T s t r : 0 <= T -> GetSNR d true false fmin fmax T = Some s -> GetSNR d false true fmin fmax T = Some t -> GetSNR d true true fmin fmax T = Some r ->
    s ^ 2 + t ^ 2 <= r ^ 2 /\ r <= s + t.
  Proof.
    intros HT. rewrite !snr_is. intros Es Et Er. injection Es as <-. injection Et as <-. injection Er as <-. rewrite I2_sum.
    pose proof I2_cs as CS. pose proof (I2_nonneg true false true false) as HA. pose proof (I2_nonneg true false false true) as HB. pose proof (I2_nonneg false true false true) as HC.
    revert CS HA HB HC. generalize (I2 true false true false), (I2 true false false true), (I2 false true false true). intros A B C CS HA HB HC.
    assert (K : 0 <= seconds T) by (unfold seconds; lra). revert K. generalize (seconds T). intros k K.
    assert (kA : 0 <= k * A) by (apply Rmult_le_pos; assumption). assert (kB : 0 <= k * B) by (apply Rmult_le_pos; assumption). assert (kC : 0 <= k * C) by (apply Rmult_le_pos; assumption).
    assert (E : k * (A + 2 * B + C) = k * A + 2 * (k * B) + k * C) by ring. rewrite E.
    assert (SA := Rsqr_sqrt _ kA). assert (SC := Rsqr_sqrt _ kC). assert (SS := Rsqr_sqrt (k * A + 2 * (k * B) + k * C) ltac:(lra)). unfold Rsqr in SA, SC, SS.
    assert (PA := sqrt_pos (k * A)). assert (PC := sqrt_pos (k * C)). assert (PS := sqrt_pos (k * A + 2 * (k * B) + k * C)).
    split; [cbn; lra|]. apply Rsqr_incr_0_var; [|lra]. unfold Rsqr. rewrite SS.
    assert (k * B <= sqrt (k * A) * sqrt (k * C)).
    { apply Rsqr_incr_0_var; [|apply Rmult_le_pos; assumption]. unfold Rsqr. replace (sqrt (k * A) * sqrt (k * C) * (sqrt (k * A) * sqrt (k * C))) with (sqrt (k * A) * sqrt (k * A) * (sqrt (k * C) * sqrt (k * C))) by ring.
      rewrite SA, SC. replace (k * B * (k * B)) with (k * k * B ^ 2) by ring. replace (k * A * (k * C)) with (k * k * (A * C)) by ring. apply Rmult_le_compat_l; [apply Rmult_le_pos; assumption|exact CS]. }
    replace ((sqrt (k * A) + sqrt (k * C)) * (sqrt (k * A) + sqrt (k * C))) with (sqrt (k * A) * sqrt (k * A) + 2 * (sqrt (k * A) * sqrt (k * C)) + sqrt (k * C) * sqrt (k * C)) by ring. lra.
  Qed.
  Lemma snr_time a b T c r : 0 <= T -> 0 <= c -> GetSNR d a b fmin fmax T = Some r -> GetSNR d a b fmin fmax (c * T) = Some (sqrt c * r).
  Proof.
    intros HT Hc. rewrite !snr_is. intros E. injection E as <-. f_equal. rewrite <- sqrt_mult_alt by exact Hc. f_equal. unfold seconds. ring.
  Qed.
End Source.

Section Wave.
  Variable d : gwdata.
  Hypothesis V : valid_wave d.
  Lemma wave_peaks : 0 < g_fsw (set_peaks d) /\ 0 <= g_asw (set_peaks d) /\ 0 < g_ftb (set_peaks d) /\ 0 <= g_atb (set_peaks d) /\ 0 < g_Hstar (set_peaks d).
  Proof.
    destruct V as (T & H & G & K & L & S). destruct (peaks_pos d T H G K) as [A B]. change (0 < peak_f_sw d /\ 0 <= peak_a_sw d /\ 0 < peak_f_tb d /\ 0 <= peak_a_tb d /\ 0 < g_Hstar d).
    split; [exact A|]. split; [lra|].
    assert (X : 0 < peak_f_tb d).
    { unfold peak_f_tb. assert (I : 0 < 1 / g_HR d) by (apply Rdiv_lt_0_compat; lra). assert (0 < cpow (g_gstar d / 100) (1 / 6)) by (apply cpow_gt0; lra).
      apply Rmult_lt_0_compat; [|assumption]. apply Rmult_lt_0_compat; [|lra]. nra. }
    split; [exact X|]. split; [|exact S]. destruct L as [L|L]; [apply Rlt_le, (peaks_pos_tb d T H G L)|]. unfold peak_a_tb, cpow at 2. destruct (Rlt_dec 0 (g_Kturb d)); lra.
  Qed.
  Theorem wave_def a b fmin fmax T : 0 < fmin -> fmin <= fmax -> 0 <= T ->
    exists omega rho, (forall f, snd (CalcGWAmplitude (set_peaks d) f a b) = Some (omega f)) /\
      GetSNR (set_peaks d) a b fmin fmax T = Some rho /\ signal_to_noise omega fmin fmax T rho.
  Proof. intros. apply snr_def; auto using init_sw_fix, init_tb_fix, wave_peaks. Qed.
  Theorem wave_combined fmin fmax T s t r : 0 < fmin -> fmin <= fmax -> 0 <= T ->
    GetSNR (set_peaks d) true false fmin fmax T = Some s -> GetSNR (set_peaks d) false true fmin fmax T = Some t -> GetSNR (set_peaks d) true true fmin fmax T = Some r ->
    s ^ 2 + t ^ 2 <= r ^ 2 /\ r <= s + t.
  Proof. intros. eapply snr_combined; eauto using init_sw_fix, init_tb_fix, wave_peaks. Qed.
  Theorem wave_time a b fmin fmax T c r : 0 < fmin -> fmin <= fmax -> 0 <= T -> 0 <= c ->
    GetSNR (set_peaks d) a b fmin fmax T = Some r -> GetSNR (set_peaks d) a b fmin fmax (c * T) = Some (sqrt c * r).
  Proof. intros. eapply snr_time; eauto using init_sw_fix, init_tb_fix, wave_peaks. Qed.
  Theorem wave_band a b f0 f1 f2 T r r1 r2 : 0 < f0 -> f0 <= f1 -> f1 <= f2 -> 0 <= T ->
    GetSNR (set_peaks d) a b f0 f2 T = Some r -> GetSNR (set_peaks d) a b f0 f1 T = Some r1 -> GetSNR (set_peaks d) a b f1 f2 T = Some r2 ->
    r ^ 2 = r1 ^ 2 + r2 ^ 2.
  Proof.
    intros A B C HT E E1 E2. pose proof (init_sw_fix d) as X. pose proof (init_tb_fix d) as Y. pose proof wave_peaks as Z.
    rewrite snr_is in E by (auto; lra). rewrite snr_is in E1 by (auto; lra). rewrite snr_is in E2 by (auto; lra).
    injection E as <-. injection E1 as <-. injection E2 as <-.
    assert (S : 0 <= seconds T) by (unfold seconds; lra).
    assert (N : I2 (set_peaks d) f0 f2 a b a b = I2 (set_peaks d) f0 f1 a b a b + I2 (set_peaks d) f1 f2 a b a b).
    { unfold I2. symmetry. apply (RInt_Chasles (V := R_CompleteNormedModule)); apply ex_prod; auto; lra. }
    rewrite <- !Rsqr_pow2, !Rsqr_sqrt; [rewrite N; ring| | |]; apply Rmult_le_pos; try exact S; apply I2_nonneg; auto; lra.
  Qed.
End Wave.
