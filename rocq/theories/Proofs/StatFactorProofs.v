(** Proofs about the statistical factor of the transport equations. *)
From Coq Require Import Reals Lra.
From Coquelicot Require Import Coquelicot.
From Verif Require Import Model.WallMasses.
Open Scope R_scope.

Definition kf (a x : R) : R := 6 / (PI * PI) * (x * exp x * sqrt (x * x - a ^ 2) / (exp x + 1) ^ 2).
Definition K (a : R) : R := if Rlt_dec (a + / 100000) (3 * 100) then RInt (kf a) (a + / 100000) (3 * 100) else 0.
Lemma kappa_K T m : NIntegrate_kappa T m = K (m / T).
Proof. reflexivity. Qed.
Lemma pref_pos : 0 < 6 / (PI * PI).
Proof. generalize PI_RGT_0. generalize PI. intros q Q. apply Rdiv_lt_0_compat; [lra|]. apply Rmult_lt_0_compat; exact Q. Qed.
Lemma arg_pos a x : 0 <= a -> a < x -> 0 < x * x - a ^ 2.
Proof. intros A X. replace (x * x - a ^ 2) with ((x - a) * (x + a)) by ring. apply Rmult_lt_0_compat; lra. Qed.
Lemma kf_cont a x : 0 <= a -> a < x -> continuous (kf a) x.
Proof.
  intros A X. pose proof (arg_pos a x A X) as P. apply (ex_derive_continuous (kf a)). unfold kf. generalize (6 / (PI * PI)). intros c. auto_derive.
  pose proof (exp_pos x). replace (x * x + - a ^ 2) with (x * x - a ^ 2) by ring. split; [exact P|]. split; [|exact I]. cbn. apply Rgt_not_eq. repeat apply Rmult_lt_0_compat; lra.
Qed.
Lemma kf_pos a x : 0 <= a -> a < x -> 0 < kf a x.
Proof.
  intros A X. pose proof (arg_pos a x A X) as P. unfold kf. apply Rmult_lt_0_compat; [apply pref_pos|]. pose proof (exp_pos x).
  apply Rdiv_lt_0_compat; [|apply pow_lt; lra]. apply Rmult_lt_0_compat; [apply Rmult_lt_0_compat; lra|apply sqrt_lt_R0; exact P].
Qed.
Lemma kf_mass a b x : 0 <= a -> a < b -> b < x -> kf b x < kf a x.
Proof.
  intros A B X. unfold kf. apply Rmult_lt_compat_l; [apply pref_pos|]. pose proof (exp_pos x). apply Rmult_lt_compat_r; [apply Rinv_0_lt_compat, pow_lt; lra|].
  apply Rmult_lt_compat_l; [apply Rmult_lt_0_compat; lra|]. assert (a ^ 2 < b ^ 2). { replace (b ^ 2) with (a ^ 2 + (b - a) * (b + a)) by ring. assert (0 < (b - a) * (b + a)) by (apply Rmult_lt_0_compat; lra). lra. }
  apply sqrt_lt_1; [apply Rlt_le, arg_pos; lra|apply Rlt_le, arg_pos; lra|lra].
Qed.
Lemma ex_kf a u v : 0 <= a -> a < u -> u <= v -> ex_RInt (kf a) u v.
Proof.
  intros A U W. apply (ex_RInt_continuous (V := R_CompleteNormedModule)). intros x X. rewrite Rmin_left in X by exact W. apply kf_cont; [exact A|lra].
Qed.
Lemma K_pos a : 0 <= a -> a + / 100000 < 300 -> 0 < K a.
Proof.
  intros A H. unfold K. destruct (Rlt_dec _ _) as [L|L]; [|lra]. apply RInt_gt_0; [exact L| |]; intros x X; [apply kf_pos; lra|apply kf_cont; lra].
Qed.
Lemma K_zero a : 300 <= a + / 100000 -> K a = 0.
Proof. intros H. unfold K. destruct (Rlt_dec _ _) as [L|L]; [lra|reflexivity]. Qed.
Lemma K_decreasing a b : 0 <= a -> a < b -> a + / 100000 < 300 -> K b < K a.
Proof.
  intros A B H. destruct (Rlt_dec (b + / 100000) 300) as [L|L]; [|rewrite (K_zero b) by lra; apply K_pos; lra].
  unfold K. destruct (Rlt_dec (b + / 100000) _) as [L'|L']; [|lra]. destruct (Rlt_dec (a + / 100000) _) as [L2|L2]; [|lra].
  rewrite <- (RInt_Chasles (V := R_CompleteNormedModule) (kf a) (a + / 100000) (b + / 100000) (3 * 100)); [|apply ex_kf; lra|apply ex_kf; lra].
  assert (0 < RInt (kf a) (a + / 100000) (b + / 100000)) by (apply RInt_gt_0; [lra| |]; intros x X; [apply kf_pos; lra|apply kf_cont; lra]).
  assert (RInt (kf b) (b + / 100000) (3 * 100) < RInt (kf a) (b + / 100000) (3 * 100)).
  { apply RInt_lt; [exact L'| | |]; intros x X; [apply kf_cont; lra|apply kf_cont; lra|apply kf_mass; lra]. }
  match goal with |- _ < plus ?u ?v => change (RInt (kf b) (b + / 100000) (3 * 100) < u + v) end. lra.
Qed.
Definition F (x : R) : R := - (6 / (PI * PI)) * ((x ^ 2 + 2 * x + 2) * exp (- x)).
Definition g (x : R) : R := 6 / (PI * PI) * (x ^ 2 * exp (- x)).
Lemma F_derive x : is_derive F x (g x).
Proof. unfold F, g. generalize (6 / (PI * PI)). intros c. auto_derive; [exact I|]. ring. Qed.
Lemma g_cont x : continuous g x.
Proof. apply (ex_derive_continuous g). unfold g. generalize (6 / (PI * PI)). intros c. auto_derive. exact I. Qed.
Lemma kf_g a x : 0 <= a -> a < x -> kf a x <= g x.
Proof.
  intros A X. unfold kf, g. apply Rmult_le_compat_l; [apply Rlt_le, pref_pos|]. pose proof (exp_pos x) as E. rewrite exp_Ropp.
  assert (S : sqrt (x * x - a ^ 2) <= x). { apply Rle_trans with (sqrt (x ^ 2)); [apply sqrt_le_1_alt; pose proof (pow2_ge_0 a); lra|rewrite sqrt_pow2 by lra; lra]. }
  revert E. generalize (exp x). intros e E. apply (Rmult_le_reg_r ((e + 1) ^ 2)); [apply pow_lt; lra|].
  replace (x * e * sqrt (x * x - a ^ 2) / (e + 1) ^ 2 * (e + 1) ^ 2) with (x * e * sqrt (x * x - a ^ 2)) by (field; lra).
  apply Rle_trans with (x * e * x); [apply Rmult_le_compat_l; [apply Rmult_le_pos; lra|exact S]|].
  replace (x ^ 2 * / e * (e + 1) ^ 2) with (x * e * x + x ^ 2 * (2 + / e)) by (field; lra).
  assert (0 <= x ^ 2 * (2 + / e)) by (apply Rmult_le_pos; [apply pow2_ge_0|assert (0 < / e) by (apply Rinv_0_lt_compat; exact E); lra]). lra.
Qed.
Lemma g_int u v : RInt g u v = F v - F u.
Proof. apply (is_RInt_unique (V := R_CompleteNormedModule)). apply (is_RInt_derive F g); intros x _; [apply F_derive|apply g_cont]. Qed.
Lemma F_neg x : 0 <= x -> F x <= 0.
Proof.
  intros X. unfold F. pose proof pref_pos. assert (0 <= (x ^ 2 + 2 * x + 2) * exp (- x)) by (apply Rmult_le_pos; [pose proof (pow2_ge_0 x); lra|apply Rlt_le, exp_pos]).
  assert (0 <= 6 / (PI * PI) * ((x ^ 2 + 2 * x + 2) * exp (- x))) by (apply Rmult_le_pos; lra). lra.
Qed.
Lemma F_inc u v : u <= v -> F u <= F v.
Proof.
  intros U. assert (0 <= RInt g u v). { apply RInt_ge_0; [exact U|apply (ex_RInt_continuous (V := R_CompleteNormedModule)); intros; apply g_cont|].
    intros x X. unfold g. apply Rmult_le_pos; [apply Rlt_le, pref_pos|]. apply Rmult_le_pos; [apply pow2_ge_0|apply Rlt_le, exp_pos]. }
  rewrite g_int in H. lra.
Qed.
Lemma K_bound a : 0 <= a -> K a <= 6 / (PI * PI) * ((a ^ 2 + 2 * a + 2) * exp (- a)).
Proof.
  intros A. assert (B : 0 <= - F a) by (pose proof (F_neg a A); lra). replace (6 / (PI * PI) * ((a ^ 2 + 2 * a + 2) * exp (- a))) with (- F a) by (unfold F; ring).
  unfold K. destruct (Rlt_dec _ _) as [L|L]; [|exact B].
  apply Rle_trans with (RInt g (a + / 100000) (3 * 100)).
  - apply RInt_le; [lra|apply ex_kf; lra|apply (ex_RInt_continuous (V := R_CompleteNormedModule)); intros; apply g_cont|]. intros x X. apply kf_g; lra.
  - rewrite g_int. pose proof (F_neg (3 * 100) ltac:(lra)). pose proof (F_inc a (a + / 100000) ltac:(lra)). lra.
Qed.

Theorem kappa_positive T m : 0 < T -> 0 <= m -> 0 <= NIntegrate_kappa T m /\ (0 < NIntegrate_kappa T m <-> m / T + / 100000 < 300).
Proof.
  intros HT M. rewrite kappa_K. assert (A : 0 <= m / T) by (apply Rmult_le_pos; [exact M|apply Rlt_le, Rinv_0_lt_compat; exact HT]).
  destruct (Rlt_dec (m / T + / 100000) 300) as [L|L].
  - pose proof (K_pos _ A L). split; [lra|tauto].
  - rewrite K_zero by lra. split; [lra|]. split; intros; lra.
Qed.
Theorem kappa_decreasing T m m' : 0 < T -> 0 <= m -> m < m' -> m / T + / 100000 < 300 -> NIntegrate_kappa T m' < NIntegrate_kappa T m.
Proof.
  intros HT M L H. rewrite !kappa_K. assert (I := Rinv_0_lt_compat _ HT). apply K_decreasing; [apply Rmult_le_pos; lra|apply Rmult_lt_compat_r; assumption|exact H].
Qed.
Theorem kappa_suppressed T m : 0 < T -> 0 <= m -> NIntegrate_kappa T m <= 6 / PI ^ 2 * ((m / T) ^ 2 + 2 * (m / T) + 2) * exp (- (m / T)).
Proof.
  intros HT M. rewrite kappa_K. assert (A : 0 <= m / T) by (apply Rmult_le_pos; [exact M|apply Rlt_le, Rinv_0_lt_compat; exact HT]).
  replace (PI ^ 2) with (PI * PI) by ring. rewrite Rmult_assoc. apply K_bound. exact A.
Qed.
Theorem kappa_integral T m : 0 < T -> 0 <= m -> m / T + / 100000 < 300 ->
  is_RInt (fun x => 6 / PI ^ 2 * x * sqrt (x ^ 2 - (m / T) ^ 2) * (exp x / (exp x + 1) ^ 2)) (m / T + / 100000) 300 (NIntegrate_kappa T m).
Proof.
  intros HT M H. rewrite kappa_K. unfold K. destruct (Rlt_dec _ _) as [L|L]; [|lra]. replace (3 * 100) with 300 in * by lra.
  assert (A : 0 <= m / T) by (apply Rmult_le_pos; [exact M|apply Rlt_le, Rinv_0_lt_compat; exact HT]).
  apply (is_RInt_ext (kf (m / T))); [|apply (RInt_correct (V := R_CompleteNormedModule)); apply ex_kf; lra].
  intros x _. unfold kf. replace (PI ^ 2) with (PI * PI) by ring. replace (x ^ 2) with (x * x) by ring. unfold Rdiv.
  match goal with |- ?l = ?r => change (@eq R l r) end. ring.
Qed.
