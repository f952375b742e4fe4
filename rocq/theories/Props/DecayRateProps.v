(** C131: decay rate, expansion rate and the fraction of the false vacuum. *)
From Coq Require Import Reals Lra Lia.
From Coquelicot Require Import Coquelicot.
From Verif Require Import Model.DecayRate Spec.DecayRateSpec Proofs.DecayRateProofs.
Open Scope R_scope.

(** the expansion rate solves the Friedmann equation of a universe filled with radiation *)
Theorem C131_expansion : forall g T, 0 < g -> 0 < T -> 0 < HubbleRate g T /\ 3 * MPl ^ 2 * HubbleRate g T ^ 2 = radiation g T.
Proof. intros g T G H. split; [apply Hubble_pos; assumption|apply friedmann, G]. Qed.
(** within the solutions the rate is T^4 (S3 / 2 pi T)^(3/2) exp (- S3 / T), outside it is zero *)
Theorem C131_rate_partial : forall first last S T, 0 < T ->
  (T < first \/ last < T -> TunnelingRate first last S T = 0) /\
  (first <= T <= last -> 0 <= S T -> 0 <= TunnelingRate first last S T <= T ^ 4 /\
     TunnelingRate first last S T ^ 2 = T ^ 8 * (S T / (2 * PI * T)) ^ 3 * exp (- 2 * S T / T)).
Proof.
  intros first last S T H. split.
  - intros [A|A]; unfold TunnelingRate; [destruct (Rlt_dec T first); [reflexivity|lra]|].
    destruct (Rlt_dec T first); [reflexivity|]. destruct (Rlt_dec last T); [reflexivity|lra].
  - intros A B. destruct (rate_formula first last S T A H B) as [C D]. split; [split; [exact C|apply rate_bound; assumption]|exact D].
Qed.
(** the comment of a negative action says that the rate is killed; it becomes larger than for every action that is not negative *)
Theorem C131_negative_refuted : forall first last S T, first <= T <= last -> 0 < T < 10 ^ 24 -> S T < 0 ->
  TunnelingRate first last S T = 10 ^ 100 /\ forall S', 0 <= S' T -> TunnelingRate first last S' T < TunnelingRate first last S T.
Proof.
  intros first last S T A B N. rewrite rate_negative by assumption. split; [reflexivity|]. intros S' P.
  apply (Rle_lt_trans _ (T ^ 4)); [apply rate_bound; lra|]. apply (Rle_lt_trans _ ((10 ^ 24) ^ 4)); [apply pow_incr; lra|].
  rewrite <- pow_mult. apply Rlt_pow; [lra|lia].
Qed.
(** the number of degrees of freedom is three too large in every model: three polarisations of the massive gauge bosons and the
    three would-be Goldstone bosons are both counted; 109.75 in the standard model *)
Theorem C131_degrees_refuted : (forall n, GstarPureRad n = effective (bosons_symmetric (INR n)) fermions + 3 /\ bosons_symmetric (INR n) = bosons_broken (INR n)) /\
  effective (bosons_symmetric 4) fermions = 10675 / 100 /\ GstarPureRad 4 = 10975 / 100.
Proof. split; [exact gstar_count|]. unfold effective, bosons_symmetric, fermions, GstarPureRad. cbn [INR]. split; lra. Qed.

(** For every continuous action that is not negative: the fraction is 1 at the critical temperature, lies between 0 and 1 and
    does not grow while the universe cools; faster walls leave less of the false vacuum. *)
Theorem C131_fraction : forall first last Tc g S, 0 < g -> 0 < first -> first <= last -> last <= Tc ->
  (forall T, first <= T <= last -> 0 <= S T) -> (forall T, 0 < T -> continuous S T) ->
  forall v, 0 <= v -> let P := FalseVacFraction first last Tc g v S in
  P Tc = 1 /\ (forall T, 0 < T -> T <= Tc -> 0 < P T <= 1) /\ (forall T1 T2, 0 < T1 -> T1 <= T2 -> T2 <= Tc -> P T1 <= P T2) /\
  (forall v' T, v <= v' -> 0 < T -> T <= Tc -> FalseVacFraction first last Tc g v' S T <= P T).
Proof. exact fraction_all. Qed.
(** the fraction is exp(-I), where I sums over the bubbles nucleated at x > T the volume of a ball that grew since then *)
Theorem C131_formula : forall first last Tc g S v T, 0 < g -> 0 < T -> T <= Tc ->
  FalseVacFraction first last Tc g v S T =
  exp (- (4 / 3 * PI * v ^ 3) * RInt (fun x => TunnelingRate first last S x / (x ^ 4 * HubbleRate g x) * (sqrt 90 * MPl / (PI * sqrt g) * (1 / T - 1 / x)) ^ 3) T Tc).
Proof. exact fraction_formula. Qed.
(** ... so that percolation comes before completion *)
Theorem C131_order : forall first last Tc g S v Tp Tcompl, 0 < g -> 0 < first -> first <= last -> last <= Tc ->
  (forall T, first <= T <= last -> 0 <= S T) -> (forall T, 0 < T -> continuous S T) -> 0 <= v ->
  0 < Tp <= Tc -> 0 < Tcompl <= Tc -> FalseVacFraction first last Tc g v S Tcompl < FalseVacFraction first last Tc g v S Tp -> Tcompl < Tp.
Proof.
  intros first last Tc g S v Tp Tk G F FL LT SP SC V [A1 A2] [B1 B2] H. destruct (fraction_all first last Tc g S G F FL LT SP SC v V) as (_ & _ & M & _).
  apply Rnot_le_lt. intros L. assert (C := M Tp Tk A1 L B2). lra.
Qed.
(** the comoving distance a wall travels at the speed of light between two temperatures *)
Theorem C131_distance : forall g T T', 0 < g -> 0 < T -> T <= T' -> Inner g T T' = sqrt 90 * MPl / (PI * sqrt g) * (1 / T - 1 / T').
Proof. exact inner_closed. Qed.
(** the inverse time scale is the derivative of S3 / T, and the logarithmic derivative of the rate up to that of the prefactor *)
Theorem C131_time_scale : forall S dS T, 0 < T -> 0 < S T -> is_derive S T dS ->
  InvTimeScale S T = dS - S T / T /\
  is_derive (fun x => ln (x ^ 4 * pow_3_2 (S x / (2 * PI * x)) * exp (- S x / x))) T
    ((4 + (3 / 2 * T / S T - 1) * InvTimeScale S T) / T).
Proof. exact time_scale. Qed.

Example C131_nonvacuous : 0 < 100 /\ (forall T, 50 <= T <= 80 -> 0 <= (fun T => T * T) T) /\ (forall T, 0 < T -> continuous (fun T : R => T * T) T) /\
  FalseVacFraction 50 80 90 100 1 (fun T => T * T) 90 = 1 /\ 0 < TunnelingRate 50 80 (fun T => T * T) 60.
Proof.
  assert (C : forall T, 0 < T -> continuous (fun T : R => T * T) T) by (intros T _; apply (ex_derive_continuous (fun T => T * T)); auto_derive; exact I).
  assert (P : forall T, 50 <= T <= 80 -> 0 <= (fun T => T * T) T) by (intros T H; apply Rmult_le_pos; lra).
  split; [lra|]. split; [exact P|]. split; [exact C|]. split.
  - destruct (C131_fraction 50 80 90 100 (fun T => T * T)) with (v := 1) as [E _]; try lra; assumption.
  - unfold TunnelingRate. destruct (Rlt_dec 60 50); [lra|]. destruct (Rlt_dec 80 60); [lra|]. destruct (Rlt_dec (60 * 60) 0); [lra|].
    pose proof PI_RGT_0. assert (0 < 60 * 60 / (2 * PI * 60)) by (apply Rdiv_lt_0_compat; lra).
    apply Rmult_lt_0_compat; [|apply exp_pos]. apply Rmult_lt_0_compat; [lra|]. unfold pow_3_2. apply Rmult_lt_0_compat; [assumption|apply sqrt_lt_R0; assumption].
Qed.
Example C131_nonvacuous_time_scale : is_derive (fun T : R => T * T * T) 10 300 /\ InvTimeScale (fun T => T * T * T) 10 = 200.
Proof.
  assert (D : is_derive (fun T : R => T * T * T) 10 300) by (auto_derive; [exact I|ring]). split; [exact D|].
  destruct (C131_time_scale (fun T => T * T * T) 300 10 ltac:(lra) ltac:(cbv beta; lra) D) as [E _]. rewrite E. field.
Qed.
Example C131_nonvacuous_negative : TunnelingRate 50 80 (fun _ => -1) 60 = 10 ^ 100.
Proof. apply (C131_negative_refuted 50 80 (fun _ => -1) 60); lra. Qed.

Print Assumptions C131_expansion.
Print Assumptions C131_rate_partial.
Print Assumptions C131_negative_refuted.
Print Assumptions C131_degrees_refuted.
Print Assumptions C131_fraction.
Print Assumptions C131_formula.
Print Assumptions C131_order.
Print Assumptions C131_distance.
Print Assumptions C131_time_scale.
