(** Decay rate and fraction of the false vacuum. *)
From Coq Require Import Reals Lra Lia.
From Coquelicot Require Import Coquelicot.
From Verif Require Import Model.DecayRate Spec.DecayRateSpec.
Open Scope R_scope.

Lemma MPl_pos : 0 < MPl.
Proof. unfold MPl. assert (0 < 10 ^ 18) by (apply pow_lt; lra). lra. Qed.
Lemma sqrt90_pos : 0 < sqrt 90.
Proof. apply sqrt_lt_R0; lra. Qed.
Lemma Hubble_pos : forall g T, 0 < g -> 0 < T -> 0 < HubbleRate g T.
Proof.
  intros g T G H. unfold HubbleRate. pose proof PI_RGT_0. pose proof MPl_pos. pose proof sqrt90_pos.
  apply Rdiv_lt_0_compat; [|assumption]. apply Rmult_lt_0_compat; [|apply pow_lt, H]. apply Rdiv_lt_0_compat; [|assumption].
  apply Rmult_lt_0_compat; [assumption|apply sqrt_lt_R0, G].
Qed.
Lemma friedmann : forall g T, 0 < g -> 3 * MPl ^ 2 * HubbleRate g T ^ 2 = radiation g T.
Proof.
  intros g T G. unfold HubbleRate, radiation. pose proof MPl_pos. pose proof sqrt90_pos.
  replace (3 * MPl ^ 2 * (PI * sqrt g / sqrt 90 * T ^ 2 / MPl) ^ 2) with (3 * PI ^ 2 * (sqrt g * sqrt g) / (sqrt 90 * sqrt 90) * T ^ 4) by (field; lra).
  rewrite !sqrt_sqrt by lra. field.
Qed.
Lemma gstar_count : forall n, GstarPureRad n = effective (bosons_symmetric (INR n)) fermions + 3 /\ bosons_symmetric (INR n) = bosons_broken (INR n).
Proof. intros n. unfold GstarPureRad, effective, bosons_symmetric, bosons_broken, fermions. split; [field|ring]. Qed.

(** * Rate *)
Lemma pow_3_2_pos : forall x, 0 <= x -> 0 <= pow_3_2 x.
Proof. intros x H. unfold pow_3_2. apply Rmult_le_pos; [exact H|apply sqrt_pos]. Qed.
Lemma rate_pos : forall a b S T, 0 < T -> 0 <= TunnelingRate a b S T.
Proof.
  intros a b S T H. unfold TunnelingRate. destruct (Rlt_dec T a); [lra|]. destruct (Rlt_dec b T); [lra|]. destruct (Rlt_dec (S T) 0); [apply pow_le; lra|].
  pose proof PI_RGT_0. apply Rmult_le_pos; [|apply Rlt_le, exp_pos]. apply Rmult_le_pos; [apply pow_le; lra|]. apply pow_3_2_pos.
  apply Rmult_le_pos; [lra|]. apply Rlt_le, Rinv_0_lt_compat. apply Rmult_lt_0_compat; lra.
Qed.
(** x^(3/2) e^-x <= (3/2)^(3/2) e^(-3/2); squared: x^3 e^-2x *)
Lemma cube_exp : forall y, 0 <= y -> y ^ 3 * exp (- (2 * y)) <= (3 / 2) ^ 3 * exp (- 3).
Proof.
  intros y H. destruct (Req_dec y 0) as [-> |N].
  - replace (0 ^ 3) with 0 by ring. rewrite Rmult_0_l. apply Rmult_le_pos; [lra|apply Rlt_le, exp_pos].
  - assert (P : 0 < y) by lra. assert (E : 1 + (2 / 3 * y - 1) <= exp (2 / 3 * y - 1)) by apply exp_ineq1_le.
    replace (1 + (2 / 3 * y - 1)) with (2 / 3 * y) in E by ring.
    assert (C : (2 / 3 * y) ^ 3 <= exp (2 / 3 * y - 1) ^ 3) by (apply pow_incr; lra).
    assert (X : exp (2 / 3 * y - 1) ^ 3 = exp (2 * y) * exp (-3)).
    { rewrite <- exp_plus. cbn [pow]. rewrite Rmult_1_r, <- !exp_plus. f_equal. field. }
    rewrite X in C. assert (EP := exp_pos (2 * y)). rewrite exp_Ropp.
    apply (Rmult_le_reg_r (exp (2 * y))); [exact EP|]. replace (y ^ 3 * / exp (2 * y) * exp (2 * y)) with (y ^ 3) by (field; lra).
    replace (y ^ 3) with ((3 / 2) ^ 3 * (2 / 3 * y) ^ 3) by field. rewrite !Rmult_assoc. apply Rmult_le_compat_l; [lra|]. lra.
Qed.
Lemma exp_m3 : exp (-3) <= / 8.
Proof.
  replace (-3) with (- (3)) by ring; rewrite exp_Ropp. apply Rinv_le_contravar; [lra|]. pose proof (exp_ineq1_le 1) as A.
  replace 3 with (1 + 1 + 1) by ring. rewrite !exp_plus. assert (4 <= exp 1 * exp 1) by (apply (Rle_trans _ (2 * 2)); [lra|apply Rmult_le_compat; lra]).
  apply (Rle_trans _ (4 * 2)); [lra|apply Rmult_le_compat; lra].
Qed.
Lemma rate_bound : forall a b S T, 0 < T -> 0 <= S T -> TunnelingRate a b S T <= T ^ 4.
Proof.
  intros a b S T H P. assert (T4 : 0 < T ^ 4) by (apply pow_lt, H). unfold TunnelingRate. destruct (Rlt_dec T a); [lra|]. destruct (Rlt_dec b T); [lra|]. destruct (Rlt_dec (S T) 0); [lra|].
  rewrite Rmult_assoc. rewrite <- (Rmult_1_r (T ^ 4)) at 2. apply Rmult_le_compat_l; [lra|].
  set (y := S T / T). assert (Y : 0 <= y) by (apply Rmult_le_pos; [lra|apply Rlt_le, Rinv_0_lt_compat, H]).
  pose proof PI2_3_2 as PB. pose proof PI_RGT_0. replace (S T / (2 * PI * T)) with (y / (2 * PI)) by (unfold y; field; lra).
  replace (- S T / T) with (- y) by (unfold y; field; lra).
  assert (Z : 0 <= y / (2 * PI) <= y).
  { split; [apply Rmult_le_pos; [exact Y|apply Rlt_le, Rinv_0_lt_compat; lra]|]. apply (Rmult_le_reg_r (2 * PI)); [lra|].
    replace (y / (2 * PI) * (2 * PI)) with y by (field; lra). rewrite <- (Rmult_1_r y) at 1. apply Rmult_le_compat_l; lra. }
  assert (Q : (pow_3_2 (y / (2 * PI)) * exp (- y)) ^ 2 <= 1).
  { apply (Rle_trans _ ((3 / 2) ^ 3 * exp (-3))); [|pose proof exp_m3; lra].
    apply (Rle_trans _ (y ^ 3 * exp (- (2 * y)))); [|apply cube_exp, Y]. unfold pow_3_2.
    replace ((y / (2 * PI) * sqrt (y / (2 * PI)) * exp (- y)) ^ 2) with ((y / (2 * PI)) ^ 2 * (sqrt (y / (2 * PI)) * sqrt (y / (2 * PI))) * (exp (- y) * exp (- y))) by ring.
    rewrite sqrt_sqrt by lra. rewrite <- exp_plus. replace (- y + - y) with (- (2 * y)) by ring. apply Rmult_le_compat_r; [apply Rlt_le, exp_pos|].
    replace ((y / (2 * PI)) ^ 2 * (y / (2 * PI))) with ((y / (2 * PI)) ^ 3) by ring. apply pow_incr, Z. }
  destruct (Rle_dec (pow_3_2 (y / (2 * PI)) * exp (- y)) 1) as [?|C]; [assumption|]. exfalso. apply Rnot_le_lt in C.
  assert (1 * 1 < (pow_3_2 (y / (2 * PI)) * exp (- y)) ^ 2) by (replace ((pow_3_2 (y / (2 * PI)) * exp (- y)) ^ 2) with ((pow_3_2 (y / (2 * PI)) * exp (- y)) * (pow_3_2 (y / (2 * PI)) * exp (- y))) by ring; apply Rmult_gt_0_lt_compat; lra). lra.
Qed.
Lemma rate_negative : forall a b S T, a <= T <= b -> S T < 0 -> TunnelingRate a b S T = 10 ^ 100.
Proof. intros a b S T H P. unfold TunnelingRate. destruct (Rlt_dec T a); [lra|]. destruct (Rlt_dec b T); [lra|]. destruct (Rlt_dec (S T) 0); [reflexivity|lra]. Qed.

(** * Fraction *)
Definition K (g : R) : R := sqrt 90 * MPl / (PI * sqrt g).
Lemma K_pos : forall g, 0 < g -> 0 < K g.
Proof.
  intros g G. unfold K. pose proof PI_RGT_0. apply Rdiv_lt_0_compat; apply Rmult_lt_0_compat; try assumption; [apply sqrt90_pos|apply MPl_pos|apply sqrt_lt_R0, G].
Qed.
Lemma inv_hubble : forall g x, 0 < g -> x <> 0 -> 1 / HubbleRate g x = K g / x ^ 2.
Proof.
  intros g x G N. unfold HubbleRate, K. pose proof PI_RGT_0. pose proof MPl_pos. pose proof sqrt90_pos. assert (0 < sqrt g) by (apply sqrt_lt_R0, G).
  field. repeat split; try lra; exact N.
Qed.
Lemma inner_closed : forall g T T', 0 < g -> 0 < T -> T <= T' -> Inner g T T' = K g * (1 / T - 1 / T').
Proof.
  intros g T T' G A B. unfold Inner. apply is_RInt_unique.
  replace (K g * (1 / T - 1 / T')) with (minus (- (K g / T')) (- (K g / T))) by (unfold minus, plus, opp; cbn; field; lra).
  apply (is_RInt_ext (fun x => K g / x ^ 2)).
  { intros x X. rewrite Rmin_left, Rmax_right in X by lra. symmetry. apply inv_hubble; [exact G|lra]. }
  apply (is_RInt_derive (V := R_CompleteNormedModule) (fun x => - (K g / x)) (fun x => K g / x ^ 2)).
  - intros x X. rewrite Rmin_left, Rmax_right in X by lra. auto_derive; [lra|field; lra].
  - intros x X. rewrite Rmin_left, Rmax_right in X by lra. apply (ex_derive_continuous (fun x => K g / x ^ 2)). auto_derive. cbn. nra.
Qed.

Section Mono.
  Variables first last Tc g : R.
  Variable S : R -> R.
  Hypothesis G : 0 < g.
  Hypothesis F : 0 < first.
  Hypothesis FL : first <= last.
  Hypothesis LT : last <= Tc.
  Hypothesis SP : forall T, first <= T <= last -> 0 <= S T.
  Hypothesis SC : forall T, 0 < T -> continuous S T.

  Definition gamma (T : R) : R := T ^ 4 * pow_3_2 (S T / (2 * PI * T)) * exp (- S T / T).
  Definition weight (T x : R) : R := / (x ^ 4 * HubbleRate g x) * (K g * (1 / T - 1 / x)) ^ 3.
  Lemma cont_mult : forall f h x, continuous f x -> continuous h x -> continuous (fun y : R => f y * h y) x.
  Proof using. intros f h x A B. apply (continuous_mult (K := R_AbsRing) f h x A B). Qed.
  Lemma cont_inv : forall f x, continuous f x -> f x <> 0 -> continuous (fun y : R => / f y) x.
  Proof using. intros f x A B. apply (continuous_comp f Rinv); [exact A|]. apply continuity_pt_filterlim, continuity_pt_inv; [apply continuity_pt_id|exact B]. Qed.
  Lemma gamma_cont : forall x, 0 < x -> continuous gamma x.
  Proof using SC.
    intros x X. pose proof PI_RGT_0. unfold gamma. apply cont_mult; [apply cont_mult|].
    - apply (ex_derive_continuous (fun y => y ^ 4)). auto_derive. exact I.
    - unfold pow_3_2. assert (A : continuous (fun y => S y / (2 * PI * y)) x).
      { unfold Rdiv. apply cont_mult; [apply SC, X|]. apply cont_inv; [|nra]. apply (ex_derive_continuous (fun y => 2 * PI * y)). auto_derive. exact I. }
      apply cont_mult; [exact A|]. apply (continuous_comp (fun y => S y / (2 * PI * y)) sqrt); [exact A|apply continuous_sqrt].
    - apply (continuous_comp (fun y => - S y / y) exp); [|apply (ex_derive_continuous exp); auto_derive; exact I].
      unfold Rdiv. apply cont_mult; [apply (continuous_opp S x), SC, X|]. apply cont_inv; [apply continuous_id|lra].
  Qed.
  Lemma weight_cont : forall T x, 0 < T -> 0 < x -> continuous (weight T) x.
  Proof using G.
    intros T x A X. unfold weight. apply cont_mult.
    - apply (cont_inv (fun y => y ^ 4 * HubbleRate g y)).
      + unfold HubbleRate. apply (ex_derive_continuous (fun y => y ^ 4 * (PI * sqrt g / sqrt 90 * y ^ 2 / MPl))). auto_derive. exact I.
      + apply Rgt_not_eq, Rmult_lt_0_compat; [apply pow_lt, X|apply Hubble_pos; assumption].
    - apply (ex_derive_continuous (fun y => (K g * (1 / T - 1 / y)) ^ 3)). auto_derive. lra.
  Qed.
  Lemma weight_nonneg : forall T x, 0 < T -> T <= x -> 0 <= weight T x.
  Proof using G.
    intros T x A X. unfold weight. apply Rmult_le_pos.
    - apply Rlt_le, Rinv_0_lt_compat, Rmult_lt_0_compat; [apply pow_lt; lra|apply Hubble_pos; lra].
    - apply pow_le, Rmult_le_pos; [apply Rlt_le, K_pos, G|]. unfold Rdiv. rewrite !Rmult_1_l. assert (/ x <= / T) by (apply Rinv_le_contravar; lra). lra.
  Qed.
  Lemma weight_mono : forall T1 T2 x, 0 < T1 -> T1 <= T2 -> T2 <= x -> weight T2 x <= weight T1 x.
  Proof using G.
    intros T1 T2 x A B C. unfold weight. apply Rmult_le_compat_l.
    - apply Rlt_le, Rinv_0_lt_compat, Rmult_lt_0_compat; [apply pow_lt; lra|apply Hubble_pos; lra].
    - apply pow_incr. assert (KP := K_pos g G). assert (/ x <= / T2) by (apply Rinv_le_contravar; lra). assert (/ T2 <= / T1) by (apply Rinv_le_contravar; lra).
      unfold Rdiv. rewrite !Rmult_1_l. split; [apply Rmult_le_pos; lra|apply Rmult_le_compat_l; lra].
  Qed.
  Lemma outer_eq : forall T x, 0 < T -> T <= x -> outer_integrand first last g S T x = TunnelingRate first last S x * weight T x.
  Proof using G.
    intros T x A B. unfold outer_integrand, weight. rewrite inner_closed by assumption. unfold Rdiv. ring.
  Qed.
  (** the integrand is integrable: it is continuous between first and last and zero elsewhere *)
  Lemma ex_piece : forall T a b, 0 < T -> 0 < a -> a <= b -> (b <= first \/ last <= a \/ first <= a /\ b <= last) ->
    ex_RInt (fun x => TunnelingRate first last S x * weight T x) a b.
  Proof using G SC SP.
    intros T a b A P B [H|[H|[H1 H2]]].
    - apply (ex_RInt_ext (fun _ => 0)); [|apply ex_RInt_const]. intros x X. rewrite Rmin_left, Rmax_right in X by lra.
      unfold TunnelingRate. destruct (Rlt_dec x first); [rewrite Rmult_0_l; reflexivity|lra].
    - apply (ex_RInt_ext (fun _ => 0)); [|apply ex_RInt_const]. intros x X. rewrite Rmin_left, Rmax_right in X by lra.
      unfold TunnelingRate. destruct (Rlt_dec x first); [rewrite Rmult_0_l; reflexivity|]. destruct (Rlt_dec last x); [rewrite Rmult_0_l; reflexivity|lra].
    - apply (ex_RInt_ext (fun x => gamma x * weight T x)).
      + intros x X. rewrite Rmin_left, Rmax_right in X by lra. unfold TunnelingRate, gamma. destruct (Rlt_dec x first); [lra|]. destruct (Rlt_dec last x); [lra|].
        destruct (Rlt_dec (S x) 0); [|reflexivity]. exfalso. assert (0 <= S x) by (apply SP; lra). lra.
      + apply (ex_RInt_continuous (V := R_CompleteNormedModule)). intros x X. rewrite Rmin_left, Rmax_right in X by lra.
        apply cont_mult; [apply gamma_cont; lra|apply weight_cont; lra].
  Qed.
  Lemma ex_all : forall T a, 0 < T -> 0 < a -> a <= Tc -> ex_RInt (fun x => TunnelingRate first last S x * weight T x) a Tc.
  Proof using All.
    intros T a A P B. set (f := fun x => TunnelingRate first last S x * weight T x).
    assert (E : forall a b, 0 < a -> a <= b -> (b <= first \/ last <= a \/ first <= a /\ b <= last) -> ex_RInt f a b) by (intros u v U V W; apply ex_piece; assumption).
    destruct (Rle_dec last a) as [H|H]; [apply E; [lra|lra|right; left; exact H]|]. apply Rnot_le_lt in H.
    apply (ex_RInt_Chasles f a last Tc); [|apply E; [lra|lra|right; left; lra]].
    destruct (Rle_dec first a) as [Q|Q]; [apply E; [lra|lra|right; right; lra]|]. apply Rnot_le_lt in Q.
    apply (ex_RInt_Chasles f a first last); [apply E; [lra|lra|left; lra]|apply E; [lra|lra|right; right; lra]].
  Qed.
  Lemma outer_RInt : forall T, 0 < T -> T <= Tc -> Outer first last Tc g S T = RInt (fun x => TunnelingRate first last S x * weight T x) T Tc.
  Proof using G. intros T A B. unfold Outer. apply RInt_ext. intros x X. rewrite Rmin_left, Rmax_right in X by lra. apply outer_eq; lra. Qed.
  Lemma outer_nonneg : forall T, 0 < T -> T <= Tc -> 0 <= Outer first last Tc g S T.
  Proof using All.
    intros T A B. rewrite outer_RInt by assumption. apply RInt_ge_0; [exact B|apply ex_all; assumption|].
    intros x X. apply Rmult_le_pos; [apply rate_pos; lra|apply weight_nonneg; lra].
  Qed.
  Lemma outer_mono : forall T1 T2, 0 < T1 -> T1 <= T2 -> T2 <= Tc -> Outer first last Tc g S T2 <= Outer first last Tc g S T1.
  Proof using All.
    intros T1 T2 A B C. rewrite !outer_RInt by lra.
    assert (E2 := ex_all T1 T2 A ltac:(lra) C). assert (E := ex_all T1 T1 A A ltac:(lra)).
    assert (E1 : ex_RInt (fun x => TunnelingRate first last S x * weight T1 x) T1 T2) by (apply (ex_RInt_Chasles_1 (V := R_CompleteNormedModule) _ T1 T2 Tc); [lra|exact E]).
    rewrite <- (RInt_Chasles (V := R_CompleteNormedModule) _ T1 T2 Tc E1 E2). unfold plus; cbn.
    assert (P : 0 <= RInt (fun x => TunnelingRate first last S x * weight T1 x) T1 T2).
    { apply RInt_ge_0; [exact B|exact E1|]. intros x X. apply Rmult_le_pos; [apply rate_pos; lra|apply weight_nonneg; lra]. }
    assert (Q : RInt (fun x => TunnelingRate first last S x * weight T2 x) T2 Tc <= RInt (fun x => TunnelingRate first last S x * weight T1 x) T2 Tc).
    { apply RInt_le; [exact C|apply ex_all; lra|exact E2|]. intros x X. apply Rmult_le_compat_l; [apply rate_pos; lra|apply weight_mono; lra]. }
    eapply Rle_trans; [exact Q|]. match goal with |- _ <= ?y + ?z => change (z <= y + z) end.
    match goal with |- ?z <= ?y + ?z => change (0 <= y) in P; apply (Rle_trans _ (0 + z)); [right; symmetry; apply Rplus_0_l|apply Rplus_le_compat_r, P] end.
  Qed.
End Mono.

(** * Inverse time scale *)
Lemma time_scale : forall S dS T, 0 < T -> 0 < S T -> is_derive S T dS ->
  InvTimeScale S T = dS - S T / T /\
  is_derive (fun x => ln (x ^ 4 * pow_3_2 (S x / (2 * PI * x)) * exp (- S x / x))) T
    ((4 + (3 / 2 * T / S T - 1) * InvTimeScale S T) / T).
Proof.
  intros S dS T H P D. pose proof PI_RGT_0.
  assert (E : InvTimeScale S T = dS - S T / T).
  { unfold InvTimeScale. assert (Q : is_derive (fun x => S x / x) T ((dS * T - S T) / T ^ 2)).
    { auto_derive; [split; [exists dS; exact D|split; [lra|exact I]]|]. replace (Derive (fun x : R => S x) T) with dS by (symmetry; apply is_derive_unique; exact D). field. lra. }
    replace (Derive (fun x : R => S x / x) T) with ((dS * T - S T) / T ^ 2) by (symmetry; apply is_derive_unique; exact Q). field. lra. }
  split; [exact E|]. rewrite E.
  assert (Y : 0 < S T / (2 * PI * T)) by (apply Rdiv_lt_0_compat; [exact P|apply Rmult_lt_0_compat; lra]).
  assert (SQ : 0 < sqrt (S T / (2 * PI * T))) by (apply sqrt_lt_R0, Y).
  assert (T4 : 0 < T ^ 4) by (apply pow_lt, H). assert (EX := exp_pos (- S T / T)).
  unfold pow_3_2. auto_derive.
  - repeat split; try (exists dS; exact D); try lra; try exact Y; try (apply Rgt_not_eq, Rmult_lt_0_compat; lra).
    apply Rmult_lt_0_compat; [|exact EX]. apply Rmult_lt_0_compat; [exact T4|]. apply Rmult_lt_0_compat; assumption.
  - replace (Derive (fun x : R => S x) T) with dS by (symmetry; apply is_derive_unique; exact D). set (q := sqrt (S T * / (2 * PI * T))). 
    assert (QQ : q * q = S T * / (2 * PI * T)) by (apply sqrt_sqrt; unfold Rdiv in Y; lra).
    assert (ST : S T = q * q * (2 * PI * T)) by (rewrite QQ; field; lra).
    assert (QN : q <> 0) by (unfold q; unfold Rdiv in SQ; lra). set (e := exp (- S T * / T)). assert (EN : e <> 0) by (apply Rgt_not_eq, exp_pos).
    replace (S T) with (q * q * (2 * PI * T)). field. repeat split; lra.
Qed.

Lemma rate_formula : forall a b S T, a <= T <= b -> 0 < T -> 0 <= S T ->
  0 <= TunnelingRate a b S T /\ TunnelingRate a b S T ^ 2 = T ^ 8 * (S T / (2 * PI * T)) ^ 3 * exp (- 2 * S T / T).
Proof.
  intros a b S T H P Q. split; [apply rate_pos, P|]. pose proof PI_RGT_0. unfold TunnelingRate. destruct (Rlt_dec T a); [lra|]. destruct (Rlt_dec b T); [lra|].
  destruct (Rlt_dec (S T) 0); [lra|]. unfold pow_3_2. set (y := S T / (2 * PI * T)).
  assert (Y : 0 <= y) by (apply Rmult_le_pos; [lra|apply Rlt_le, Rinv_0_lt_compat, Rmult_lt_0_compat; lra]).
  replace (exp (- 2 * S T / T)) with (exp (- S T / T) * exp (- S T / T)) by (rewrite <- exp_plus; f_equal; field; lra).
  replace ((T ^ 4 * (y * sqrt y) * exp (- S T / T)) ^ 2) with (T ^ 8 * (y ^ 2 * (sqrt y * sqrt y)) * (exp (- S T / T) * exp (- S T / T))) by ring.
  rewrite sqrt_sqrt by exact Y. ring.
Qed.
Lemma fraction_all : forall first last Tc g S, 0 < g -> 0 < first -> first <= last -> last <= Tc ->
  (forall T, first <= T <= last -> 0 <= S T) -> (forall T, 0 < T -> continuous S T) ->
  forall v, 0 <= v -> let P := FalseVacFraction first last Tc g v S in
  P Tc = 1 /\ (forall T, 0 < T -> T <= Tc -> 0 < P T <= 1) /\ (forall T1 T2, 0 < T1 -> T1 <= T2 -> T2 <= Tc -> P T1 <= P T2) /\
  (forall v' T, v <= v' -> 0 < T -> T <= Tc -> FalseVacFraction first last Tc g v' S T <= P T).
Proof.
  intros first last Tc g S G F FL LT SP SC v V P. pose proof PI_RGT_0.
  assert (A : 0 <= 4 * PI / 3 * v ^ 3) by (apply Rmult_le_pos; [lra|apply pow_le, V]).
  split; [|split; [|split]].
  - unfold P, FalseVacFraction, Outer. rewrite RInt_point. unfold zero; cbn. rewrite Rmult_0_r. apply exp_0.
  - intros T H1 H2. split; [apply exp_pos|]. unfold P, FalseVacFraction. rewrite <- exp_0.
    assert (N := outer_nonneg first last Tc g S G F FL LT SP SC T H1 H2).
    assert (M : 0 <= 4 * PI / 3 * v ^ 3 * Outer first last Tc g S T) by (apply Rmult_le_pos; assumption).
    destruct M as [M|M]; [apply Rlt_le, exp_increasing; lra|]. right. f_equal. lra.
  - intros T1 T2 H1 H2 H3. unfold P, FalseVacFraction. assert (N := outer_mono first last Tc g S G F FL LT SP SC T1 T2 H1 H2 H3).
    assert (M : 4 * PI / 3 * v ^ 3 * Outer first last Tc g S T2 <= 4 * PI / 3 * v ^ 3 * Outer first last Tc g S T1) by (apply Rmult_le_compat_l; assumption).
    destruct M as [M|M]; [apply Rlt_le, exp_increasing; lra|]. right. f_equal. lra.
  - intros v' T L H1 H2. unfold P, FalseVacFraction. assert (N := outer_nonneg first last Tc g S G F FL LT SP SC T H1 H2).
    assert (C : v ^ 3 <= v' ^ 3) by (apply pow_incr; lra).
    assert (M : 4 * PI / 3 * v ^ 3 * Outer first last Tc g S T <= 4 * PI / 3 * v' ^ 3 * Outer first last Tc g S T).
    { apply Rmult_le_compat_r; [exact N|]. apply Rmult_le_compat_l; [lra|exact C]. }
    destruct M as [M|M]; [apply Rlt_le, exp_increasing; lra|]. right. f_equal. lra.
Qed.

Lemma fraction_formula first last Tc g S v T : 0 < g -> 0 < T -> T <= Tc ->
  FalseVacFraction first last Tc g v S T =
  exp (- (4 / 3 * PI * v ^ 3) * RInt (fun x => TunnelingRate first last S x / (x ^ 4 * HubbleRate g x) * (sqrt 90 * MPl / (PI * sqrt g) * (1 / T - 1 / x)) ^ 3) T Tc).
Proof.
  intros G A B. unfold FalseVacFraction, Outer. f_equal. f_equal; [field|]. apply RInt_ext. intros x X. rewrite Rmin_left in X by exact B. unfold outer_integrand.
  rewrite inner_closed by lra. reflexivity.
Qed.
