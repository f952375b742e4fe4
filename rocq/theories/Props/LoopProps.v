(** C57, C58: one-loop mass functions. *)
From Coq Require Import Reals Lra ZArith.
From Verif.Model Require Import Base Loop.
From Verif.Spec Require Import LoopSpec.
From Verif.Proofs Require Import DerivLib LoopProofs.
Open Scope R_scope.

(** ** C57 *)
Theorem C57_cw_derivative :
  forall scale cb m, Rabs m <> 1 / 10000 ->
    derivable_pt_lim (fun y => CWTerm scale y cb 0) m (CWTerm scale m cb 1).
Proof.
  intros scale cb m N. change (1 / 10000) with CW_threshold in N. destruct (Rlt_dec (Rabs m) CW_threshold); [now apply CW_derivative_small|apply CW_derivative; lra].
Qed.
Print Assumptions C57_cw_derivative.

(** the full boson (and, with its constant, fermion) term for non-negative squared masses: right
    whenever the thermal integral's reported derivative is the derivative of the thermal function *)
Theorem C57_full_term_derivative_partial :
  forall scale cb JI JN m T, 0 <= m -> m <> 1 / 10000 ->
    (T <> 0 -> derivable_pt_lim JI (m / T ^ 2) (JN (m / T ^ 2) 1%Z)) ->
    derivable_pt_lim (fun y => boson scale JI JN y T cb 0) m (boson scale JI JN m T cb 1).
Proof. exact boson_mass_derivative. Qed.
Print Assumptions C57_full_term_derivative_partial.

(** derivative with respect to the temperature, any squared mass *)
Theorem C57_temperature_derivative :
  forall scale cb JI JN m T, T <> 0 -> (forall x, JI x = JN x 0%Z) ->
    derivable_pt_lim JI (m / T ^ 2) (JN (m / T ^ 2) 1%Z) ->
    derivable_pt_lim (fun t => boson scale JI JN m t cb 0) T (boson scale JI JN m T cb (-1)).
Proof. exact boson_T_derivative. Qed.
Print Assumptions C57_temperature_derivative.

(** for negative squared masses the full term's reported derivative is off by twice the
    Coleman-Weinberg part, even at zero temperature *)
Theorem C57_negative_mass_error :
  forall scale cb JI JN m T, m < - (1 / 10000) ->
    (T <> 0 -> derivable_pt_lim JI (m / T ^ 2) (JN (m / T ^ 2) 1%Z)) ->
    derivable_pt_lim (fun y => boson scale JI JN y T cb 0) m (boson scale JI JN m T cb 1 + 2 * CWTerm scale m cb 1).
Proof. exact boson_mass_derivative_neg. Qed.
Print Assumptions C57_negative_mass_error.

Theorem C57_negative_mass_refuted :
  exists scale cb m, 0 < scale /\ 1 / 10000 < Rabs m /\
    forall JI JN, ~ derivable_pt_lim (fun y => boson scale JI JN y 0 cb 0) m (boson scale JI JN m 0 cb 1).
Proof.
  exists 1, 0, (-1). assert (A : Rabs (-1) = 1) by (rewrite Rabs_left; lra). rewrite A.
  split; [lra|]. split; [unfold CW_threshold; lra|]. intros JI JN D.
  assert (D2 := boson_mass_derivative_neg 1 0 JI JN (-1) 0). specialize (D2 ltac:(unfold CW_threshold; lra) ltac:(lra)).
  assert (E := uniqueness_limite _ _ _ _ D D2). rewrite CWTerm1 in E by (rewrite A; unfold CW_threshold; lra).
  rewrite A, ln_1 in E. pose proof PI_RGT_0. assert (0 < 1 / (32 * PI * PI)).
  { apply Rdiv_lt_0_compat; [lra|]. apply Rmult_lt_0_compat; lra. }
  lra.
Qed.
Print Assumptions C57_negative_mass_refuted.

Example C57_nonvacuous : Rabs (-2) <> 1 / 10000 /\ CWTerm 1 (-2) 0 1 <> 0.
Proof.
  assert (A : Rabs (-2) = 2) by (rewrite Rabs_left; lra). rewrite A. split; [unfold CW_threshold; lra|].
  rewrite CWTerm1 by (rewrite A; unfold CW_threshold; lra). rewrite A, ln_1. pose proof PI_RGT_0. pose proof ln_lt_2.
  intro E. assert (0 < 1 / (32 * PI * PI)) by (apply Rdiv_lt_0_compat; [lra|]; apply Rmult_lt_0_compat; lra).
  apply Rmult_integral in E as [E|E]; [|lra]. apply Rmult_integral in E as [E|E]; lra.
Qed.

(** ** C58 *)
Theorem C58_two_point_symmetric_partial :
  forall scale A B, A = B \/ 1 / 100000 < Rabs (A - B) -> fbase scale A B = fbase scale B A.
Proof. exact fbase_sym. Qed.
Print Assumptions C58_two_point_symmetric_partial.

Theorem C58_two_point_value_partial :
  forall scale, 0 < scale ->
    (forall A B, 0 < A -> 0 < B -> 1 / 100000 < Rabs (A - B) -> fbase scale A B = Some (two_point (logscale scale) A B)) /\
    (forall a, 0 < a -> exists v, fbase scale a a = Some v /\ tends_to (two_point (logscale scale) a) a v) /\
    (forall a, 1 / 100000 < a -> exists v, fbase scale a 0 = Some v /\ tends_right (two_point (logscale scale) a) 0 v).
Proof.
  intros s P. split; [|split]; [exact (fbase_value s P)|exact (fbase_degenerate s P)|exact (fbase_massless s P)].
Qed.
Print Assumptions C58_two_point_value_partial.

Theorem C58_two_point_symmetric_refuted :
  exists scale A B, 0 < scale /\ 0 <= A /\ 0 <= B /\ fbase scale A B <> fbase scale B A.
Proof.
  exists 1, 0, (1 / 1000000). split; [lra|]. split; [lra|]. split; [lra|].
  destruct (fbase_order_matters 1 (1 / 1000000)) as [-> ->]; [lra|]. intro E. injection E as E.
  rewrite ln_1 in E. assert (ln (1 / 1000000) < ln 1) by (apply ln_increasing; lra). rewrite ln_1 in H. lra.
Qed.
Print Assumptions C58_two_point_symmetric_refuted.

Theorem C58_three_point_symmetric_partial :
  forall scale a b c, masses_apart Thres a b c ->
    fbaseTri scale b a c = fbaseTri scale a b c /\ fbaseTri scale a c b = fbaseTri scale a b c /\
    fbaseTri scale c b a = fbaseTri scale a b c /\ fbaseTri scale b c a = fbaseTri scale a b c /\
    fbaseTri scale c a b = fbaseTri scale a b c.
Proof. exact tri_perm. Qed.
Print Assumptions C58_three_point_symmetric_partial.

(** distinct masses, two equal, all equal, one vanishing, two equal and one vanishing *)
Theorem C58_three_point_value_partial :
  forall scale, 0 < scale ->
    (forall a b c, masses_apart Thres a b c -> 0 < a -> 0 < b -> 0 < c -> a <> b -> a <> c -> b <> c ->
       fbaseTri scale a b c = Ok (three_point (logscale scale) a b c)) /\
    (forall a c, masses_apart Thres a a c -> 0 < a -> 0 < c -> a <> c ->
       exists v, fbaseTri scale a a c = Ok v /\ tends_to (fun b => three_point (logscale scale) a b c) a v) /\
    (forall a, masses_apart Thres a a a -> 0 < a ->
       exists v W, fbaseTri scale a a a = Ok v /\
         (forall c, 0 < c -> c <> a -> tends_to (fun b => three_point (logscale scale) a b c) a (W c)) /\ tends_to W a v) /\
    (forall a b, masses_apart Thres a b 0 -> 0 < a -> 0 < b -> a <> b ->
       exists v, fbaseTri scale a b 0 = Ok v /\ tends_right (fun c => three_point (logscale scale) a b c) 0 v) /\
    (forall a, masses_apart Thres a a 0 -> 0 < a ->
       exists v W, fbaseTri scale a a 0 = Ok v /\
         (forall c, 0 < c -> c <> a -> tends_to (fun b => three_point (logscale scale) a b c) a (W c)) /\ tends_right W 0 v).
Proof.
  intros s P. split; [exact (tri_general s P)|]. split; [exact (tri_pair s P)|]. split; [exact (tri_equal s P)|].
  split; [exact (tri_massless s P)|exact (tri_pair_massless s P)].
Qed.
Print Assumptions C58_three_point_value_partial.

Theorem C58_three_point_symmetric_refuted :
  exists scale a b c, 0 < scale /\ 0 < a /\ 0 < b /\ 0 < c /\ fbaseTri scale a b c <> fbaseTri scale c b a.
Proof.
  exists 1, 1, 1, (1 + Thres / 2). assert (H : 0 < Thres / 2 < Thres) by (unfold Thres; lra).
  split; [lra|]. split; [lra|]. split; [lra|]. split; [lra|].
  destruct (tri_order_matters 1 (Thres / 2) H) as [-> ->]. intro E. injection E as E.
  assert (1 / (2 * (1 + Thres / 2)) < 1 / (2 * 1)); [|lra].
  unfold Rdiv. apply Rmult_lt_compat_l; [lra|]. apply Rinv_lt_contravar; lra.
Qed.
Print Assumptions C58_three_point_symmetric_refuted.

Example C58_nonvacuous : masses_apart Thres 1 2 3 /\ masses_apart Thres 1 1 0 /\ masses_apart Thres 5 5 5.
Proof.
  unfold masses_apart, separated, Thres. repeat split; try (left; reflexivity); right; unfold Rabs;
  match goal with |- context [Rcase_abs ?x] => destruct (Rcase_abs x); lra end.
Qed.
