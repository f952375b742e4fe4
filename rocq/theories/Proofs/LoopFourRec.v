(** The four-point loop function as a difference quotient of the three-point function. *)
From Coq Require Import Reals Lra Lia ZArith List Bool.
From Verif.Model Require Import Base Loop LoopFour.
From Verif.Spec Require Import LoopSpec LoopFourSpec.
From Verif.Proofs Require Import DerivLib ThermalProofs LoopProofs LoopFourBranch LoopFourProofs LoopFourValues.
Import ListNotations.
Open Scope R_scope.

Lemma apart_tri a b c d : masses_apart4 Thres4 a b c d -> masses_apart Thres a b c /\ masses_apart Thres b c d.
Proof.
  assert (W : forall x y, x = y \/ Thres4 <= Rabs (x - y) -> separated Thres x y).
  { intros x y [->|H]; [now left|right]. unfold Thres4 in H. unfold Thres. lra. }
  intros ((A & B & C & D) & (AB & AC & AD) & BC & BD & CD). split; repeat split; apply W; assumption.
Qed.
Section Rec.
  Variable scale : R.
  Hypothesis SP : 0 < scale.
  Notation L := (logscale scale).
  Lemma LogM0 : LogM scale 0 = Some 0.
  Proof. unfold LogM. destruct (Req_EM_T 0 0); [reflexivity|lra]. Qed.
  Lemma lnopt_ratio x y : 0 < x -> 0 < y -> lnopt (x / y) = Some (L x - L y).
  Proof.
    intros PX PY. unfold lnopt. destruct (Rlt_dec 0 (x / y)) as [_|N]; [|destruct N; now apply Rdiv_lt_0_compat].
    now rewrite (ln_ratio scale SP).
  Qed.
  Ltac done a b c d :=
    subst; rewrite ?LogM0, ?(L_pos scale SP), ?lnopt_ratio by (assumption || lra); cbn [obind option_map lift2 of_branch];
    do 3 eexists; (split; [reflexivity|]); (split; [reflexivity|]); (split; [reflexivity|]); try (field; repeat split; lra).
  Lemma four_from_three a b c d : masses_apart4 Thres4 a b c d -> 0 <= a -> 0 <= b -> 0 <= c -> 0 <= d -> a <> d ->
    ~ (In 0 [a; b; c; d] /\ NoDup [a; b; c; d]) ->
    (a <> 0 /\ b <> 0 \/ a <> 0 /\ c <> 0 \/ a <> 0 /\ d <> 0 \/ b <> 0 /\ c <> 0 \/ b <> 0 /\ d <> 0 \/ c <> 0 /\ d <> 0) ->
    exists q u v, fbaseFour scale a b c d = Ok q /\ fbaseTri scale a b c = Ok u /\ fbaseTri scale b c d = Ok v /\
      q = (u - v) / (a - d).
  Proof.
    intros S0 PA PB PC PD AD ND TWO. destruct (apart_tri _ _ _ _ S0) as [S1 S2].
    rewrite four_sep, branch_bools, !tri_sep by assumption. clear S0 S1 S2. unfold tri_branch.
    rewrite (eqb_sym b a), (eqb_sym c b).
    assert (Z : forall x, 0 <= x -> x <> 0 -> 0 < x) by (intros; lra).
    assert (ND' : forall x y z w : R, x <> y -> x <> z -> x <> w -> y <> z -> y <> w -> z <> w -> NoDup [x; y; z; w]).
    { intros. repeat constructor; cbn [In]; intuition congruence. }
    patterns a b c d.
    all: try (exfalso; lra).
    all: try (exfalso; apply ND; split; [cbn [In]; intuition congruence|apply ND'; assumption]).
    all: clear ND ND' TWO.
    all: repeat match goal with H : ?x <> 0, P : 0 <= ?x |- _ => pose proof (Z x P H); clear P end; clear Z.
    all: repeat match goal with
      | H : is0 _ = _ |- _ => rewrite ?H; clear H
      | H : eqb _ _ = _ |- _ => rewrite ?H; clear H end.
    all: cbv beta iota delta [four_bools pick andb negb].
    all: done a b c d.
  Qed.
End Rec.

(** the true limit with one vanishing mass never vanishes *)
Section Massless.
  Variable scale : R.
  Hypothesis SP : 0 < scale.
  Notation L := (logscale scale).
  Definition mless (a b c : R) : R := L a / ((a - b) * (a - c)) + L b / ((b - a) * (b - c)) + L c / ((c - a) * (c - b)).
  Lemma mless_ordered a b c : 0 < a -> a < b -> b < c -> mless a b c < 0.
  Proof.
    intros PA AB BC.
    destruct (MVT_cor2 ln (fun x => / x) a b AB) as (x & EX & BX); [intros t T; apply derivable_pt_lim_ln; lra|].
    destruct (MVT_cor2 ln (fun x => / x) b c BC) as (y & EY & BY); [intros t T; apply derivable_pt_lim_ln; lra|].
    unfold mless. rewrite !logscale_pos by lra.
    replace (_ + _ + _) with ((((ln c - ln b) / (c - b)) - ((ln b - ln a) / (b - a))) / (c - a)) by (field; repeat split; lra).
    rewrite EX, EY. replace (/ y * (c - b) / (c - b)) with (/ y) by (field; lra). replace (/ x * (b - a) / (b - a)) with (/ x) by (field; lra).
    assert (/ y < / x). { apply Rinv_lt_contravar; [apply Rmult_lt_0_compat|]; lra. }
    unfold Rdiv. rewrite <- (Rmult_0_l (/ (c - a))). apply Rmult_lt_compat_r; [apply Rinv_0_lt_compat|]; lra.
  Qed.
  Lemma mless_neg a b c : 0 < a -> 0 < b -> 0 < c -> a <> b -> a <> c -> b <> c -> mless a b c < 0.
  Proof.
    intros PA PB PC AB AC BC.
    assert (S1 : forall a b c, a <> b -> a <> c -> b <> c -> mless a b c = mless b a c) by (intros; unfold mless; field; repeat split; lra).
    assert (S2 : forall a b c, a <> b -> a <> c -> b <> c -> mless a b c = mless a c b) by (intros; unfold mless; field; repeat split; lra).
    destruct (Rlt_dec a b), (Rlt_dec b c), (Rlt_dec a c); try (exfalso; lra).
    - now apply mless_ordered.
    - rewrite S2 by auto. apply mless_ordered; lra.
    - rewrite S2, S1 by auto. apply mless_ordered; lra.
    - rewrite S1 by auto. apply mless_ordered; lra.
    - rewrite S1, S2 by auto. apply mless_ordered; lra.
    - rewrite S1, S2, S1 by auto. apply mless_ordered; lra.
  Qed.
End Massless.

Lemma four_order_matters :
  exists scale a b c d, 0 < scale /\ 0 < a /\ 0 < b /\ 0 < c /\ 0 < d /\ fbaseFour scale a b c d <> fbaseFour scale b a c d.
Proof.
  exists 1, 1, (1 + Thres4 / 2), 1, 1. assert (T : 0 < Thres4 < / 10) by (unfold Thres4; lra).
  split; [lra|]. split; [lra|]. split; [lra|]. split; [lra|]. split; [lra|].
  assert (Z : forall m, / 10 < m -> snap0_4 m = m).
  { intros m M. unfold snap0_4. destruct (Rlt_dec _ _) as [H|H]; [rewrite Rabs_right in H; lra|reflexivity]. }
  assert (S1 : forall x y, - Thres4 < x - y < Thres4 -> snap4 x y = x).
  { intros x y XY. unfold snap4. destruct (Rlt_dec _ _) as [H|H]; [reflexivity|]. destruct H. apply Rabs_def1; lra. }
  assert (A4 : forall m, / 10 < m -> masses_apart4 Thres4 m m m m).
  { intros m M. unfold masses_apart4. cbv zeta beta. rewrite Rminus_0_r. repeat split; try (left; reflexivity); right; rewrite Rabs_right; lra. }
  assert (V : forall m, / 10 < m -> of_branch (four_branch 1 m m m m) = Ok (- 1 / (6 * m * m))).
  { intros m M. rewrite <- (four_equal_value 1 m) by (try lra; now apply A4). symmetry. apply four_sep. now apply A4. }
  assert (E1 : fbaseFour 1 1 (1 + Thres4 / 2) 1 1 = Ok (- 1 / (6 * 1 * 1))).
  { unfold fbaseFour. rewrite !(Z (1 + Thres4 / 2)), !(Z 1) by lra. rewrite (S1 1 (1 + Thres4 / 2)), !(S1 1 1) by lra. apply (V 1). lra. }
  assert (E2 : fbaseFour 1 (1 + Thres4 / 2) 1 1 1 = Ok (- 1 / (6 * (1 + Thres4 / 2) * (1 + Thres4 / 2)))).
  { unfold fbaseFour. rewrite !(Z (1 + Thres4 / 2)), !(Z 1) by lra.
    rewrite !(S1 (1 + Thres4 / 2) 1), !(S1 (1 + Thres4 / 2) (1 + Thres4 / 2)) by lra. apply (V (1 + Thres4 / 2)). lra. }
  rewrite E1, E2. intro E. injection E as E.
  assert (H : 1 * 1 < (1 + Thres4 / 2) * (1 + Thres4 / 2)) by (apply Rmult_le_0_lt_compat; lra).
  assert (K : / (6 * (1 + Thres4 / 2) * (1 + Thres4 / 2)) < / (6 * 1 * 1)) by (apply Rinv_lt_contravar; [apply Rmult_lt_0_compat|]; lra).
  unfold Rdiv in E. lra.
Qed.
Lemma three_massless_mismatch :
  exists scale a q u v, 0 < scale /\ 0 < a /\ fbaseFour scale a 0 0 0 = Ok q /\ fbaseTri scale a 0 0 = Ok u /\
    fbaseTri scale 0 0 0 = Ok v /\ q <> (u - v) / (a - 0).
Proof.
  exists 1, 1, (logscale 1 1 / (1 * 1)), (1 / 1 * (logscale 1 1 - 1)), 0.
  split; [lra|]. split; [lra|].
  assert (A4 : masses_apart4 Thres4 1 0 0 0).
  { unfold masses_apart4, Thres4. cbv zeta beta. rewrite !Rminus_0_r, Rabs_R1. repeat split; try (left; reflexivity); right; lra. }
  assert (A3 : masses_apart Thres 1 0 0 /\ masses_apart Thres 0 0 0) by (apply (apart_tri 1 0 0 0 A4)).
  destruct A3 as [A3 B3].
  split; [apply four_000_value; (exact A4 || lra)|]. rewrite !tri_sep by assumption. unfold tri_branch, is0, eqb.
  destruct (Req_EM_T 1 0); [lra|]. destruct (Req_EM_T 0 0); [|lra]. cbn [andb negb].
  rewrite LogM_pos by lra. split; [reflexivity|]. split; [reflexivity|]. lra.
Qed.
