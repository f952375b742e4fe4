(** C120: the four-point one-loop function. *)
From Coq Require Import Reals Lra List Permutation.
From Verif.Model Require Import Base Loop LoopFour.
From Verif.Spec Require Import LoopSpec LoopFourSpec.
From Verif.Proofs Require Import LoopProofs LoopFourBranch LoopFourProofs LoopFourValues LoopFourRec.
Import ListNotations.
Open Scope R_scope.

(** whatever the arguments, the result is the one for masses that agree or are at least 1e-6 apart, each
    less than 1e-6 from the one passed *)
Theorem C120_close_masses_identified :
  forall scale A B C D, exists a b c d, masses_apart4 (1 / 1000000) a b c d /\
    (Rabs (a - A) < 1 / 1000000 /\ Rabs (b - B) < 1 / 1000000 /\ Rabs (c - C) < 1 / 1000000 /\ Rabs (d - D) < 1 / 1000000) /\
    fbaseFour scale A B C D = fbaseFour scale a b c d.
Proof. exact four_snapped. Qed.
Print Assumptions C120_close_masses_identified.

Theorem C120_symmetric_partial :
  forall scale a b c d a' b' c' d', masses_apart4 (1 / 1000000) a b c d -> Permutation [a; b; c; d] [a'; b'; c'; d'] ->
    fbaseFour scale a b c d = fbaseFour scale a' b' c' d'.
Proof. exact four_perm. Qed.
Print Assumptions C120_symmetric_partial.

(** for masses closer than the threshold the order of the arguments matters *)
Theorem C120_symmetric_refuted :
  exists scale a b c d, 0 < scale /\ 0 < a /\ 0 < b /\ 0 < c /\ 0 < d /\ fbaseFour scale a b c d <> fbaseFour scale b a c d.
Proof. exact four_order_matters. Qed.
Print Assumptions C120_symmetric_refuted.

(** distinct masses; then two equal, two equal pairs, three equal, four equal, as successive limits *)
Theorem C120_massive_values :
  forall scale, 0 < scale ->
    (forall a b c d, masses_apart4 (1 / 1000000) a b c d -> 0 < a -> 0 < b -> 0 < c -> 0 < d ->
       a <> b -> a <> c -> a <> d -> b <> c -> b <> d -> c <> d ->
       fbaseFour scale a b c d = Ok (four_point (logscale scale) a b c d)) /\
    exists (pair : R -> R -> R -> R) (triple : R -> R -> R),
    (forall a c d, 0 < a -> 0 < c -> 0 < d -> a <> c -> a <> d -> c <> d ->
       tends_to (fun b => four_point (logscale scale) a b c d) a (pair a c d) /\
       (masses_apart4 (1 / 1000000) a a c d -> fbaseFour scale a a c d = Ok (pair a c d))) /\
    (forall a c, masses_apart4 (1 / 1000000) a a c c -> 0 < a -> 0 < c -> a <> c ->
       exists v, fbaseFour scale a a c c = Ok v /\ tends_to (pair a c) c v) /\
    (forall a d, 0 < a -> 0 < d -> a <> d ->
       tends_to (fun c => pair a c d) a (triple a d) /\
       (masses_apart4 (1 / 1000000) a a a d -> fbaseFour scale a a a d = Ok (triple a d))) /\
    (forall a, masses_apart4 (1 / 1000000) a a a a -> 0 < a ->
       exists v, fbaseFour scale a a a a = Ok v /\ tends_to (triple a) a v).
Proof.
  intros s P. split; [exact (four_general s P)|]. exists (pair4 s), (triple4 s). split; [|split; [|split]].
  - intros a c d PA PC PD AC AD CD. split; [exact (pair4_limit s P a c d PA PC PD AC AD CD)|].
    intro H. exact (four_pair_value s P a c d H PA PC PD AC AD CD).
  - intros a c H PA PC AC. exists (two4 s a c). split; [now apply four_two_value|now apply two4_limit].
  - intros a d PA PD AD. split; [now apply triple4_limit|]. intro H. now apply four_triple_value.
  - intros a H PA. exists (- 1 / (6 * a * a)). split; [now apply four_equal_value|now apply equal4_limit].
Qed.
Print Assumptions C120_massive_values.

(** one vanishing mass beside a pair or three equal masses: the limit from above; two vanishing masses: the
    limit once the logarithm of the vanishing mass is taken away *)
Theorem C120_massless_values_partial :
  forall scale, 0 < scale ->
    exists (pair : R -> R -> R -> R) (two triple : R -> R -> R),
    (forall a c d, 0 < a -> 0 < c -> 0 < d -> a <> c -> a <> d -> c <> d ->
       tends_to (fun b => four_point (logscale scale) a b c d) a (pair a c d)) /\
    (forall a c, 0 < a -> 0 < c -> a <> c -> tends_to (pair a c) c (two a c) /\ tends_to (fun d => pair a d c) a (triple a c)) /\
    (forall a c, masses_apart4 (1 / 1000000) a a c 0 -> 0 < a -> 0 < c -> a <> c ->
       exists v, fbaseFour scale a a c 0 = Ok v /\ tends_right (pair a c) 0 v) /\
    (forall a, masses_apart4 (1 / 1000000) a a a 0 -> 0 < a ->
       exists v, fbaseFour scale a a a 0 = Ok v /\ tends_right (triple a) 0 v) /\
    (forall a b, masses_apart4 (1 / 1000000) a b 0 0 -> 0 < a -> 0 < b -> a <> b ->
       exists v, fbaseFour scale a b 0 0 = Ok v /\ tends_right (fun x => pair x a b - logscale scale x / (a * b)) 0 v) /\
    (forall a, masses_apart4 (1 / 1000000) a a 0 0 -> 0 < a ->
       exists v, fbaseFour scale a a 0 0 = Ok v /\ tends_right (fun x => two a x - logscale scale x / (a * a)) 0 v).
Proof.
  intros s P. exists (pair4 s), (two4 s), (triple4 s). split; [exact (pair4_limit s P)|]. split; [|split; [|split; [|split]]].
  - intros a c PA PC AC. split; [now apply two4_limit|now apply triple4_limit].
  - intros a c H PA PC AC. eexists. split; [now apply four_0_pair_value|now apply massless4_pair_limit].
  - intros a H PA. eexists. split; [now apply four_0_triple_value|now apply massless4_triple_limit].
  - intros a b H PA PB AB. eexists. split; [now apply four_00_value|now apply massless4_two_limit].
  - intros a H PA. eexists. split; [now apply four_00_pair_value|now apply massless4_two_pair_limit].
Qed.
Print Assumptions C120_massless_values_partial.

(** one vanishing mass and three different ones: the limit exists and is negative, the program returns 0 *)
Theorem C120_one_massless_always_zero :
  forall scale a b c, 0 < scale -> masses_apart4 (1 / 1000000) a b c 0 -> 0 < a -> 0 < b -> 0 < c ->
    a <> b -> a <> c -> b <> c ->
    fbaseFour scale a b c 0 = Ok 0 /\
    exists v, v < 0 /\ tends_right (fun d => four_point (logscale scale) a b c d) 0 v.
Proof.
  intros s a b c P H PA PB PC AB AC BC. split; [now apply four_0_value|].
  exists (mless s a b c). split; [now apply mless_neg|now apply massless4_limit].
Qed.
Print Assumptions C120_one_massless_always_zero.

Theorem C120_one_massless_refuted :
  exists scale a b c v w, 0 < scale /\ 0 < a /\ 0 < b /\ 0 < c /\ fbaseFour scale a b c 0 = Ok v /\
    tends_right (fun d => four_point (logscale scale) a b c d) 0 w /\ v <> w.
Proof.
  destruct (C120_one_massless_always_zero 1 1 2 4) as (E & v & N & T); try lra.
  - unfold masses_apart4. cbv beta zeta. repeat split; try (left; reflexivity); right; unfold Rabs; match goal with |- context [Rcase_abs ?x] => destruct (Rcase_abs x) end; lra.
  - exists 1, 1, 2, 4, 0, v. split; [lra|]. split; [lra|]. split; [lra|]. split; [lra|]. split; [exact E|]. split; [exact T|lra].
Qed.
Print Assumptions C120_one_massless_refuted.

(** three vanishing masses: the value is the logarithm over the squared mass; the finite part of the
    divided difference, after the terms that diverge are taken away, is smaller by 3/2 over the squared mass *)
Theorem C120_three_massless :
  forall scale a, 0 < scale -> masses_apart4 (1 / 1000000) a 0 0 0 -> 0 < a ->
    exists triple : R -> R,
      (forall x, 0 < x -> x <> a -> exists pair : R -> R,
         (forall y, 0 < y -> y <> x -> y <> a -> tends_to (fun z => four_point (logscale scale) x z y a) x (pair y)) /\
         tends_to pair x (triple x)) /\
      fbaseFour scale a 0 0 0 = Ok (logscale scale a / (a * a)) /\
      tends_right (fun x => triple x + 1 / (2 * a * x) + logscale scale x / (a * a)) 0
        (logscale scale a / (a * a) - 3 / 2 / (a * a)).
Proof.
  intros s a P H PA. exists (fun x => triple4 s x a). split; [|split; [now apply four_000_value|]].
  - intros x PX XA. exists (fun y => pair4 s x y a). split; [|now apply triple4_limit].
    intros y PY YX YA. apply pair4_limit; auto.
  - eapply rl_eq; [apply massless4_three_limit; assumption|]. field. lra.
Qed.
Print Assumptions C120_three_massless.

(** for different first and last masses the function is the difference quotient of the three-point function *)
Theorem C120_difference_quotient_partial :
  forall scale a b c d, 0 < scale -> masses_apart4 (1 / 1000000) a b c d -> 0 <= a -> 0 <= b -> 0 <= c -> 0 <= d -> a <> d ->
    ~ (In 0 [a; b; c; d] /\ NoDup [a; b; c; d]) ->
    (a <> 0 /\ b <> 0 \/ a <> 0 /\ c <> 0 \/ a <> 0 /\ d <> 0 \/ b <> 0 /\ c <> 0 \/ b <> 0 /\ d <> 0 \/ c <> 0 /\ d <> 0) ->
    exists q u v, fbaseFour scale a b c d = Ok q /\ fbaseTri scale a b c = Ok u /\ fbaseTri scale b c d = Ok v /\
      q = (u - v) / (a - d).
Proof. intros s a b c d P. exact (four_from_three s P a b c d). Qed.
Print Assumptions C120_difference_quotient_partial.

Theorem C120_difference_quotient_refuted :
  exists scale a q u v, 0 < scale /\ 0 < a /\ fbaseFour scale a 0 0 0 = Ok q /\ fbaseTri scale a 0 0 = Ok u /\
    fbaseTri scale 0 0 0 = Ok v /\ q <> (u - v) / (a - 0).
Proof. exact three_massless_mismatch. Qed.
Print Assumptions C120_difference_quotient_refuted.

Example C120_nonvacuous :
  masses_apart4 (1 / 1000000) 1 2 3 4 /\ masses_apart4 (1 / 1000000) 1 1 2 3 /\ masses_apart4 (1 / 1000000) 1 1 1 1 /\
  masses_apart4 (1 / 1000000) 2 1 0 0 /\ masses_apart4 (1 / 1000000) 1 1 2 0.
Proof.
  unfold masses_apart4. cbv beta zeta.
  repeat split; try (left; reflexivity); right; unfold Rabs; match goal with |- context [Rcase_abs ?x] => destruct (Rcase_abs x) end; lra.
Qed.
Example C120_nonvacuous_quotient :
  ~ (In 0 [2; 1; 1; 0] /\ NoDup [2; 1; 1; 0]) /\ masses_apart4 (1 / 1000000) 2 1 1 0.
Proof.
  split.
  - intros [_ H]. inversion H as [|x l N1 H1]; subst. inversion H1 as [|x l N2 H2]; subst. apply N2. now left.
  - unfold masses_apart4. cbv beta zeta.
    repeat split; try (left; reflexivity); right; unfold Rabs; match goal with |- context [Rcase_abs ?x] => destruct (Rcase_abs x) end; lra.
Qed.
