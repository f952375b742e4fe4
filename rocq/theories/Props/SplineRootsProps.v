(** C135: arguments where a spline takes a value. *)
From Coq Require Import Reals Lra Lia List Sorted.
From Verif Require Import Model.Spline Model.SplineRoots Spec.SplineRootsSpec Proofs.SplineRootsProofs.
Import ListNotations.
Local Open Scope R_scope.

(** all real roots, ascending and each once, for roots that are equal or well separated *)
Theorem C135_cubic_partial : forall a b c d newton_iter, separated a b c d -> all_zeros (cubic a b c d) (solve_cubic a b c d newton_iter).
Proof. exact zeros. Qed.
(** roots of parabolas before the Newton steps are roots within the rounding error of the coefficients, separated or not *)
Theorem C135_quadratic_residual : forall a b c x, c <> 0 -> In x (solve_quadratic a b c 0) -> Rabs (cubic a b c 0 x) <= (7 * (b ^ 2 / Rabs c) + 16 * Rabs a) / 2 ^ 55.
Proof. exact quadratic_residual. Qed.
(** for the polynomial 0, of which every number is a root, one root is returned *)
Theorem C135_zero : forall k, solve_cubic 0 0 0 0 k = [0].
Proof. exact zero_polynomial. Qed.

(** what solve returns are crossings of the pieces *)
Theorem C135_sound : forall s y t, (forall i, (S i < sn s)%nat -> separated (sy s i - y) (sb s i) (sc s i) (sd s i)) -> In t (solve s y true) ->
  crossing (sn s) (sx s) (sy s) (sb s) (sc s) (sd s) y t.
Proof. exact solve_sound. Qed.
(** it returns all of them, in ascending order, if they are not closer to each other than the tolerance *)
Theorem C135_complete_partial : forall s y, (forall i, (S i < sn s)%nat -> sx s i < sx s (S i)) ->
  (forall i, (S i < sn s)%nat -> separated (sy s i - y) (sb s i) (sc s i) (sd s i)) ->
  (forall u v, crossing (sn s) (sx s) (sy s) (sb s) (sc s) (sd s) y u -> crossing (sn s) (sx s) (sy s) (sb s) (sc s) (sd s) y v -> u < v -> u + / 2 ^ 43 <= v) ->
  StronglySorted Rlt (solve s y true) /\ forall t, In t (solve s y true) <-> crossing (sn s) (sx s) (sy s) (sb s) (sc s) (sd s) y t.
Proof. exact solve_complete. Qed.
(** so every argument before the last point at which the spline has the value is found *)
Theorem C135_values_partial : forall s y, (forall i, (S i < sn s)%nat -> sx s i < sx s (S i)) ->
  (forall i, (S i < sn s)%nat -> separated (sy s i - y) (sb s i) (sc s i) (sd s i)) ->
  (forall u v, crossing (sn s) (sx s) (sy s) (sb s) (sc s) (sd s) y u -> crossing (sn s) (sx s) (sy s) (sb s) (sc s) (sd s) y v -> u < v -> u + / 2 ^ 43 <= v) ->
  forall t, sx s 0%nat <= t < sx s (sn s - 1)%nat -> eval s t = y -> In t (solve s y true).
Proof. exact solve_eval. Qed.
(** with extrapolation the arguments outside of the points are added *)
Theorem C135_extrapolation : forall s y, (forall i, (S i < sn s)%nat -> sx s i < sx s (S i)) -> (1 < sn s)%nat ->
  (forall i, (S i < sn s)%nat -> separated (sy s i - y) (sb s i) (sc s i) (sd s i)) ->
  separated (sy s 0%nat - y) (sb s 0%nat) (sc0 s) 0 -> separated (sy s (sn s - 1)%nat - y) (sb s (sn s - 1)%nat) (sc s (sn s - 1)%nat) 0 ->
  exists l r, solve s y false = l ++ solve s y true ++ r /\ StronglySorted Rlt l /\ StronglySorted Rlt r /\
    (forall t, In t l <-> t < sx s 0%nat /\ eval s t = y) /\ (forall t, In t r <-> sx s (sn s - 1)%nat <= t /\ eval s t = y).
Proof. exact solve_extrapolated. Qed.

(** the last point is never found without extrapolation *)
Theorem C135_last_refuted : exists s y, set_points 3 INR INR linear second_deriv 0 second_deriv 0 = Some s /\ eval s (sx s (sn s - 1)%nat) = y /\ solve s y true = [].
Proof. exact last_missed. Qed.
(** an argument close to a knot is returned though the spline does not have the value there, or anywhere *)
Theorem C135_spurious_refuted : exists s, set_points 3 INR kink linear second_deriv 0 second_deriv 0 = Some s /\
  (exists t, In t (solve s 0 true) /\ sx s 0%nat <= t <= sx s 2%nat) /\ forall t, sx s 0%nat <= t <= sx s 2%nat -> eval s t <> 0.
Proof. exact spurious. Qed.
(** two roots at a distance of 2e-10 become one number that is no root *)
Theorem C135_close_refuted : exists a b c, (exists x x', x < x' /\ cubic a b c 0 x = 0 /\ cubic a b c 0 x' = 0) /\
  forall k, solve_cubic a b c 0 k = [-1] /\ cubic a b c 0 (-1) <> 0.
Proof. exact close_merged. Qed.

(** x^3 - x, x^3 + x - 2, (x - 1)^2 (x + 2), (x - 1)^3, x^2 - 2 and x + 1 *)
Example C135_nonvacuous_separated : separated 0 (-1) 0 1 /\ separated (-2) 1 0 1 /\ separated 2 (-3) 0 1 /\ separated (-1) 3 (-3) 1 /\ separated (-2) 0 1 0 /\ separated 1 1 0 0.
Proof.
  assert (A1 : Rabs 1 = 1) by (apply Rabs_R1). assert (A2 : Rabs (-1) = 1) by (rewrite Rabs_left; lra). assert (A3 : Rabs (-2) = 2) by (rewrite Rabs_left; lra).
  assert (A4 : Rabs (-3) = 3) by (rewrite Rabs_left; lra). assert (A5 : Rabs 0 = 0) by apply Rabs_R0. assert (A6 : Rabs 3 = 3) by (apply Rabs_right; lra).
  unfold separated, separated3, separated2, disc3, disc2.
  split; [left; split; [lra|right]|split; [left; split; [lra|right]|split; [left; split; [lra|left]|split; [left; split; [lra|left]|split; [right; left|right; right]]]]].
  - replace (0 / 1) with 0 by field. replace (-1 / 1) with (-1) by field. rewrite A2, A5. match goal with |- _ < Rabs ?t => replace t with 4 by ring end. rewrite (Rabs_right 4) by lra. lra.
  - replace (0 / 1) with 0 by field. replace (-2 / 1) with (-2) by field. replace (1 / 1) with 1 by field. rewrite A1, A3, A5.
    match goal with |- _ < Rabs ?t => replace t with (-112) by ring end. rewrite (Rabs_left (-112)) by lra. lra.
  - split; [ring|]. right. match goal with |- _ < Rabs ?t => replace t with 9 by ring end. rewrite Rabs_mult, A1, A4, (Rabs_right 9) by lra. lra.
  - split; [ring|]. left. ring.
  - split; [reflexivity|]. split; [lra|]. right. match goal with |- _ < Rabs ?t => replace t with 8 by ring end. rewrite Rabs_mult, A1, A3, (Rabs_right 8) by lra. lra.
  - split; [reflexivity|]. split; [reflexivity|]. left. lra.
Qed.
(** the points (0,0), (1,1), (2,2) with straight lines and the value 1/2 *)
Example C135_nonvacuous_spline : exists s, set_points 3 INR INR linear second_deriv 0 second_deriv 0 = Some s /\
  (forall i, (S i < sn s)%nat -> sx s i < sx s (S i)) /\ (forall i, (S i < sn s)%nat -> separated (sy s i - 1 / 2) (sb s i) (sc s i) (sd s i)) /\
  (forall u v, crossing (sn s) (sx s) (sy s) (sb s) (sc s) (sd s) (1 / 2) u -> crossing (sn s) (sx s) (sy s) (sb s) (sc s) (sd s) (1 / 2) v -> u < v -> u + / 2 ^ 43 <= v) /\
  crossing (sn s) (sx s) (sy s) (sb s) (sc s) (sd s) (1 / 2) (1 / 2).
Proof.
  assert (E0 : INR 0 = 0) by reflexivity. assert (E1 : INR 1 = 1) by reflexivity. assert (E2 : INR 2 = 2) by (cbn; lra).
  assert (B : forall i, (S i < 3)%nat -> sb identity3 i = 1).
  { intros i I. unfold identity3, set_linear, updf. cbn [sb Nat.sub Nat.add]. destruct (Nat.eqb i 2) eqn:Q; [apply Nat.eqb_eq in Q; lia|]. rewrite plus_INR, E1. field. lra. }
  exists identity3. split; [|split; [|split; [|split]]].
  - unfold set_points. replace (points_ok 3 INR second_deriv second_deriv) with true; [reflexivity|]. unfold points_ok. cbn [Nat.leb is_nak orb andb Nat.sub increasing].
    destruct (Rlt_dec (INR 0) (INR 1)) as [_|N]; [|exfalso; apply N, lt_INR; lia]. destruct (Rlt_dec (INR 1) (INR 2)) as [_|N]; [reflexivity|exfalso; apply N, lt_INR; lia].
  - intros i _. apply lt_INR. lia.
  - intros i I. right. right. split; [reflexivity|]. split; [reflexivity|]. left. rewrite B by exact I. lra.
  - intros u v (i & I1 & I2 & _) (j & J1 & J2 & _) L. exfalso. rewrite B in I2, J2 by assumption. cbn [identity3 set_linear sy sc sd sx] in I2, J2. unfold cubic in I2, J2. lra.
  - exists 0%nat. split; [cbn; lia|]. rewrite B by lia. cbn [identity3 set_linear sy sc sd sx tolerance]. unfold cubic. rewrite E0, E1. lra.
Qed.

Print Assumptions C135_cubic_partial.
Print Assumptions C135_quadratic_residual.
Print Assumptions C135_zero.
Print Assumptions C135_sound.
Print Assumptions C135_complete_partial.
Print Assumptions C135_values_partial.
Print Assumptions C135_extrapolation.
Print Assumptions C135_last_refuted.
Print Assumptions C135_spurious_refuted.
Print Assumptions C135_close_refuted.
