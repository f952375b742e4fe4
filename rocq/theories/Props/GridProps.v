(** C130: one-dimensional grids and approximate equality. *)
From Coq Require Import Reals List ZArith Lra Lia.
From Verif Require Import Spec.StartPathSpec Model.StartPath Proofs.StartPathProofs.
Import ListNotations.
Open Scope R_scope.

(** The grid between two points has one point more than steps; point i is at the fraction i / npoints of the line, the ends
    included. *)
Theorem C130_line : forall a b n, length b = length a -> length (Grid a b n) = S n /\
  (forall i, (0 < n)%nat -> (i <= n)%nat -> nth i (Grid a b n) [] = between (INR i / INR n) a b) /\
  hd [] (Grid a b n) = a /\ ((0 < n)%nat -> last (Grid a b n) [] = b).
Proof.
  intros a b n L. split; [apply grid_length|]. split; [intros i N I; apply grid_point; assumption|]. split; [reflexivity|].
  intros N. assert (E : forall (l : list (list R)) d m, length l = S m -> last l d = nth m l d).
  { clear. induction l as [|x l IH]; intros d m H; [discriminate|]. destruct l as [|y l]; [cbn in H; replace m with 0%nat by lia; reflexivity|].
    destruct m as [|m]; [cbn in H; lia|]. change (last (x :: y :: l) d) with (last (y :: l) d). rewrite (IH d m) by (cbn in *; lia). reflexivity. }
  rewrite (E _ _ n) by apply grid_length. rewrite grid_point by (try assumption; lia).
  replace (INR n / INR n) with 1 by (field; apply not_0_INR; lia). apply between_1, L.
Qed.
Print Assumptions C130_line.
(** The grid along one field has one point more than steps; the field runs evenly from low to high and the others keep their
    values; a field out of range is an exception. *)
Theorem C130_field : forall point k low high n,
  ((0 < n)%Z -> (k < length point)%nat -> exists g, Grid1 point k low high n = Some g /\ Z.of_nat (length g) = (n + 1)%Z /\
    forall i, (Z.of_nat i <= n)%Z -> length (nth i g []) = length point /\
      nth k (nth i g []) 0 = low + INR i / IZR n * (high - low) /\ (forall j, j <> k -> nth j (nth i g []) 0 = nth j point 0)) /\
  (Grid1 point k low high n = None <-> (0 < n)%Z /\ (length point <= k)%nat).
Proof. intros. split; [apply grid1_points|apply grid1_throws]. Qed.
Print Assumptions C130_field.
Example C130_nonvacuous_grids : nth 1 (Grid [0; 4] [2; 0] 2) [] = [1; 2] /\
  exists g, Grid1 [7; 8] 1 0 1 2 = Some g /\ nth 1 (nth 1 g []) 0 = 1 / 2 /\ nth 0 (nth 1 g []) 0 = 7.
Proof.
  split.
  - destruct (C130_line [0; 4] [2; 0] 2 eq_refl) as (_ & H & _). rewrite H by lia. cbn. repeat f_equal; lra.
  - destruct (C130_field [7; 8] 1 0 1 2) as [H _]. destruct H as (g & E & _ & P); [lia|cbn; lia|]. exists g. split; [exact E|].
    destruct (P 1%nat) as (_ & A & B); [lia|]. rewrite A, (B 0%nat) by lia. cbn. split; [lra|reflexivity].
Qed.
(** Refuted: without steps the point of the grid has the lower value; a negative number of steps gives a grid. *)
Theorem C130_steps_refuted : exists point low high, (exists p, Grid1 point 0 low high 0 = Some [p] /\ nth 0 p 0 <> low /\ nth 0 p 0 <> high) /\
  Grid1 point 0 low high (-1) = Some [].
Proof. exists [5], 0, 1. split; [exists [5]; repeat split; cbn; lra|reflexivity]. Qed.
Print Assumptions C130_steps_refuted.

(** Two values are almost the same iff both are below the zero or their difference is below the precision times their mean; this
    does not depend on the order. *)
Theorem C130_value : forall rel zero a b, (almost rel zero a b = true <-> close rel zero a b) /\ almost rel zero a b = almost rel zero b a.
Proof.
  intros rel zero a b. split; [apply almost_close|]. apply Bool.eq_true_iff_eq. rewrite !almost_close. unfold close.
  rewrite (Rabs_minus_sym a b), (Rplus_comm a b). tauto.
Qed.
Print Assumptions C130_value.
(** Two vectors: an exception iff their sizes differ, otherwise true iff all components are almost the same: with signs if the
    flag is set, without if it is not. *)
Theorem C130_vector_partial : forall a b flip rel zero, (almost_vec a b flip rel zero = None <-> length a <> length b) /\
  (almost_vec a b flip rel zero = Some true <-> length a = length b /\ forall i, (i < length a)%nat ->
     if flip then close rel zero (nth i a 0) (nth i b 0) else close rel zero (Rabs (nth i a 0)) (Rabs (nth i b 0))).
Proof. exact almost_vec_spec. Qed.
Print Assumptions C130_vector_partial.
(** Refuted: a flip of sign is accepted iff the flag allows for it.  Allowed, it is not accepted; not allowed (the default), it
    is. *)
Theorem C130_flip_refuted : exists a b, almost_vec a b true (1/100) (/ 10 ^ 10) = Some false /\ almost_vec a b false (1/100) (/ 10 ^ 10) = Some true /\
  a = map Ropp b /\ exists x, In x b /\ 1 < x.
Proof.
  exists [-2], [2]. assert (Z : / 10 ^ 10 < 1) by (apply (Rmult_lt_reg_l (10 ^ 10)); [lra|]; rewrite Rinv_r; lra).
  split; [|split; [|split; [cbn; f_equal; lra|exists 2; split; [now left|lra]]]].
  - destruct (almost_vec [-2] [2] true (1/100) (/ 10 ^ 10)) as [[|]|] eqn:E; [|reflexivity|exfalso; apply almost_vec_spec in E; apply E; reflexivity].
    exfalso. apply almost_vec_spec in E. destruct E as [_ E]. specialize (E 0%nat ltac:(cbn; lia)). cbn [nth] in E. destruct E as [[A _]|A].
    + rewrite Rabs_left in A; lra.
    + replace (-2 - 2) with (-4) in A by ring. replace ((-2 + 2) / 2) with 0 in A by field. rewrite Rabs_R0, Rabs_left in A; lra.
  - apply almost_vec_spec. split; [reflexivity|]. intros [|i] H; [|cbn in H; lia]. cbn [nth]. right.
    rewrite (Rabs_left (-2)), (Rabs_right 2) by lra. replace (- -2 - 2) with 0 by ring. rewrite Rabs_R0, Rabs_right; lra.
Qed.
Print Assumptions C130_flip_refuted.
(** Every value is almost the same as itself. *)
Theorem C130_reflexive : forall rel zero a, 0 < rel -> 0 < zero -> almost rel zero a a = true.
Proof.
  intros rel zero a R Z. apply almost_close. destruct (Req_dec a 0) as [-> |N].
  - left. rewrite Rabs_R0. split; exact Z.
  - right. replace (a - a) with 0 by ring. replace ((a + a) / 2) with a by field. rewrite Rabs_R0. apply Rmult_lt_0_compat; [exact R|apply Rabs_pos_lt, N].
Qed.
Print Assumptions C130_reflexive.
Example C130_nonvacuous_almost : almost (1/100) (/ 10 ^ 10) 100 (201/2) = true /\ almost (1/100) (/ 10 ^ 10) 100 102 = false /\
  almost_vec [1] [1; 2] false (1/100) (/ 10 ^ 10) = None.
Proof.
  assert (Z : / 10 ^ 10 < 1) by (apply (Rmult_lt_reg_l (10 ^ 10)); [lra|]; rewrite Rinv_r; lra).
  split; [|split; [|reflexivity]].
  - apply almost_close. right. rewrite Rabs_left, Rabs_right; lra.
  - apply Bool.not_true_iff_false. intros H. apply almost_close in H. destruct H as [[H _]|H]; [rewrite Rabs_right in H; lra|].
    rewrite Rabs_left, Rabs_right in H; lra.
Qed.
