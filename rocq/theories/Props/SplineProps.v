(** C43-C45: cubic splines. *)
From Coq Require Import Reals Lra Lia Arith.
From Verif.Model Require Import Spline.
From Verif.Spec Require Import SplineSpec.
From Verif.Proofs Require Import DerivLib SplineProofs SplineBoundary.
Local Open Scope R_scope.

(** ** C43 *)
Theorem C43_interpolates :
  forall n x y type left lv right rv, abscissae n x left right ->
    exists s, set_points n x y type left lv right rv = Some s /\
      (forall i, (i < n)%nat -> eval s (x i) = y i) /\ continuity (eval s) /\
      (type <> linear -> (forall t, derivable_pt_lim (eval s) t (deriv s 1 t)) /\ continuity (deriv s 1)).
Proof.
  intros n x y type left lv right rv Ab.
  destruct (set_points_glued n x y type left lv right rv Ab) as (s & E & Fx & Fy & Fn & _ & _ & G & SM & _).
  exists s. split; [exact E|]. split; [intros i Hi; rewrite <- Fx, (hits s G) by (rewrite Fn; exact Hi); now rewrite Fy|]. split; [exact (continuous s G)|].
  intro T. specialize (SM T). split; [exact (derivative s G SM)|exact (derivative_continuous s G SM)].
Qed.
Print Assumptions C43_interpolates.

Theorem C43_twice_differentiable :
  forall n x y left lv right rv, abscissae n x left right ->
    exists s, set_points n x y cspline left lv right rv = Some s /\
      forall t, (left = first_deriv -> t <> x 0%nat) -> (right = first_deriv -> t <> x (n - 1)%nat) ->
        derivable_pt_lim (deriv s 1) t (deriv s 2 t) /\ continuity_pt (deriv s 2) t.
Proof. exact cspline_c2. Qed.
Print Assumptions C43_twice_differentiable.

(** the slopes of the Hermite spline at the inner points are those of the parabolas through three neighbouring points *)
Theorem C43_hermite_slopes :
  forall n x y left lv right rv, abscissae n x left right ->
    exists s, set_points n x y cspline_hermite left lv right rv = Some s /\
      forall i, (S (S i) < n)%nat -> exists m, derivable_pt_lim (eval s) (x (S i)) m /\
        parabola_slope (x i) (y i) (x (S i)) (y (S i)) (x (S (S i))) (y (S (S i))) m.
Proof. exact hermite_slopes. Qed.
Print Assumptions C43_hermite_slopes.

(** inadmissible data are refused (the asserts of set_points) *)
Theorem C43_refuses :
  forall n x y type left lv right rv, ~ abscissae n x left right -> set_points n x y type left lv right rv = None.
Proof.
  intros n x y type left lv right rv N. unfold set_points. destruct (points_ok n x left right) eqn:E; [|reflexivity].
  apply points_ok_iff in E. contradiction.
Qed.
Print Assumptions C43_refuses.

Lemma inr_abscissae n left right : (4 <= n)%nat -> abscissae n INR left right.
Proof. intro H. split; [lia|]. split; [lia|]. intros i Hi. apply lt_INR. lia. Qed.
Example C43_nonvacuous : abscissae 5 INR second_deriv first_deriv /\ ~ abscissae 2 INR first_deriv first_deriv /\ ~ abscissae 3 INR not_a_knot first_deriv.
Proof. split; [apply inr_abscissae; lia|]. split; [intros (H & _); lia|]. intros (_ & H & _). specialize (H (or_introl eq_refl)). lia. Qed.

(** ** C44 *)
(** refuted: with a not-a-knot right end the value requested at the left end is thrown away *)
Theorem C44_left_curvature_dropped :
  forall n x y lv rv, abscissae n x second_deriv not_a_knot -> lv <> 0 ->
    exists s, set_points n x y cspline second_deriv lv not_a_knot rv = Some s /\ ~ left_condition (eval s) x second_deriv lv /\
      left_condition (eval s) x second_deriv 0.
Proof.
  intros n x y lv rv Ab N. destruct (cspline_left_lost n x y lv rv Ab) as (s & E & L). exists s. split; [exact E|]. split; [|exact L].
  intro L2. apply N. exact (second_unique _ _ _ _ L2 L).
Qed.
Print Assumptions C44_left_curvature_dropped.

Theorem C44_left_slope_dropped :
  forall n x y lv rv, abscissae n x first_deriv not_a_knot ->
    exists s, set_points n x y cspline first_deriv lv not_a_knot rv = Some s /\
      left_condition (eval s) x first_deriv ((y 1%nat - y 0%nat) / (x 1%nat - x 0%nat)).
Proof. exact cspline_left_lost1. Qed.
Print Assumptions C44_left_slope_dropped.

Theorem C44_boundary_conditions_refuted :
  exists n x y left lv right rv s, abscissae n x left right /\ set_points n x y cspline left lv right rv = Some s /\ ~ left_condition (eval s) x left lv.
Proof.
  exists 4%nat, INR, (fun _ => 0), second_deriv, 1, not_a_knot, 0.
  assert (Ab : abscissae 4 INR second_deriv not_a_knot) by (apply inr_abscissae; lia).
  destruct (C44_left_curvature_dropped 4 INR (fun _ => 0) 1 0 Ab ltac:(lra)) as (s & E & N & _). exists s. auto.
Qed.
Print Assumptions C44_boundary_conditions_refuted.

(** what does hold: every other combination, and the right end always *)
Theorem C44_boundary_conditions_partial :
  forall n x y left lv right rv, abscissae n x left right ->
    exists s, set_points n x y cspline left lv right rv = Some s /\ right_condition (eval s) n x right rv /\
      (right <> not_a_knot \/ left = not_a_knot \/ (left = second_deriv /\ lv = 0) -> left_condition (eval s) x left lv).
Proof.
  intros n x y left lv right rv Ab. destruct (cspline_right n x y left lv right rv Ab) as (s & E & Hr). exists s. split; [exact E|]. split; [exact Hr|].
  intro Hc. destruct (cspline_left n x y left lv right rv Ab Hc) as (s2 & E2 & L). replace s with s2 by congruence. exact L.
Qed.
Print Assumptions C44_boundary_conditions_partial.

Theorem C44_not_a_knot_partial :
  forall n x y other lv rv,
    (abscissae n x not_a_knot other -> exists s, set_points n x y cspline not_a_knot lv other rv = Some s /\ one_cubic (eval s) (x 0%nat) (x 2%nat)) /\
    (abscissae n x other not_a_knot -> exists s, set_points n x y cspline other lv not_a_knot rv = Some s /\ one_cubic (eval s) (x (n - 3)%nat) (x (n - 1)%nat)).
Proof. intros n x y other lv rv. split; intro Ab; [now apply cspline_one_cubic_left|now apply cspline_one_cubic_right]. Qed.
Print Assumptions C44_not_a_knot_partial.

Theorem C44_hermite_boundary_conditions :
  forall n x y left lv right rv, abscissae n x left right ->
    exists s, set_points n x y cspline_hermite left lv right rv = Some s /\ left_condition (eval s) x left lv /\ right_condition (eval s) n x right rv.
Proof. exact hermite_conditions. Qed.
Print Assumptions C44_hermite_boundary_conditions.

Example C44_nonvacuous :
  abscissae 4 INR second_deriv not_a_knot /\ abscissae 4 INR not_a_knot not_a_knot /\ ~ second_derivative_at (fun t => t * t * t) 1 5.
Proof.
  split; [apply inr_abscissae; lia|]. split; [apply inr_abscissae; lia|]. intro H.
  assert (K : second_derivative_at (fun t => t * t * t) 1 6).
  { exists (fun t => 3 * (t * t)). split; [intro u; eapply dl_eq; [dlauto|ring]|eapply dl_eq; [dlauto|ring]]. }
  pose proof (second_unique _ _ _ _ H K). lra.
Qed.

(** ** C45 *)
(** refuted: next to a local extremum of the data the filter leaves an overshoot *)
Theorem C45_monotone_interval_refuted :
  exists n x y s i, abscissae n x second_deriv second_deriv /\ set_points n x y cspline_hermite second_deriv 0 second_deriv 0 = Some s /\ (S i < n)%nat /\
    y (S i) <= y i /\ ~ nonincreasing_on (eval (snd (make_monotonic s))) (x i) (x (S i)).
Proof.
  destruct overshoot as (s & E & Y & N). exists 3%nat, ex_x, ex_y, s, 1%nat. split; [|auto].
  split; [lia|]. split; [intros [H|H]; discriminate|]. intros i Hi. unfold ex_x. apply lt_INR. lia.
Qed.
Print Assumptions C45_monotone_interval_refuted.

(** what does hold: intervals whose neighbours go the same way *)
Theorem C45_monotone_interval_partial :
  forall n x y type left lv right rv, abscissae n x left right -> type <> linear ->
    exists s, set_points n x y type left lv right rv = Some s /\
      forall i, (S i < n)%nat ->
        (y (i - 1)%nat <= y i -> y i <= y (S i) -> y (S i) <= y (Nat.min (S (S i)) (n - 1)) ->
         nondecreasing_on (eval (snd (make_monotonic s))) (x i) (x (S i))) /\
        (y i <= y (i - 1)%nat -> y (S i) <= y i -> y (Nat.min (S (S i)) (n - 1)) <= y (S i) ->
         nonincreasing_on (eval (snd (make_monotonic s))) (x i) (x (S i))).
Proof.
  intros n x y type left lv right rv Ab T.
  destruct (set_points_glued n x y type left lv right rv Ab) as (s & E & Fx & Fy & Fn & _ & _ & G & SM & _).
  specialize (SM T). exists s. split; [exact E|]. intros i Hi. rewrite <- Fn in Hi. destruct (mono_interval s i G SM Hi) as (U & D). rewrite Fx, Fy, Fn in *.
  replace (Nat.min (S (S i)) (n - 1)) with (Nat.min (S i + 1) (n - 1)) by (f_equal; lia).
  assert (Mi : Nat.min (i + 1) (n - 1) = S i) by lia.
  split; intros A B C; [apply U|apply D]; (split; [try assumption|try assumption]); rewrite ?Mi; try assumption; cbn [Nat.sub]; now rewrite Nat.sub_0_r.
Qed.
Print Assumptions C45_monotone_interval_partial.

Theorem C45_monotone_data :
  forall n x y type left lv right rv, abscissae n x left right -> type <> linear ->
    exists s, set_points n x y type left lv right rv = Some s /\
      ((forall i, (S i < n)%nat -> y i <= y (S i)) -> nondecreasing_on (eval (snd (make_monotonic s))) (x 0%nat) (x (n - 1)%nat)) /\
      ((forall i, (S i < n)%nat -> y (S i) <= y i) -> nonincreasing_on (eval (snd (make_monotonic s))) (x 0%nat) (x (n - 1)%nat)).
Proof.
  intros n x y type left lv right rv Ab T.
  destruct (set_points_glued n x y type left lv right rv Ab) as (s & E & Fx & Fy & Fn & _ & _ & G & SM & _).
  specialize (SM T). exists s. split; [exact E|]. pose proof (mono_all s G SM) as U. pose proof (mono_all_down s G SM) as D. rewrite Fx, Fy, Fn in *. auto.
Qed.
Print Assumptions C45_monotone_data.

(** the filter keeps the interpolation property and a continuous slope *)
Theorem C45_still_interpolates :
  forall n x y type left lv right rv, abscissae n x left right -> type <> linear ->
    exists s, set_points n x y type left lv right rv = Some s /\
      let s' := snd (make_monotonic s) in
      (forall i, (i < n)%nat -> eval s' (x i) = y i) /\ continuity (eval s') /\
      (forall t, derivable_pt_lim (eval s') t (deriv s' 1 t)) /\ continuity (deriv s' 1).
Proof.
  intros n x y type left lv right rv Ab T.
  destruct (set_points_glued n x y type left lv right rv Ab) as (s & E & Fx & Fy & Fn & _ & _ & G & SM & _).
  specialize (SM T). exists s. split; [exact E|]. destruct (mono_form s G SM) as (G' & SM' & En & Ex & Ey & _). cbn zeta.
  set (s' := snd (make_monotonic s)) in *. split; [intros i Hi; rewrite <- Fx, <- Ex, (hits s' G') by (rewrite En, Fn; exact Hi); now rewrite Ey, Fy|].
  split; [exact (continuous s' G')|]. split; [exact (derivative s' G' SM')|exact (derivative_continuous s' G' SM')].
Qed.
Print Assumptions C45_still_interpolates.

Example C45_nonvacuous : abscissae 4 INR second_deriv second_deriv /\ forall i, (S i < 4)%nat -> INR i <= INR (S i).
Proof. split; [apply inr_abscissae; lia|]. intros i _. apply le_INR. lia. Qed.
