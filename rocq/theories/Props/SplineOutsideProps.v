(** C91: the splines outside the data and their higher derivatives. *)
From Coq Require Import Reals Lra Lia Arith.
From Verif.Model Require Import Spline.
From Verif.Spec Require Import SplineSpec.
From Verif.Proofs Require Import DerivLib SplineProofs SplineBoundary SplineOutside.
Local Open Scope R_scope.

(** ** C91 *)
Theorem C91_continues_outside :
  forall n x y type left lv right rv, abscissae n x left right -> type <> linear ->
    exists s, set_points n x y type left lv right rv = Some s /\
      continues_beyond (eval s) (x 0%nat) (x 1%nat) (y 0%nat) left /\
      continues_beyond (eval s) (x (n - 1)%nat) (x (n - 2)%nat) (y (n - 1)%nat) right.
Proof. exact continues. Qed.
Print Assumptions C91_continues_outside.

Theorem C91_linear :
  forall n x y left lv right rv, abscissae n x left right ->
    exists s, set_points n x y linear left lv right rv = Some s /\
      (forall i t, (S i < n)%nat -> x i <= t <= x (S i) -> eval s t = chord x y i t) /\
      (forall t, t <= x 0%nat -> eval s t = chord x y 0 t) /\ (forall t, x (n - 1)%nat <= t -> eval s t = chord x y (n - 2) t).
Proof. exact linear_chords. Qed.
Print Assumptions C91_linear.

(** deriv(k + 1) is the derivative of deriv(k), for every order and every kind of spline, except at the data points *)
Theorem C91_derivative_orders :
  forall n x y type left lv right rv, abscissae n x left right ->
    exists s, set_points n x y type left lv right rv = Some s /\
      forall t, (forall i, (i < n)%nat -> t <> x i) ->
        derivable_pt_lim (eval s) t (deriv s 1 t) /\ forall k, derivable_pt_lim (deriv s (S k)) t (deriv s (S (S k)) t).
Proof.
  intros n x y type left lv right rv Ab. destruct (set_points_glued n x y type left lv right rv Ab) as (s & E & Fx & Fy & Fn & _ & _ & G & _).
  exists s. split; [exact E|]. intros t H. rewrite <- Fn, <- Fx in H. split; [exact (proj1 (between_all s G 0 t H))|]. intro k. exact (proj2 (between_all s G k t H)).
Qed.
Print Assumptions C91_derivative_orders.

Example C91_nonvacuous :
  abscissae 4 INR second_deriv not_a_knot /\ abscissae 4 INR first_deriv first_deriv /\ (forall i, (i < 4)%nat -> 5 / 2 <> INR i) /\
  beyond (INR 0) (INR 1) (- 1) /\ beyond (INR 3) (INR 2) 4 /\ inside (INR 3) (INR 2) (5 / 2) /\ chord INR (fun i => INR i * INR i) 2 4 = 14.
Proof.
  assert (A : forall l r, abscissae 4 INR l r) by (intros l r; split; [lia|]; split; [lia|]; intros i Hi; apply lt_INR; lia).
  split; [apply A|]. split; [apply A|]. split; [intros [|[|[|[|i]]]] H; cbn; try lia; lra|]. cbn. unfold beyond, inside, chord. cbn. repeat split; try lra.
Qed.
