(** Theorems about the constant-velocity spline (C54, C75, C76). *)
From Coq Require Import QArith Reals Lra Lia List Arith.
From Verif.Model Require Import Base CVSpline.
From Verif.Spec Require Import CVSplineSpec.
From Verif.Proofs Require Import CVSplineProofs.
Import ListNotations.

Section C54.
Local Open Scope Q_scope.
(** the claim fails on every path: adding any point between the ends reads one past the end of the list of positions *)
Theorem C54_refuted : exists (path : list nat) pos L p,
  length pos = length path /\ increasing pos /\ 0 <= p /\ p <= L /\ forall fuel v, (0 < fuel)%nat -> add_point fuel None path pos L p v = UB.
Proof.
  exists [0; 1; 2; 3]%nat, [0; 1; 2; 3], 3, (3 # 2). split; [reflexivity|]. split.
  - intros i j a b Hij. destruct i as [|[|[|[|i]]]], j as [|[|[|[|j]]]]; cbn; try lia; try discriminate; intros E1 E2; try injection E1 as <-; try injection E2 as <-; try reflexivity;
      try (destruct i; discriminate); try (destruct j; discriminate).
  - split; [discriminate|]. split; [discriminate|]. intros fuel v Hf. apply out_of_bounds; cbn; try lia; discriminate.
Qed.
Theorem C54_always_refuted : forall {A} fuel (path : list A) pos L p v,
  (2 <= length path)%nat -> length pos = length path -> 0 <= p -> p <= L -> (0 < fuel)%nat -> add_point fuel None path pos L p v = UB.
Proof. intros A. exact out_of_bounds. Qed.
(** adding in front of or behind the path touches no position *)
Theorem C54_ends_partial : forall {A} fuel ghost (path : list A) pos L p v,
  (p < 0 -> add_point fuel ghost path pos L p v = Ok (v :: path, pos)) /\ (0 <= p -> L < p -> add_point fuel ghost path pos L p v = Ok (path ++ [v], pos)).
Proof.
  intros A fuel ghost path pos L p v. unfold add_point. split.
  - intro H. now rewrite (proj2 (Qltb_t p 0) H).
  - intros H0 H. now rewrite (proj2 (Qltb_f p 0) H0), (proj2 (Qltb_t L p) H).
Qed.
(** supposing the access past the end yields some number, the search ends after at most as many steps as there are points and
    the new point is either refused or inserted where its position belongs *)
Theorem C54_loop_partial : forall {A} fuel g (path : list A) pos L p v,
  (1 <= length path)%nat -> length pos = length path -> (length path <= fuel)%nat -> increasing pos -> (forall a, nth_error pos 0 = Some a -> a < p) ->
  (forall a, In a pos -> ~ a == p) -> 0 <= p -> p <= L ->
  add_point fuel (Some g) path pos L p v = Ok (path, pos) \/
  exists path' pos', add_point fuel (Some g) path pos L p v = Ok (path', pos') /\ increasing pos' /\ In p pos' /\ length path' = S (length path) /\ length pos' = S (length pos).
Proof.
  intros A fuel g path pos L p v Hn He Hf S A0 Np H0 HL. unfold add_point. rewrite (proj2 (Qltb_f p 0) H0), (proj2 (Qltb_f L p) HL).
  destruct (locate_ok pos g p Np fuel 0 (length path)) as [E | (u & E & Hu & B1 & B2)]; try lia.
  - exact A0.
  - intros b Eb. rewrite <- He in Eb. assert (nth_error pos (length pos) = None) by (apply nth_error_None; lia). congruence.
  - left. now rewrite E.
  - right. rewrite E. cbn [bind]. eexists _, _. split; [reflexivity|]. split; [now apply insert_increasing|]. unfold insert_at. split; [apply in_or_app; right; now left|].
    rewrite !app_length. cbn [length]. rewrite !firstn_length, !skipn_length. lia.
Qed.
(** a point exactly at a stored position makes the search run forever *)
Theorem C54_hang_refuted : exists g pos p, increasing pos /\ forall fuel lower upper, lower = 0%nat -> upper = length pos -> locate fuel (Some g) pos p lower upper = OutOfFuel.
Proof.
  exists (1 # 3), [0; 3 # 2; 5 # 2; 7 # 2], (5 # 2). split.
  - intros i j a b Hij. destruct i as [|[|[|[|i]]]], j as [|[|[|[|j]]]]; cbn; try lia; try discriminate; intros E1 E2; try injection E1 as <-; try injection E2 as <-; try reflexivity;
      try (destruct i; discriminate); try (destruct j; discriminate).
  - induction fuel as [|f IH]; intros lower upper -> ->; [reflexivity|]. cbn. now apply IH.
Qed.
Example C54_nonvacuous : add_point 9 (Some (1 # 3)) [10; 11; 12; 13]%nat [0; 3 # 2; 5 # 2; 7 # 2] 4 (2 # 1) 99%nat = Ok ([10; 11; 99; 12; 13]%nat, [0; 3 # 2; 2 # 1; 5 # 2; 7 # 2])
  /\ add_point 9 None [10; 11; 12; 13]%nat [0; 3 # 2; 5 # 2; 7 # 2] 4 (2 # 1) 99%nat = UB
  /\ add_point 9 None [10; 11]%nat [0; 3 # 2] 4 (- 1 # 1) 99%nat = Ok ([99; 10; 11]%nat, [0; 3 # 2]).
Proof. split; [|split]; reflexivity. Qed.
End C54.

Local Open Scope R_scope.
(** the integration rule is exact for speeds that are cubic polynomials of the parameter *)
Theorem C75_step_exact : forall a b c d F t0 t1, integral_from_zero (cubic a b c d) F -> Simpson_step (cubic a b c d) t0 t1 = F t1 - F t0.
Proof. exact simpson_cubic. Qed.
(** but the tabulated length of a path of speed 1 + x is too large from the second entry on, although the rule is exact for it *)
Theorem C75_refuted : exists v F, integral_from_zero v F /\ (forall t t', Simpson_step v t t' = F t' - F t) /\
  forall step i, 0 < step -> (2 <= i)%nat -> F (list_x step i) < list_l v step i.
Proof.
  exists ramp, (fun t => t + t ^ 2 / 2). split.
  - split; [cbn; lra|]. intro t. unfold ramp. eapply DerivLib.dl_eq; [DerivLib.dlauto; lra|]. cbn [INR pred pow]. field.
  - split; [intros; unfold Simpson_step, ramp; field|]. intros step i Hs Hi. destruct (ramp_wrong step Hs i) as (_ & _ & _ & D). now apply D.
Qed.
(** what holds: exact for constant speed, bounded by the extreme speeds, and strictly increasing *)
Theorem C75_constant_partial : forall c step i, list_l (fun _ => c) step i = c * (INR i * step).
Proof. intros. now rewrite table_const, list_x_val. Qed.
Theorem C75_bounds_partial : forall v step lo hi, 0 <= step -> (forall t, lo <= v t <= hi) -> forall i, lo * (INR i * step) <= list_l v step i <= hi * (INR i * step).
Proof. intros v step lo hi Hs H i. rewrite <- list_x_val. now apply table_bounds. Qed.
Theorem C75_increasing_partial : forall v step, 0 < step -> (forall t, 0 < v t) -> forall i j, (i < j)%nat -> list_l v step i < list_l v step j.
Proof. exact table_increasing. Qed.
Example C75_nonvacuous : list_l ramp 1 2 = 9 / 2 /\ list_x 1 2 + list_x 1 2 ^ 2 / 2 = 4 /\ integral_from_zero (cubic 1 2 3 4) (fun t => t + t ^ 2 + t ^ 3 + t ^ 4).
Proof.
  split; [cbn; unfold Simpson_step, ramp; field|]. split; [cbn; field|]. split; [cbn; ring|].
  intro t. unfold cubic. eapply DerivLib.dl_eq; [DerivLib.dlauto; lra|]. cbn [INR pred pow]. ring.
Qed.

(** tangent of length one, acceleration normal to it *)
Theorem C76_unit : forall g1, 0 < dot g1 g1 -> dot (dl_vec g1) (dl_vec g1) = 1.
Proof. exact unit_tangent. Qed.
Theorem C76_normal : forall g1 g2 l1 l2, length g2 = length g1 -> 0 < dot g1 g1 -> l1 = sqrt (dot g1 g1) -> l2 = dot g1 g2 / l1 ->
  dot (d2l_vec g1 g2 l1 l2) (dl_vec g1) = 0.
Proof. exact normal. Qed.
Theorem C76_derivatives : forall (g g1 g2 : list (R -> R)) (len1 len2 X : R -> R) s i f f1 f2,
  nth_error g i = Some f -> nth_error g1 i = Some f1 -> nth_error g2 i = Some f2 ->
  (forall x, derivable_pt_lim f x (f1 x)) -> (forall x, derivable_pt_lim f1 x (f2 x)) ->
  (forall x, len1 x = sqrt (dot (map (fun h => h x) g1) (map (fun h => h x) g1))) -> (forall x, 0 < len1 x) ->
  (forall x, derivable_pt_lim len1 x (len2 x)) -> (forall t, derivable_pt_lim X t (/ len1 (X t))) ->
  exists T N, nth_error (dl_vec (map (fun h => h (X s)) g1)) i = Some T /\
    nth_error (d2l_vec (map (fun h => h (X s)) g1) (map (fun h => h (X s)) g2) (len1 (X s)) (len2 (X s))) i = Some N /\
    derivable_pt_lim (fun t => f (X t)) s T /\ derivable_pt_lim (fun t => f1 (X t) / len1 (X t)) s N.
Proof. exact tangent_derivative. Qed.
(** moving along a circle of radius one at unit speed *)
Example C76_nonvacuous : dot (d2l_vec [3; 4] [4; -3] 5 0) (dl_vec [3; 4]) = 0 /\ dot (dl_vec [3; 4]) (dl_vec [3; 4]) = 1.
Proof.
  split.
  - apply C76_normal; [reflexivity|cbn; lra| |cbn; field].
    cbn [dot]. replace (3 * 3 + (4 * 4 + 0)) with (5 * 5) by ring. rewrite sqrt_square; lra.
  - apply C76_unit. cbn. lra.
Qed.
Print Assumptions C54_refuted.
Print Assumptions C54_always_refuted.
Print Assumptions C54_ends_partial.
Print Assumptions C54_loop_partial.
Print Assumptions C54_hang_refuted.
Print Assumptions C75_step_exact.
Print Assumptions C75_refuted.
Print Assumptions C75_constant_partial.
Print Assumptions C75_bounds_partial.
Print Assumptions C75_increasing_partial.
Print Assumptions C76_unit.
Print Assumptions C76_normal.
Print Assumptions C76_derivatives.
