(** C124: the points and the status of one integration of the bounce. *)
From Coq Require Import Reals List Lra Lia ZArith FunctionalExtensionality.
From Verif Require Import Model.BounceStart Model.RungeKutta Spec.BounceStartSpec Proofs.RungeKuttaProofs Proofs.IntegrateProofs.
Import ListNotations.
Open Scope R_scope.

(** [all] are the computed points, newest first; after an undershoot the last one is dropped *)
Theorem C124_integrate_partial : forall dV alpha L e eps m root maxiter l0 r l v st ps u o,
  (forall x, 0 < root x) -> 0 < r -> 0 < L ->
  IntegrateBounce dV alpha L e eps m root maxiter l0 (Start r l v) = Some (st, ps, u, o) ->
  exists all last older newer, all = last :: older /\ ps = (if u then older else all) /\
    all = newer ++ [mkPoint r l v (d2ldrho2 dV alpha l r v); mkPoint 0 l0 0 (dV l0)] /\
    (2 + Nat.min maxiter 5 <= length all <= 2 + maxiter)%nat /\
    (** consecutive points: rho grows, one Runge-Kutta step, and from the seventh point on the motion still rolls *)
    (forall newer q p older, all = newer ++ q :: p :: older -> p_rho p < p_rho q /\
       (older <> [] ->
        (exists step, 0 < step /\ p_rho q = p_rho p + step /\
           (p_l q, p_dl q) = fst (RK5_step (AuxFunctionDev dV alpha) (p_l p, p_dl p) (p_dl p, p_d2l p) (to_float (p_rho p)) (to_float step)) /\
           p_d2l q = d2ldrho2 dV alpha (p_l q) (p_rho q) (p_dl q)) /\
        ((7 <= length (p :: older))%nat -> e < p_dl p /\ p_l p < L * (1 + e)))) /\
    (** it stops early only for a reason *)
    ((length all < 2 + maxiter)%nat -> p_dl last <= e \/ L * (1 + e) <= p_l last) /\
    (** the status *)
    (st = Converged <-> Rabs (p_dl last) <= e /\ Rabs (p_l last - L) <= e * L) /\
    (st = Undershoot <-> p_dl last <= e /\ ~ (Rabs (p_dl last) <= e /\ Rabs (p_l last - L) <= e * L)) /\
    (st = Overshoot <-> e < p_dl last) /\
    (u = true <-> st = Undershoot) /\ (o = true <-> e < p_dl last /\ L * (1 + e) <= p_l last).
Proof. exact integrate_points. Qed.

(** the next step: the fifth power of the step changes by the ratio of the tolerated to the estimated error, up to max_step;
    without max_step half of it is taken *)
Theorem C124_step : forall dV alpha eps m p step q next,
  let err := snd (RK5_step (AuxFunctionDev dV alpha) (p_l p, p_dl p) (p_dl p, p_d2l p) (to_float (p_rho p)) (to_float step)) in
  let estimated := Rmax (Rabs (fst err)) (Rabs (snd err)) in
  let tolerated := eps * Rmax (Rabs (p_l p + p_l q)) (Rabs (p_dl p + p_dl q)) in
  0 < step -> 0 < estimated -> 0 < tolerated -> advance dV alpha eps m (fun x => Rpower x (/ 5)) p step = (q, next) -> 0 < next /\
  (0 < m -> next <= m /\ next ^ 5 * estimated <= step ^ 5 * tolerated /\ (next < m -> next ^ 5 * estimated = step ^ 5 * tolerated)) /\
  (m <= 0 -> (2 * next) ^ 5 * estimated = step ^ 5 * tolerated).
Proof. exact next_step. Qed.

(** it always ends with a status *)
Theorem C124_ends : forall dV alpha L e eps m root maxiter l0 r l v, exists st ps u o,
  IntegrateBounce dV alpha L e eps m root maxiter l0 (Start r l v) = Some (st, ps, u, o).
Proof. exact integrate_some. Qed.

(** "overshoot" need not mean that the end of the path was reached: when the iterations run out (here with
    max_step = 1; root >= 1 stands for the infinity of pow(x / 0, 0.2), the estimated error is 0) it is reported on
    the way, with the point at less than a tenth of the path.  [maxiter] may be the 100000 of the calls. *)
Theorem C124_overshoot_refuted : forall alpha eps root maxiter, (Z.of_nat maxiter < 2 ^ 23)%Z -> (forall x, 1 <= root x) ->
  exists dV L e r l v last rest, 0 < e < 1 /\ 0 < r /\ 0 < l < L /\ e < v /\
  IntegrateBounce dV alpha L e eps 1 root maxiter 1 (Start r l v) = Some (Overshoot, last :: rest, false, false) /\
  p_l last < L / 10 /\ 0 < p_dl last.
Proof. exact not_arrived. Qed.

(** the second derivative that is returned for rho = 0 is alpha + 1 times the one of the motion *)
Theorem C124_acceleration_refuted : forall alpha c l0 L e eps m root maxiter r l v st ps u o, (1 <= alpha)%nat -> c <> 0 ->
  (forall x, 0 < root x) -> 0 < r -> 0 < L -> (1 <= maxiter)%nat ->
  IntegrateBounce (fun x => c + (x - l0) * 0) alpha L e eps m root maxiter l0 (Start r l v) = Some (st, ps, u, o) ->
  exists phi phi' a p rest, rolls alpha (fun x => c + (x - l0) * 0) l0 phi phi' /\ (forall t, 0 < t -> derivable_pt_lim phi' t a) /\
    ps = rest ++ [p] /\ p_rho p = 0 /\ p_l p = l0 /\ p_dl p = 0 /\ p_d2l p = (INR alpha + 1) * a /\ p_d2l p <> a.
Proof. exact first_acceleration. Qed.

(** both runs exist: stopped by the number of steps, and a status for every start *)
Example C124_nonvacuous : exists st ps u o,
  IntegrateBounce (fun l => 2 / l) 2 1 (/ 10) (/ 1000) 0 (fun _ => 1) 0 (/ 2) (Start 2 2 1) = Some (st, ps, u, o) /\
  (forall x : R, 0 < (fun _ : R => 1) x) /\ st = Overshoot /\ o = true /\ length ps = 2%nat.
Proof.
  destruct (integrate_some (fun l => 2 / l) 2 1 (/ 10) (/ 1000) 0 (fun _ => 1) 0 (/ 2) 2 2 1) as (st & ps & u & o & H).
  exists st, ps, u, o; split; [exact H|split; [intros; lra|]].
  unfold IntegrateBounce, classify, loop in H; cbn [p_dl p_l] in H.
  rewrite Rabs_R1 in H. destruct (Rle_dec 1 (/ 10)); [lra|]. cbn [andb] in H.
  destruct (Rle_dec (/ 10) ((2 - 1) / 1)) as [C|C]; [|lra]. inversion H; repeat split.
Qed.
Example C124_nonvacuous_maxiter : (Z.of_nat (Pos.to_nat 100000) < 2 ^ 23)%Z.
Proof. rewrite positive_nat_Z; reflexivity. Qed.

(** the hypotheses hold for l'' = l from l = 1 at rest *)
Example C124_nonvacuous_step : let p := mkPoint 1 1 0 1 in
  let r := RK5_step (AuxFunctionDev (fun l => l) 0) (p_l p, p_dl p) (p_dl p, p_d2l p) (to_float (p_rho p)) (to_float 1) in
  0 < Rmax (Rabs (fst (snd r))) (Rabs (snd (snd r))) /\ 0 < / 1000 * Rmax (Rabs (p_l p + fst (fst r))) (Rabs (p_dl p + snd (fst r))).
Proof.
  intros p r. unfold p in r. cbn [p_l p_dl p_d2l p_rho] in r. subst p. cbn [p_l p_dl]. subst r. rewrite float_one.
  replace (AuxFunctionDev (fun l => l) 0) with (fun (_ : R) (y : vec) => (snd y, fst y)).
  2: { apply functional_extensionality; intros x; apply functional_extensionality; intros [a b]. unfold AuxFunctionDev, d2ldrho2. cbn [fst snd INR]. f_equal. destruct (Req_EM_T b 0); [reflexivity|]. unfold Rdiv. ring. }
  split.
  - apply Rlt_le_trans with (2 := Rmax_l _ _). apply Rabs_pos_lt. cbn. lra.
  - apply Rmult_lt_0_compat; [lra|]. apply Rlt_le_trans with (2 := Rmax_l _ _). apply Rabs_pos_lt. cbn. lra.
Qed.

Print Assumptions C124_integrate_partial.
Print Assumptions C124_step.
Print Assumptions C124_ends.
Print Assumptions C124_overshoot_refuted.
Print Assumptions C124_acceleration_refuted.
