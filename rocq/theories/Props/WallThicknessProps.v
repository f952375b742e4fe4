(** C116, C117: thickness of the bubble wall. *)
From Coq Require Import Reals List Lra Lia.
From Verif Require Import Base Model.KFunctions Model.WallThickness Spec.WallThicknessSpec Proofs.WallThicknessProofs.
Import ListNotations.
Open Scope R_scope.

(** the eleven points between the vacua *)
Theorem C116_points : forall vs vc, length (basepoints vs vc) = 11%nat /\
  (forall k, (k < 11)%nat -> nth k (basepoints vs vc) [] = map (fun p => fst p * (1 - 1 / 10 * INR k) + snd p * (1 / 10 * INR k)) (combine vs vc)) /\
  (length vs = length vc -> nth 0 (basepoints vs vc) [] = vs /\ nth 10 (basepoints vs vc) [] = vc).
Proof. exact basepoints_ok. Qed.
Print Assumptions C116_points.
Theorem C116_mismatch : forall compute spline lowest length_of vc vs, length vc <> length vs ->
  calculate_wall_thickness_plane compute spline lowest length_of vc vs = Throw RuntimeError.
Proof. intros compute spline lowest length_of vc vs H. unfold calculate_wall_thickness_plane. destruct (Nat.eqb_spec (length vc) (length vs)); [contradiction|reflexivity]. Qed.
Print Assumptions C116_mismatch.

(** if all threads finish, every point has its value, whatever the schedule *)
Theorem C116_threads_partial : forall n value m sched, (0 < m)%nat -> let s := trun n value sched (tstart m n) in
  t_terminated s = false -> (forall i, (i < m)%nat -> nth_error (t_threads s) i = Some TDone) -> t_data s = map value (seq 0 n).
Proof. exact all_done. Qed.
Print Assumptions C116_threads_partial.
(** one thread always finishes its work *)
Theorem C116_single_thread : forall n value,
  (forall sched, t_terminated (trun n value sched (tstart 1 n)) = false) /\
  exists sched, let s := trun n value sched (tstart 1 n) in nth_error (t_threads s) 0 = Some TDone /\ t_data s = map value (seq 0 n).
Proof.
  intros n value. split; [exact (alone_safe n value)|]. destruct (alone n value) as [sched [T D]]. exists sched. split; [exact D|].
  apply (all_done n value 1 sched); [lia|exact T|]. intros i I. replace i with 0%nat by lia. exact D.
Qed.
Print Assumptions C116_single_thread.
(** with two threads or more the program can be terminated by the exception of at() *)
Theorem C116_race : forall n value m, (2 <= m)%nat -> (0 < n)%nat -> exists sched, t_terminated (trun n value sched (tstart m n)) = true.
Proof. exact race. Qed.
Print Assumptions C116_race.
Theorem C116_threads_refuted : ~ (forall n value m sched, (0 < m)%nat -> t_terminated (trun n value sched (tstart m n)) = false).
Proof.
  intro H. destruct (race 11 INR 2 ltac:(lia) ltac:(lia)) as [sched E]. rewrite (H 11%nat INR 2%nat sched ltac:(lia)) in E. discriminate E.
Qed.
Print Assumptions C116_threads_refuted.
(** without threads (hardware_concurrency may be 0) nothing is computed *)
Theorem C116_no_threads : forall n value sched, t_data (trun n value sched (tstart 0 n)) = repeat 0 n.
Proof.
  intros n value sched. unfold trun, tstart. cbn [repeat]. induction sched as [|i sched IH]; [reflexivity|]. cbn [fold_left].
  unfold tstep at 2. cbn [t_terminated t_threads]. assert (E : nth_error (@nil tpc) i = None) by (destruct i; reflexivity). rewrite E. exact IH.
Qed.
Print Assumptions C116_no_threads.

(** from the data to the thickness *)
Theorem C116_barrier : forall spline lowest vc data f b,
  (forall t, spline data t = - f t) ->
  (exists t, 0 <= t <= 1 /\ lowest (spline data) = spline data t /\ forall u, 0 <= u <= 1 -> spline data t <= spline data u) ->
  barrier f b -> 0 < b -> plane_thickness spline lowest vc data = Finite (vc / sqrt (8 * b)).
Proof.
  intros spline lowest vc data f b S L B P. rewrite (plane_barrier spline lowest vc data f b S L B). unfold over_root. destruct (Rlt_dec 0 b); [reflexivity|contradiction].
Qed.
Print Assumptions C116_barrier.
(** which is the thickness of the static wall of a quartic potential with degenerate minima *)
Theorem C116_static_wall : forall lam v, 0 < lam -> 0 < v -> exists b L,
  barrier (fun t => quartic lam v (t * v)) b /\ over_root v b = Finite L /\ static_wall (quartic lam v) (fun z => 1 / 2 * v * (1 - tanh (z / L))).
Proof.
  intros lam v HL HV. exists (lam * v ^ 4 / 64). assert (P : 0 < lam * v ^ 4 / 64) by (apply Rdiv_lt_0_compat; [apply Rmult_lt_0_compat; [exact HL|apply pow_lt; exact HV]|lra]).
  eexists. split; [apply quartic_barrier; assumption|]. assert (E : over_root v (lam * v ^ 4 / 64) = Finite (v / sqrt (8 * (lam * v ^ 4 / 64)))) by (unfold over_root; destruct (Rlt_dec 0 (lam * v ^ 4 / 64)); [reflexivity|contradiction]).
  split; [exact E|apply quartic_wall; assumption].
Qed.
Print Assumptions C116_static_wall.

Example C116_nonvacuous : exists sched, let s := trun 2 (fun k => INR k + 5) sched (tstart 2 2) in
  t_terminated s = false /\ (forall i, (i < 2)%nat -> nth_error (t_threads s) i = Some TDone) /\ t_data s = [0 + 5; 1 + 5].
Proof.
  exists [0; 0; 1; 1; 0; 0; 1; 1]%nat. cbv [trun fold_left tstart repeat]. split; [reflexivity|]. split; [|reflexivity].
  intros [|[|i]] H; [reflexivity|reflexivity|lia].
Qed.

(** * C117 *)

(** a symmetric phase at the origin and one maximum on the line: the thickness of the barrier *)
Theorem C117_line_partial : forall V fuel brent guess length_of vc vs b res,
  length vs = length vc -> (forall x, In x vs -> x = 0) ->
  (forall g t f, brent (minus_V V vc vs) g = Some (t, f) -> 0 <= t <= 1 /\ f = minus_V V vc vs t /\ forall u, 0 <= u <= 1 -> V (on_line u vc vs) <= V (on_line t vc vs)) ->
  barrier (fun t => V (on_line t vc vs)) b -> 0 < b ->
  calculate_wall_thickness_1D V fuel brent guess length_of vc vs = Ok res -> res = Finite (length_of vc / sqrt (8 * b)).
Proof.
  intros V fuel brent guess length_of vc vs b res L Z B BAR BP H. rewrite (line_right V fuel brent guess length_of vc vs b res L Z B BAR BP H).
  unfold over_root. destruct (Rlt_dec 0 b); [reflexivity|contradiction].
Qed.
Print Assumptions C117_line_partial.

(** of several maxima the lowest is taken *)
Theorem C117_lowest : forall V fuel brent guess vc vs res,
  (forall g t f, brent (minus_V V vc vs) g = Some (t, f) -> f = minus_V V vc vs t) ->
  GSL_Find_Maximum_line V fuel brent guess vc vs = Ok res ->
  exists t, (exists g f, brent (minus_V V vc vs) g = Some (t, f)) /\ res = map (Rmult t) vc ++ [V (map (Rmult t) vc) - Rmin (V (map (fun _ => 0) vc)) (V vc)] /\
  exists sols, collect fuel (brent (minus_V V vc vs)) guess 0 [] = Ok sols /\ forall r, In r sols -> V (on_line t vc vs) <= V (on_line (fst r) vc vs).
Proof. exact line_chosen. Qed.
Print Assumptions C117_lowest.

(** the loop ends after twenty successes, and never without success *)
Theorem C117_loop : forall brent guess, (forall g, exists r, brent g = Some r) -> exists res, collect 20 brent guess 0 [] = Ok res /\ length res = 20%nat.
Proof.
  intros brent guess H. destruct (collect_always 19 brent guess 0 [] H eq_refl) as [res E]. exists res. split; [exact E|]. apply (collect_found _ _ _ _ _ _ E).
Qed.
Print Assumptions C117_loop.
Theorem C117_loop_refuted : exists brent guess, forall fuel, collect fuel brent guess 0 [] = OutOfFuel.
Proof. exists (fun _ => None), (fun _ => 0). intro fuel. apply collect_never. reflexivity. Qed.
Print Assumptions C117_loop_refuted.

(** two humps, at 1/4 and at 7/8; the second is higher *)
Definition hump (x : R) : R := - x ^ 4 / 4 + 13 / 8 * x ^ 3 / 3 - 25 / 32 * x ^ 2 / 2 + 7 / 64 * x.
Definition humps (v : list R) : R := match v with [x] => hump x | _ => 0 end.
Definition climber (f : R -> R) (g : R) : option (R * R) := if Rlt_dec g (1 / 2) then Some (1 / 4, f (1 / 4)) else Some (7 / 8, f (7 / 8)).
Definition guesses (n : nat) : R := match n with O => 0 | _ => 1 end.
Lemma humps_line : forall t, humps (on_line t [1] [0]) = hump t.
Proof. intro t. unfold humps, on_line. cbn [combine map fst snd]. f_equal. ring. Qed.
Lemma hump_high : forall x, hump x <= hump (7 / 8).
Proof.
  intro x. assert (E : hump (7 / 8) - hump x = (x - 7 / 8) ^ 2 * ((x / 2 - 5 / 48) ^ 2 + (13 / 768 - 25 / 2304))) by (unfold hump; field).
  assert (0 <= (x - 7 / 8) ^ 2) by apply pow2_ge_0. assert (0 <= (x / 2 - 5 / 48) ^ 2) by apply pow2_ge_0. nra.
Qed.
Lemma hump_low : forall x, x < 2 / 3 -> hump x <= hump (1 / 4).
Proof.
  intros x H. assert (E : hump (1 / 4) - hump x = (x - 1 / 4) ^ 2 * ((2 / 3 - x) * (1 - x) / 4)) by (unfold hump; field).
  assert (0 <= (x - 1 / 4) ^ 2) by apply pow2_ge_0. assert (0 <= (2 / 3 - x) * (1 - x) / 4) by nra. nra.
Qed.
Lemma climber_maxima : forall g t f, climber (minus_V humps [1] [0]) g = Some (t, f) ->
  f = minus_V humps [1] [0] t /\ local_maximum (fun t => humps (on_line t [1] [0])) t /\ (t = 1 / 4 \/ t = 7 / 8).
Proof.
  intros g t f H. unfold climber in H. destruct (Rlt_dec g (1 / 2)); apply (f_equal (fun o => match o with Some p => p | None => (t, f) end)) in H;
    pose proof (f_equal fst H) as H1; pose proof (f_equal snd H) as H2; cbn [fst snd] in H1, H2; subst t f; (split; [reflexivity|]); (split; [|tauto]).
  - exists (1 / 4). split; [lra|]. intros u U. rewrite !humps_line. apply hump_low. apply Rabs_def2 in U. lra.
  - exists 1. split; [lra|]. intros u U. rewrite !humps_line. apply hump_high.
Qed.
Theorem C117_highest_refuted : ~ (forall V fuel brent guess length_of vc vs b res,
  length vs = length vc -> (forall x, In x vs -> x = 0) ->
  (forall g, brent (minus_V V vc vs) g <> None) ->
  (forall g t f, brent (minus_V V vc vs) g = Some (t, f) -> f = minus_V V vc vs t /\ local_maximum (fun t => V (on_line t vc vs)) t) ->
  (exists n t f, (n < 20)%nat /\ brent (minus_V V vc vs) (guess n) = Some (t, f) /\ forall u, V (on_line u vc vs) <= V (on_line t vc vs)) ->
  barrier (fun t => V (on_line t vc vs)) b -> 0 < b ->
  calculate_wall_thickness_1D V fuel brent guess length_of vc vs = Ok res -> res = Finite (length_of vc / sqrt (8 * b))).
Proof.
  intro H.
  assert (SUCC : forall g, exists r, climber (minus_V humps [1] [0]) g = Some r) by (intro g; unfold climber; destruct (Rlt_dec g (1 / 2)); eexists; reflexivity).
  assert (RES : exists res, GSL_Find_Maximum_line humps 20 climber guesses [1] [0] = Ok res).
  { unfold GSL_Find_Maximum_line. destruct (collect_always 19 (climber (minus_V humps [1] [0])) guesses 0 [] SUCC eq_refl) as [sols E]. rewrite E.
    destruct (collect_found _ _ _ _ _ _ E) as [L _]. destruct sols; [discriminate L|]. cbn [bind choose]. eexists. reflexivity. }
  destruct RES as [res RS].
  destruct (line_chosen humps 20 climber guesses [1] [0] res ltac:(intros g t f G; apply (climber_maxima g t f G)) RS) as [t [[g [f G]] [ER [sols [C LOW]]]]].
  destruct (climber_maxima g t f G) as [_ [_ T]].
  assert (FIRST : In (1 / 4, minus_V humps [1] [0] (1 / 4)) sols).
  { apply (collect_first _ _ _ _ _ C). unfold climber, guesses. destruct (Rlt_dec 0 (1 / 2)); [reflexivity|exfalso; lra]. }
  specialize (LOW _ FIRST). cbn [fst] in LOW. rewrite !humps_line in LOW.
  assert (H1 : hump (1 / 4) = 1 / 96) by (unfold hump; field). assert (H2 : hump (7 / 8) = 637 / 49152) by (unfold hump; field).
  assert (T1 : t = 1 / 4) by (destruct T as [T|T]; [exact T|]; exfalso; subst t; lra). subst t.
  assert (VB : calculate_wall_thickness_1D humps 20 climber guesses (fun _ => 1) [1] [0] = Ok (over_root 1 (1 / 96))).
  { unfold calculate_wall_thickness_1D. rewrite RS, ER. cbn [bind map app length nth_error].
    assert (E : humps [1 / 4 * 1] - Rmin (humps [0]) (humps [1]) = 1 / 96).
    { unfold humps. replace (1 / 4 * 1) with (1 / 4) by ring. rewrite H1. replace (hump 0) with 0 by (unfold hump; field). replace (hump 1) with (1 / 96) by (unfold hump; field). rewrite Rmin_left by lra. ring. }
    rewrite E. destruct (Req_EM_T (1 / 96) 0); [lra|reflexivity]. }
  assert (BAR : barrier (fun t => humps (on_line t [1] [0])) (637 / 49152)).
  { exists (7 / 8). split; [lra|]. split; [intros u _; rewrite !humps_line; apply hump_high|]. rewrite !humps_line, H2.
    replace (hump 0) with 0 by (unfold hump; field). replace (hump 1) with (1 / 96) by (unfold hump; field). rewrite Rmin_left by lra. ring. }
  specialize (H humps 20%nat climber guesses (fun _ => 1) [1] [0] (637 / 49152) (over_root 1 (1 / 96)) eq_refl ltac:(intros x [<-|[]]; reflexivity)
    ltac:(intros g' X; destruct (SUCC g') as [r Y]; congruence) ltac:(intros g' t' f' G'; destruct (climber_maxima g' t' f' G') as [A [B _]]; split; assumption)).
  assert (HI : exists n t f, (n < 20)%nat /\ climber (minus_V humps [1] [0]) (guesses n) = Some (t, f) /\ forall u, humps (on_line u [1] [0]) <= humps (on_line t [1] [0])).
  { exists 1%nat, (7 / 8), (minus_V humps [1] [0] (7 / 8)). split; [lia|]. split; [unfold climber, guesses; destruct (Rlt_dec 1 (1 / 2)); [exfalso; lra|reflexivity]|].
    intro u. rewrite !humps_line. apply hump_high. }
  specialize (H HI BAR ltac:(lra) VB).
  assert (X : over_root 1 (1 / 96) = over_root 1 (637 / 49152)).
  { rewrite H. unfold over_root. destruct (Rlt_dec 0 (637 / 49152)); [reflexivity|exfalso; lra]. }
  apply over_root_inj in X; lra.
Qed.
Print Assumptions C117_highest_refuted.

(** a symmetric phase away from the origin: the potential is taken at another point *)
Definition wells (v : list R) : R := match v with [x] => (1 - x ^ 2) ^ 2 | _ => 0 end.
Definition centre (f : R -> R) (g : R) : option (R * R) := Some (1 / 2, f (1 / 2)).
Lemma wells_line : forall t, wells (on_line t [1] [-1]) = (1 - (2 * t - 1) ^ 2) ^ 2.
Proof. intro t. unfold wells, on_line. cbn [combine map fst snd]. do 2 f_equal. ring. Qed.
Lemma wells_barrier : barrier (fun t => wells (on_line t [1] [-1])) 1.
Proof.
  exists (1 / 2). split; [lra|]. split.
  - intros u U. rewrite !wells_line. replace ((1 - (2 * (1 / 2) - 1) ^ 2) ^ 2) with (1 ^ 2) by field. apply pow_incr. split; [nra|pose proof (pow2_ge_0 (2 * u - 1)); lra].
  - rewrite !wells_line. rewrite Rmin_left; [field|]. replace ((1 - (2 * 0 - 1) ^ 2) ^ 2) with 0 by ring. replace ((1 - (2 * 1 - 1) ^ 2) ^ 2) with 0 by ring. lra.
Qed.
Theorem C117_symmetric_vev_refuted : ~ (forall V fuel brent guess length_of vc vs b res,
  length vs = length vc ->
  (forall g t f, brent (minus_V V vc vs) g = Some (t, f) -> 0 <= t <= 1 /\ f = minus_V V vc vs t /\ forall u, 0 <= u <= 1 -> V (on_line u vc vs) <= V (on_line t vc vs)) ->
  barrier (fun t => V (on_line t vc vs)) b -> 0 < b ->
  calculate_wall_thickness_1D V fuel brent guess length_of vc vs = Ok res -> res = Finite (length_of vc / sqrt (8 * b))).
Proof.
  intro H.
  assert (SUCC : forall g, exists r, centre (minus_V wells [1] [-1]) g = Some r) by (intro g; eexists; reflexivity).
  assert (RES : exists res, GSL_Find_Maximum_line wells 20 centre (fun _ => 0) [1] [-1] = Ok res).
  { unfold GSL_Find_Maximum_line. destruct (collect_always 19 (centre (minus_V wells [1] [-1])) (fun _ => 0) 0 [] SUCC eq_refl) as [sols E]. rewrite E.
    destruct (collect_found _ _ _ _ _ _ E) as [L _]. destruct sols; [discriminate L|]. cbn [bind choose]. eexists. reflexivity. }
  destruct RES as [res RS].
  assert (INV : forall g t f, centre (minus_V wells [1] [-1]) g = Some (t, f) -> t = 1 / 2 /\ f = minus_V wells [1] [-1] t).
  { intros g t f G. apply (f_equal (fun o => match o with Some p => p | None => (t, f) end)) in G. pose proof (f_equal fst G) as G1. pose proof (f_equal snd G) as G2.
    cbn [fst snd] in G1, G2. subst t f. split; reflexivity. }
  destruct (line_chosen wells 20 centre (fun _ => 0) [1] [-1] res ltac:(intros g t f G; apply (INV g t f G)) RS) as [t [[g [f G]] [ER _]]].
  destruct (INV g t f G) as [T _]. subst t.
  assert (VB : calculate_wall_thickness_1D wells 20 centre (fun _ => 0) (fun _ => 1) [1] [-1] = Ok (over_root 1 (9 / 16))).
  { unfold calculate_wall_thickness_1D. rewrite RS, ER. cbn [bind map app length nth_error].
    assert (E : wells [1 / 2 * 1] - Rmin (wells [0]) (wells [1]) = 9 / 16).
    { unfold wells. rewrite Rmin_right; [field|]. replace ((1 - 1 ^ 2) ^ 2) with 0 by ring. replace ((1 - 0 ^ 2) ^ 2) with 1 by ring. lra. }
    rewrite E. destruct (Req_EM_T (9 / 16) 0); [lra|reflexivity]. }
  specialize (H wells 20%nat centre (fun _ => 0) (fun _ => 1) [1] [-1] 1 (over_root 1 (9 / 16)) eq_refl).
  assert (MAX : forall g t f, centre (minus_V wells [1] [-1]) g = Some (t, f) -> 0 <= t <= 1 /\ f = minus_V wells [1] [-1] t /\ forall u, 0 <= u <= 1 -> wells (on_line u [1] [-1]) <= wells (on_line t [1] [-1])).
  { intros g' t' f' G'. destruct (INV g' t' f' G') as [T F]. split; [lra|]. split; [exact F|]. subst t'. intros u U. rewrite !wells_line.
    replace ((1 - (2 * (1 / 2) - 1) ^ 2) ^ 2) with (1 ^ 2) by field. apply pow_incr. split; [nra|pose proof (pow2_ge_0 (2 * u - 1)); lra]. }
  specialize (H MAX wells_barrier ltac:(lra) VB).
  assert (X : over_root 1 (9 / 16) = over_root 1 1).
  { rewrite H. unfold over_root. destruct (Rlt_dec 0 1); [reflexivity|exfalso; lra]. }
  apply over_root_inj in X; lra.
Qed.
Print Assumptions C117_symmetric_vev_refuted.

(** one hump between 0 and 1 *)
Definition bump (v : list R) : R := match v with [x] => x * (1 - x) | _ => 0 end.
Example C117_nonvacuous : exists res, calculate_wall_thickness_1D bump 20 centre (fun _ => 0) (fun _ => 1) [1] [0] = Ok res /\ res = Finite (1 / sqrt (8 * (1 / 4))).
Proof.
  assert (LINE : forall t, bump (on_line t [1] [0]) = t * (1 - t)) by (intro t; unfold bump, on_line; cbn [combine map fst snd]; ring).
  assert (SUCC : forall g, exists r, centre (minus_V bump [1] [0]) g = Some r) by (intro g; eexists; reflexivity).
  assert (RES : exists res, calculate_wall_thickness_1D bump 20 centre (fun _ => 0) (fun _ => 1) [1] [0] = Ok res).
  { unfold calculate_wall_thickness_1D, GSL_Find_Maximum_line. destruct (collect_always 19 (centre (minus_V bump [1] [0])) (fun _ => 0) 0 [] SUCC eq_refl) as [sols E]. rewrite E.
    destruct (collect_found _ _ _ _ _ _ E) as [L _]. destruct sols; [discriminate L|]. cbn [bind choose map app length nth_error]. eexists. reflexivity. }
  destruct RES as [res RS]. exists res. split; [exact RS|].
  apply (C117_line_partial bump 20 centre (fun _ => 0) (fun _ => 1) [1] [0] (1 / 4) res eq_refl); [intros x [<-|[]]; reflexivity| | |lra|exact RS].
  - intros g t f G. apply (f_equal (fun o => match o with Some p => p | None => (t, f) end)) in G. pose proof (f_equal fst G) as G1. pose proof (f_equal snd G) as G2.
    cbn [fst snd] in G1, G2. subst t f. split; [lra|]. split; [reflexivity|]. intros u U. rewrite !LINE. pose proof (pow2_ge_0 (u - 1 / 2)). nra.
  - exists (1 / 2). split; [lra|]. split; [intros u U; rewrite !LINE; pose proof (pow2_ge_0 (u - 1 / 2)); nra|]. rewrite !LINE. rewrite Rmin_left by lra. field.
Qed.
