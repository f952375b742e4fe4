(** C37-C42: selection of minimisers, global minimum, bisection, worker threads, temperature scans,
    minimisation plane. *)
From Coq Require Import QArith Qabs Permutation Lia Reals.
From Verif.Model Require Import Base Minim Plane.
From Verif.Spec Require Import MinimSpec WorkersSpec PlaneSpec.
From Verif.Proofs Require Import MinimProofs WorkersProofs PlaneProofs.
Local Open Scope Q_scope.

(** ** C37 *)
Theorem C37_selection_round_trip :
  forall haveCMAES haveNLopt gsl cmaes nlopt,
    let u := GetMinimizers haveCMAES haveNLopt (CalcWhichMinimizer gsl cmaes nlopt) in
    useGSL u = gsl /\ useCMAES u = cmaes && haveCMAES /\ useNLopt u = nlopt && haveNLopt.
Proof. cbn zeta. intros. rewrite decode_encode. auto. Qed.
Print Assumptions C37_selection_round_trip.

Theorem C37_codes_differ :
  forall g c n g' c' n', CalcWhichMinimizer g c n = CalcWhichMinimizer g' c' n' -> g = g' /\ c = c' /\ n = n'.
Proof.
  intros g c n g' c' n' E. apply (f_equal (GetMinimizers true true)) in E. rewrite !decode_encode in E.
  rewrite !Bool.andb_true_r in E. inversion E. auto.
Qed.
Print Assumptions C37_codes_differ.

(** every integer decodes to the selection coded by the last three bits of its modulus *)
Theorem C37_every_integer_decodes :
  forall w, let u := GetMinimizers true true w in
    CalcWhichMinimizer (useGSL u) (useCMAES u) (useNLopt u) = (Z.abs w mod 8)%Z.
Proof. exact encode_decode. Qed.
Print Assumptions C37_every_integer_decodes.

Example C37_nonvacuous :
  CalcWhichMinimizer true false true = 6%Z /\ GetMinimizers true true 6 = {| useCMAES := false; useGSL := true; useNLopt := true |} /\
  GetMinimizers true true (-13) = GetMinimizers true true 5.
Proof. vm_compute. auto. Qed.

(** ** C38 *)
(** with multithreading the (cleaned) best of all produced candidates is returned *)
Theorem C38_best_candidate_multithreaded_partial :
  forall haveCMAES haveNLopt P w C,
    p_V P (repeat 0 (p_nVEV P)) <> None ->
    let u := GetMinimizers haveCMAES haveNLopt w in
    exists c, lowest (produced P (useCMAES u) (useGSL u) (useNLopt u) C) c /\
      cleaned P (fst c) (Minimize_gen_all haveCMAES haveNLopt P w true C).
Proof. intros. apply (Minimize_best haveCMAES haveNLopt P w true C). assumption. Qed.
Print Assumptions C38_best_candidate_multithreaded_partial.

(** without multithreading the CMA-ES candidate is not considered *)
Theorem C38_best_candidate_singlethreaded_partial :
  forall haveCMAES haveNLopt P w C,
    p_V P (repeat 0 (p_nVEV P)) <> None ->
    let u := GetMinimizers haveCMAES haveNLopt w in
    exists c, lowest (produced P false (useGSL u) (useNLopt u) C) c /\
      cleaned P (fst c) (Minimize_gen_all haveCMAES haveNLopt P w false C).
Proof. intros. apply (Minimize_best haveCMAES haveNLopt P w false C). assumption. Qed.
Print Assumptions C38_best_candidate_singlethreaded_partial.

Theorem C38_threads_irrelevant_without_cmaes_partial :
  forall haveCMAES haveNLopt P w C,
    useCMAES (GetMinimizers haveCMAES haveNLopt w) = false \/ (p_nVEV P <= 2)%nat ->
    Minimize_gen_all haveCMAES haveNLopt P w true C = Minimize_gen_all haveCMAES haveNLopt P w false C.
Proof. exact Minimize_threads_irrelevant. Qed.
Print Assumptions C38_threads_irrelevant_without_cmaes_partial.

(** a potential that is not a number at the origin hides every other candidate *)
Theorem C38_nan_at_origin_returns_origin :
  forall haveCMAES haveNLopt P w mt C,
    p_V P (repeat 0 (p_nVEV P)) = None ->
    cleaned P (repeat 0 (p_nVEV P)) (Minimize_gen_all haveCMAES haveNLopt P w mt C).
Proof. exact Minimize_nan_origin. Qed.
Print Assumptions C38_nan_at_origin_returns_origin.

(** the GSL candidate is the lowest of the local minima collected from all starting points, unless the
    potential at the first one is not a number *)
Theorem C38_gsl_candidate_lowest :
  forall row rows, snd row <> None ->
    exists c, best_last (row :: rows) = Some c /\ lowest (fun c => In c (row :: rows)) c.
Proof.
  intros row rows N. eexists. split; [reflexivity|]. apply best_last_fold.
  destruct (snd row) as [x|]; [now exists x|congruence].
Qed.
Print Assumptions C38_gsl_candidate_lowest.

Definition P3 : potential :=
  {| p_nVEV := 3; p_V := fun v => Some (- hd 0 v); p_EW := fun v => Some (hd 0 v); p_zero := fun _ => [0; 0; 0] |}.
Definition C3 : candidates :=
  {| c_nlopt := None; c_cmaes := ([246; 0; 0], 0%Z); c_gsl := Some [100; 0; 0] |}.
Theorem C38_multithreading_changes_minimum_refuted :
  exists P w C, p_V P (repeat 0 (p_nVEV P)) <> None /\
    Minimize_gen_all true true P w true C = [246; 0; 0] /\ Minimize_gen_all true true P w false C = [100; 0; 0] /\
    p_V P [246; 0; 0] = Some (-(246)) /\ p_V P [100; 0; 0] = Some (-(100)).
Proof. exists P3, 3%Z, C3. vm_compute. repeat split. discriminate. Qed.
Print Assumptions C38_multithreading_changes_minimum_refuted.

Definition Pnan : potential :=
  {| p_nVEV := 1; p_V := fun v => if Qeq_bool (hd 0 v) 0 then None else Some 0;
     p_EW := fun v => Some (hd 0 v); p_zero := fun _ => [0] |}.
Example C38_nonvacuous :
  lowest (produced P3 true true true C3) ([246; 0; 0], Some (-(246))) /\ p_V Pnan (repeat 0 (p_nVEV Pnan)) = None /\
  best_last [([1], Some 3); ([2], Some 1); ([4], None); ([3], Some 1)] = Some ([3], Some 1).
Proof.
  split; [|split; reflexivity]. split.
  - apply (by_cmaes P3 true true true C3); [reflexivity|cbn; lia].
  - exists (-(246)). split; [reflexivity|]. intros c' y [|c _ H| |v _ H] E; vm_compute in E; try discriminate.
    + inversion E. vm_compute. discriminate.
    + inversion E. vm_compute. discriminate.
    + inversion H. subst v. vm_compute in E. inversion E. vm_compute. discriminate.
Qed.

(** ** C39 *)
(** success: the VEV disappears within 0.01 of the returned temperature on the symmetric side, and either
    the returned minimum is a broken minimum at that temperature or it is the zero vector at the
    starting temperature *)
Theorem C39_success_brackets_transition_partial :
  forall minim ew stable dim tree fuel T0 T1 r,
    PTFinder minim ew stable dim tree fuel T0 T1 = Ok r -> e_status r = SUCCESS ->
    disappears_near minim ew T0 T1 r /\
    ((e_Tc r = T0 /\ e_vc r = 0 /\ e_min r = repeat 0 dim) \/ broken_at minim ew C_PT r) /\
    C_threshold < ew (minim T0 tree) /\ ew (minim T0 tree) < 255.
Proof. exact PTFinder_success. Qed.
Print Assumptions C39_success_brackets_transition_partial.

Theorem C39_search_terminates :
  forall minim ew stable dim tree n fuel T0 T1,
    Qabs (T1 - T0) <= (1 # 100) * inject_Z (2 ^ Z.of_nat n) -> (n < fuel)%nat ->
    exists r, PTFinder minim ew stable dim tree fuel T0 T1 = Ok r.
Proof. exact PTFinder_terminates. Qed.
Print Assumptions C39_search_terminates.

(** every result, whatever its status: the conditions exclude each other, so they also characterise it *)
Theorem C39_status_meaning :
  forall minim ew stable dim tree fuel T0 T1 r,
    PTFinder minim ew stable dim tree fuel T0 T1 = Ok r -> status_meaning minim ew stable tree T0 T1 r.
Proof. exact PTFinder_status. Qed.
Print Assumptions C39_status_meaning.

Example C39_nonvacuous_unstable :
  (exists r, PTFinder (fun _ _ => [200]) (fun v => hd 0 v) (fun _ => true) 1 [246] 20 0 300 = Ok r /\ e_status r = NOTVANISHINGATFINALTEMP) /\
  (exists r, PTFinder (fun T _ => if Qle_bool T 100 then [200] else [0]) (fun v => hd 0 v) (fun _ => false) 1 [246] 20 0 300 = Ok r /\ e_status r = NOTNLOSTABLE) /\
  (exists r, PTFinder (fun T _ => if Qle_bool T 0 then [200] else if Qle_bool T 200 then [260] else [0]) (fun v => hd 0 v) (fun _ => true) 1 [246] 20 0 300 = Ok r /\
     e_status r = NUMERICALLYUNSTABLE).
Proof. repeat split; eexists; (split; [vm_compute; reflexivity|reflexivity]). Qed.

(** SUCCESS with a vanishing VEV at the starting temperature *)
Theorem C39_success_without_transition_refuted :
  exists minim ew r, PTFinder minim ew (fun _ => true) 1 [246] 20 0 300 = Ok r /\
    e_status r = SUCCESS /\ e_Tc r = 0 /\ e_vc r = 0 /\ ~ e_vc r == ew (minim 0 [246]).
Proof.
  exists (fun T _ => if Qeq_bool T 0 then [246] else [0]), (fun v => hd 0 v). eexists.
  split; [vm_compute; reflexivity|]. cbn. repeat split. intro H. discriminate H.
Qed.
Print Assumptions C39_success_without_transition_refuted.

(** the VEV jumps from 200 to 0 at T = 100 *)
Example C39_nonvacuous :
  exists r, PTFinder (fun T _ => if Qle_bool T 100 then [200] else [0]) (fun v => hd 0 v) (fun _ => true) 1 [246] 20 0 300 = Ok r /\
    e_status r = SUCCESS /\ e_vc r = 200 /\ 9999 # 100 <= e_Tc r <= 100 /\ Qabs (300 - 0) <= (1 # 100) * inject_Z (2 ^ Z.of_nat 15).
Proof. eexists. split; [vm_compute; reflexivity|]. vm_compute. repeat split; discriminate. Qed.

(** ** C40 *)
Local Open Scope nat_scope.
(** one worker never pops from an empty queue *)
Theorem C40_single_worker_safe_partial :
  forall good max starts sched, w_ub (wrun good max sched (winit 1 starts)) = false.
Proof. intros. apply (single_safe good max sched starts 0 [] WCheck). discriminate. Qed.
Print Assumptions C40_single_worker_safe_partial.

(** several workers are safe under every schedule if enough of the starting points succeed *)
Theorem C40_enough_starting_points_safe_partial :
  forall good max n starts sched,
    max + (n - 1) + failures good starts <= length starts ->
    w_ub (wrun good max sched (winit n starts)) = false.
Proof. intros. eapply run_safe; [apply winv_init|eassumption|reflexivity]. Qed.
Print Assumptions C40_enough_starting_points_safe_partial.

(** what any run delivers once all workers are done: only successful starting points, each used once,
    enough of them or all starting points are used up; never more than n - 1 too many *)
Theorem C40_results_complete :
  forall good max n starts sched,
    let s := wrun good max sched (winit n starts) in
    0 < n -> Forall (fun t => t = WDone) (w_threads s) ->
    w_found s = length (w_results s) /\ (max <= w_found s \/ w_queue s = []) /\ w_found s <= max + (n - 1) /\
    exists failed, delivered good starts (w_results s) failed (w_queue s).
Proof.
  cbn zeta. intros good max n starts sched N D.
  pose proof (winv_run good max n starts sched _ (winv_init good max n starts)) as (L & F & (failed & P & G & B & _) & Dn).
  split; [exact F|]. split.
  - apply Dn. destruct (w_threads _) as [|t l]; [cbn in L; lia|]. inversion D; subst. now left.
  - split.
    + apply found_bound; [now cbn; rewrite repeat_length|]. cbn. clear. induction n; cbn in *; lia.
    + exists failed. split; [|split; assumption].
      assert (W : flat_map work (w_threads (wrun good max sched (winit n starts))) = []).
      { clear - D. induction D as [|t l -> D IH]; [reflexivity|exact IH]. }
      now rewrite W in P.
Qed.
Print Assumptions C40_results_complete.

(** every schedule that only moves unfinished workers has bounded length *)
Theorem C40_workers_terminate :
  forall good max n starts sched,
    progress good max (winit n starts) sched -> w_ub (wrun good max sched (winit n starts)) = false ->
    length sched <= 3 * length starts + 2 * n.
Proof.
  intros good max n starts sched P U. pose proof (terminates good max sched _ P U) as T. rewrite measure_init in T. lia.
Qed.
Print Assumptions C40_workers_terminate.

(** two workers test the unprotected condition for the last starting point *)
Theorem C40_pop_from_empty_queue_refuted :
  forall good max n starts, 2 <= n -> 0 < max -> starts <> [] -> Forall (fun p => good p = false) starts ->
    exists sched, w_ub (wrun good max sched (winit n starts)) = true.
Proof. intros. now apply race. Qed.
Print Assumptions C40_pop_from_empty_queue_refuted.

Example C40_nonvacuous :
  let good := fun p => Nat.even p in
  2 + (2 - 1) + failures good [0; 1; 2; 4; 6] <= 5 /\
  let s := wrun good 2 [0;1;0;1;1;0;1;0;1;0;1;0;1;0;1;0;1] (winit 2 [0; 1; 2; 4; 6]) in
  w_threads s = [WDone; WDone] /\ w_results s = [0; 2; 4] /\ w_queue s = [6] /\ w_found s = 3 /\
  progress good 2 (winit 2 [0]) [0; 0; 0; 1] /\ Forall (fun p => good p = false) [1; 3].
Proof.
  cbn zeta. split; [vm_compute; lia|]. do 4 (split; [vm_compute; reflexivity|]). split.
  - cbn. repeat (split; [eexists; split; [reflexivity|discriminate]|]). exact I.
  - repeat constructor.
Qed.

(** ** C41 *)
Local Open Scope Q_scope.
Theorem C41_visits_progression_partial :
  forall next start final step fuel points tracks ts,
    MinimaDevelopment next fuel start final step points = Ok (tracks, ts) ->
    arithmetic start step ts /\ (forall p, In p tracks -> map fst p = start :: ts).
Proof.
  intros next start final step fuel points tracks ts E. destruct (dev_summary _ _ _ _ _ _ _ _ E) as (A & B & _). auto.
Qed.
Print Assumptions C41_visits_progression_partial.

(** and the tracks returned are exactly the chains of minima followed from one temperature to the next *)
Theorem C41_tracks_are_chains_partial :
  forall next start final step fuel points tracks ts,
    MinimaDevelopment next fuel start final step points = Ok (tracks, ts) ->
    forall p, In p tracks <-> chain next start points p /\ map fst p = start :: ts.
Proof. exact dev_chains. Qed.
Print Assumptions C41_tracks_are_chains_partial.

(** a whole number n of steps is done exactly when n is at most 100 |step|: the tolerance is n/100 GeV *)
Theorem C41_exact_number_of_steps_partial :
  forall next start final step fuel points tracks ts n,
    (0 < n)%nat -> ~ step == 0 -> final == start + inject_Z (Z.of_nat n) * step ->
    inject_Z (Z.of_nat n) <= 100 * Qabs step ->
    MinimaDevelopment next fuel start final step points = Ok (tracks, ts) ->
    length ts = n /\ nth (n - 1) ts 0 == final.
Proof.
  intros next start final step fuel points tracks ts n N S0 F W E.
  pose proof (dev_exact _ _ _ _ _ _ _ _ _ N S0 F W E) as L. split; [exact L|].
  destruct (dev_summary _ _ _ _ _ _ _ _ E) as (A & _). rewrite (A (n - 1)%nat) by lia.
  replace (S (n - 1))%nat with n by lia. rewrite F. reflexivity.
Qed.
Print Assumptions C41_exact_number_of_steps_partial.

Theorem C41_terminates_towards_final_partial :
  forall next start final step points,
    ~ step == 0 -> (0 < step /\ start < final \/ step < 0 /\ final <= start) ->
    exists fuel r, MinimaDevelopment next fuel start final step points = Ok r.
Proof. exact dev_ends. Qed.
Print Assumptions C41_terminates_towards_final_partial.

(** a scan from 0 to 100 in steps of 0.5 goes on to 101.5 *)
Theorem C41_overshoot_refuted :
  exists next points tracks ts, MinimaDevelopment next 300 0 100 (1 # 2) points = Ok (tracks, ts) /\
    Exists (fun t => 100 < t) ts /\ Exists (fun p => Exists (fun tv => 100 < fst tv) p) tracks.
Proof.
  exists (fun _ _ => [[]]), [[]]. destruct (MinimaDevelopment (fun _ _ => [[]]) 300 0 100 (1 # 2) [[]]) as [[tracks ts]| | |] eqn:E;
    [|exfalso; vm_compute in E; discriminate E..].
  exists tracks, ts. split; [reflexivity|].
  assert (L : existsb (fun t => negb (Qle_bool t 100)) ts = true /\
    existsb (fun p => existsb (fun tv => negb (Qle_bool (fst tv) 100)) p) tracks = true).
  { set (f := fun o : outcome (list track * list Q) => match o with Ok (tracks, ts) =>
      existsb (fun t => negb (Qle_bool t 100)) ts && existsb (fun p => existsb (fun tv => negb (Qle_bool (fst tv) 100)) p) tracks
      | _ => false end).
    assert (B : f (MinimaDevelopment (fun _ _ => [[]]) 300 0 100 (1 # 2) [[]]) = true) by (vm_compute; reflexivity).
    rewrite E in B. cbn in B. now apply andb_true_iff in B. }
  assert (Q1 : forall x, negb (Qle_bool x 100) = true -> 100 < x).
  { intros x H. apply Qnot_le_lt. intro N. apply Qle_bool_iff in N. rewrite N in H. discriminate. }
  destruct L as (L1 & L2). split.
  - apply existsb_exists in L1 as (t & I & H). apply Exists_exists. exists t. auto.
  - apply existsb_exists in L2 as (p & I & H). apply Exists_exists. exists p. split; [exact I|].
    apply existsb_exists in H as (tv & I2 & H). apply Exists_exists. exists tv. auto.
Qed.
Print Assumptions C41_overshoot_refuted.

(** a step of zero or of the wrong sign never ends *)
Theorem C41_wrong_step_refuted :
  forall next start final step points,
    (step <= 0 /\ start < final \/ 0 <= step /\ final < start) ->
    forall fuel, MinimaDevelopment next fuel start final step points = OutOfFuel.
Proof.
  intros next start final step points H fuel. unfold MinimaDevelopment. apply dev_diverges_aux.
  pose proof (Qred_correct (start + step)) as R.
  destruct H as [(A & B)|(A & B)]; [left|right]; (split; [exact A|]; split; [exact B|]); rewrite R.
  - rewrite <- (Qplus_0_r start) at 2. apply Qplus_le_compat; [apply Qle_refl|exact A].
  - rewrite <- (Qplus_0_r start) at 1. apply Qplus_le_compat; [apply Qle_refl|exact A].
Qed.
Print Assumptions C41_wrong_step_refuted.

Example C41_nonvacuous :
  (exists tracks, MinimaDevelopment (fun T v => [[T]]) 100 0 300 10 [[]] = Ok (tracks, map (fun k => inject_Z (10 * Z.of_nat k)) (seq 1 30)))
  /\ 300 == 0 + inject_Z (Z.of_nat 30) * 10 /\ inject_Z (Z.of_nat 30) <= 100 * Qabs 10.
Proof. split; [eexists; vm_compute; reflexivity|]. vm_compute. split; [reflexivity|discriminate]. Qed.

(** ** C42 *)
Local Open Scope R_scope.
Theorem C42_coordinates_lie_in_plane :
  forall nVEV normal point idx tilde,
    (idx < nVEV)%nat -> S (length tilde) = nVEV -> (nVEV <= length normal)%nat -> (nVEV <= length point)%nat ->
    nth idx normal 0 <> 0 ->
    exists v, TransformCoordinates nVEV normal point idx tilde = Ok (Some v) /\
      in_plane nVEV normal point v /\ firstn idx v ++ skipn (S idx) v = tilde.
Proof. exact transform_ok. Qed.
Print Assumptions C42_coordinates_lie_in_plane.

Theorem C42_every_point_of_plane_reached :
  forall nVEV normal point idx v,
    (idx < nVEV)%nat -> (nVEV <= length normal)%nat -> (nVEV <= length point)%nat -> nth idx normal 0 <> 0 ->
    in_plane nVEV normal point v ->
    TransformCoordinates nVEV normal point idx (firstn idx v ++ skipn (S idx) v) = Ok (Some v).
Proof. exact transform_onto. Qed.
Print Assumptions C42_every_point_of_plane_reached.

Theorem C42_wrong_count_rejected :
  forall nVEV normal point idx tilde,
    S (length tilde) <> nVEV -> TransformCoordinates nVEV normal point idx tilde = Throw RuntimeError.
Proof. exact transform_size. Qed.
Print Assumptions C42_wrong_count_rejected.

(** the minimum on the plane: orthogonal to the line between the two vacua through the base point, and
    not above the potential of any coordinates tried by an enabled algorithm *)
Theorem C42_plane_minimum :
  forall nVEV V base symmetric broken gsl cmaes nlopt pot v,
    length broken = nVEV ->
    MinimizePlane nVEV V base symmetric broken gsl cmaes nlopt = Ok (pot, v) ->
    pot = V v /\
    exists normal, length normal = nVEV /\
      (forall i, (i < nVEV)%nat -> nth i normal 0 = nth i broken 0 - nth i symmetric 0) /\
      in_plane nVEV normal base v /\
      forall t w idx, In t (gsl ++ (if Nat.leb 3 nVEV then cmaes else []) ++ nlopt) -> find_index normal 0 = Some idx ->
        TransformCoordinates nVEV normal base idx t = Ok (Some w) -> pot <= V w.
Proof. exact plane_search. Qed.
Print Assumptions C42_plane_minimum.

Theorem C42_coinciding_vacua_rejected :
  forall nVEV V base symmetric broken normal gsl cmaes nlopt,
    normal_of broken symmetric = Some normal -> Forall (fun a => Rabs a < 1e-3) normal ->
    MinimizePlane nVEV V base symmetric broken gsl cmaes nlopt = Throw RuntimeError.
Proof.
  intros nVEV V base symmetric broken normal gsl cmaes nlopt N F. unfold MinimizePlane. rewrite N.
  apply (find_index_none normal 0) in F. now rewrite F.
Qed.
Print Assumptions C42_coinciding_vacua_rejected.

Example C42_nonvacuous :
  exists v, TransformCoordinates 2 [1; 2] [1; 1] 1 [3] = Ok (Some v) /\ in_plane 2 [1; 2] [1; 1] v /\ nth 0 v 0 = 3.
Proof.
  destruct (transform_ok 2 [1; 2] [1; 1] 1 [3]) as (v & E & P & D); try (cbn; lia).
  - cbn. apply not_0_IZR. discriminate.
  - exists v. split; [exact E|]. split; [exact P|]. destruct P as [L _].
    destruct v as [|a [|b [|]]]; try discriminate L. cbn in D. cbn. congruence.
Qed.
