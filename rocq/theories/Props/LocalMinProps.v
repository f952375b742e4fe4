(** C141: the calls of the minimisation libraries. *)
From Coq Require Import Reals Lra.
From Verif.Model Require Import Base Plane LocalMin.
From Verif.Spec Require Import LocalMinSpec.
From Verif.Proofs Require Import LocalMinProofs.
Open Scope R_scope.

(** The box searched by NLopt contains the tree-level minimum with all choices of signs, and all points with fields up to 300, if no
    field is below -300 at tree level. *)
Theorem C141_box_partial : forall vev, Forall (fun v => -300 <= v) vev ->
  (forall x, same_moduli x vev -> contains (box vev) x) /\ (forall x, length x = length vev -> (forall i, Rabs (nth i x 0) <= 300) -> contains (box vev) x).
Proof. intros vev F. split; [exact (box_contains vev F)|exact (box_default vev F)]. Qed.
Example C141_nonvacuous_box : Forall (fun v => -300 <= v) [246; -200; 1000] /\ same_moduli [246; 200; -1000] [246; -200; 1000] /\
  contains (box [246; -200; 1000]) [246; 200; -1000] /\ ~ contains (box [246; -200; 1000]) [301; 0; 0].
Proof.
  assert (F : Forall (fun v => -300 <= v) [246; -200; 1000]) by (repeat constructor; lra).
  assert (S : same_moduli [246; 200; -1000] [246; -200; 1000]).
  { split; [reflexivity|]. intros i. do 3 (destruct i as [|i]; [cbn [nth]; unfold Rabs; repeat destruct (Rcase_abs _); lra|]). destruct i; reflexivity. }
  split; [exact F|]. split; [exact S|]. split; [exact (box_contains _ F _ S)|]. intros (_ & C). specialize (C 0%nat (-300) 300).
  cbn [nth] in C. assert (H : -300 <= 301 <= 300); [apply C|lra]. cbn [box map nth_error]. unfold lower, upper. rewrite Rabs_right by lra.
  destruct (Rlt_dec 300 246); [lra|]. destruct (Rlt_dec (-(246)) (-300)); [lra|]. reflexivity.
Qed.
(** For a field below -300 the box has no width: neither the tree-level minimum nor the origin is inside, ... *)
Theorem C141_box_refuted : forall vev i v, nth_error vev i = Some v -> v < -300 ->
  nth_error (box vev) i = Some (1.5 * v, 1.5 * v) /\ ~ contains (box vev) vev /\ ~ contains (box vev) (repeat 0 (length vev)).
Proof.
  intros vev i v N H. destruct (box_fails vev i v N H) as (A & B). split; [exact A|]. split; intros C; apply B in C.
  - rewrite (nth_error_nth _ _ 0 N) in C. lra.
  - rewrite zeros_nth in C. lra.
Qed.
(** ... the search from the origin fails for every potential, and on a plane it ends the program with an exception. *)
Theorem C141_search_refuted : forall run vev V, Exists (fun v => v < -300) vev ->
  r_Success (MinimizeUsingNLOPT run vev V) = false /\ r_Minimum (MinimizeUsingNLOPT run vev V) = [].
Proof. exact nlopt_fails. Qed.
Theorem C141_plane_refuted : forall run vev k plane V, (k < length vev)%nat -> Exists (fun v => v < -300) (without k vev) ->
  MinimizePlaneUsingNLOPT run vev k plane V = Throw InvalidArgument.
Proof. exact plane_fails. Qed.
Example C141_nonvacuous_refuted : Exists (fun v => v < -300) [246; -1000] /\ nth_error [246; -1000] 1 = Some (-1000) /\ Exists (fun v => v < -300) (without 0 [246; -1000]).
Proof. split; [right; left; lra|]. split; [reflexivity|]. left. lra. Qed.

(** Otherwise the result of the library is returned: on success a point of the box with its potential, and success is one of three codes. *)
Theorem C141_search_partial : forall run vev V r, Forall (fun v => -300 <= v) vev -> run (box vev) (repeat 0 (length vev)) V = Some r ->
  MinimizeUsingNLOPT run vev V = {| r_Minimum := snd (fst r); r_PotVal := snd r; r_Result := fst (fst r); r_Success := is_success (fst (fst r)) |}.
Proof. exact nlopt_works. Qed.
Theorem C141_result : forall run, (forall b s f code x m, run b s f = Some (code, x, m) -> contains b x /\ m = f x) ->
  forall vev V, let r := MinimizeUsingNLOPT run vev V in r_Success r = true ->
  contains (box vev) (r_Minimum r) /\ r_PotVal r = V (r_Minimum r) /\ (r_Result r = N_SUCCESS \/ r_Result r = FTOL_REACHED \/ r_Result r = XTOL_REACHED).
Proof. exact nlopt_result_spec. Qed.
Theorem C141_codes : forall c, is_success c = true <-> c = N_SUCCESS \/ c = FTOL_REACHED \/ c = XTOL_REACHED.
Proof. intros c. destruct c; cbn; intuition congruence. Qed.
(** On the plane the bounds of the remaining fields are those of the full search, and the result is the point of the plane. *)
Theorem C141_plane_partial : forall run vev k plane V c x m, (k < length vev)%nat -> Forall (fun v => -300 <= v) (without k vev) ->
  run (box (without k vev)) (repeat 0 (length vev - 1)) (fun y => V (plane y)) = Some (c, x, m) ->
  MinimizePlaneUsingNLOPT run vev k plane V = Ok {| r_Minimum := plane x; r_PotVal := m; r_Result := c; r_Success := is_success c |}.
Proof. exact plane_works. Qed.
Definition at_start (b : list (R * R)) (s : rvec) (f : rvec -> R) : option (nlopt_result * rvec * R) := if insideb b s then Some (XTOL_REACHED, s, f s) else None.
Example C141_nonvacuous_search : (forall b s f code x m, at_start b s f = Some (code, x, m) -> contains b x /\ m = f x) /\
  r_Success (MinimizeUsingNLOPT at_start [246; 1000] (fun x => nth 0 x 0 + 1)) = true /\ r_PotVal (MinimizeUsingNLOPT at_start [246; 1000] (fun x => nth 0 x 0 + 1)) = 0 + 1.
Proof.
  split.
  - intros b s f code x m H. unfold at_start in H. destruct (insideb b s) eqn:I; [|discriminate]. injection H as <- <- <-. apply insideb_spec in I. auto.
  - assert (F : Forall (fun v => -300 <= v) [246; 1000]) by (repeat constructor; lra).
    rewrite (nlopt_works at_start _ _ (XTOL_REACHED, [0; 0], 0 + 1) F); [split; reflexivity|]. unfold at_start.
    rewrite (proj1 (zeros_inside [246; 1000]) F). reflexivity.
Qed.

(** The simplex of GSL: success exactly if one of the first 600 steps is small enough and no step up to there fails; the solution is the
    point of the first such step, and the origin without success. *)
Theorem C141_simplex : forall iterate small x dim, exists s p, GSL_Minimize_From_S iterate small x dim = Ok (s, p) /\
  (s = GSL_SUCCESS -> exists m, (1 <= m <= 600)%nat /\ (forall j, (1 <= j <= m)%nat -> iterate j = true) /\ small m = true /\ (forall j, (1 <= j < m)%nat -> small j = false) /\ p = x m) /\
  (s <> GSL_SUCCESS -> p = repeat 0 dim) /\
  ((exists m, (1 <= m <= 600)%nat /\ (forall j, (1 <= j <= m)%nat -> iterate j = true) /\ small m = true) -> s = GSL_SUCCESS).
Proof. exact gsl_spec. Qed.
Example C141_nonvacuous_simplex : GSL_Minimize_From_S (fun _ => true) (fun k => (7 <=? k)%nat) (fun k => [INR k]) 1 = Ok (GSL_SUCCESS, [INR 7]) /\
  GSL_Minimize_From_S (fun k => (k <? 5)%nat) (fun k => (7 <=? k)%nat) (fun k => [INR k]) 1 = Ok (GSL_ERROR, [0]).
Proof. split; reflexivity. Qed.
(** The minima from a starting point: that of the first of at most 600 searches with GSL that succeeds, then that of NLopt if it succeeds. *)
Theorem C141_next_minima : forall gsl nlopt useGSL useNLopt, exists g n, FindNextLocalMinima gsl nlopt useGSL useNLopt = Ok (g ++ n) /\
  (n = if useNLopt && r_Success nlopt then [r_Minimum nlopt] else []) /\
  ((exists m, useGSL = true /\ (m < 600)%nat /\ first_such (fun j => match fst (gsl j) with GSL_SUCCESS => true | _ => false end) m /\ g = [snd (gsl m)]) \/
   ((useGSL = false \/ forall j, (j < 600)%nat -> fst (gsl j) <> GSL_SUCCESS) /\ g = [])).
Proof.
  intros gsl nlopt useGSL useNLopt. destruct (next_spec gsl nlopt useGSL useNLopt) as (g & n & A & B & [C|([C|C] & D)]); exists g, n; split; auto; split; auto.
  right. split; [right|exact D]. intros j J E. specialize (C j J). unfold succeeded in C. rewrite E in C. discriminate.
Qed.
Example C141_nonvacuous_next : FindNextLocalMinima (fun k => if (k =? 2)%nat then (GSL_SUCCESS, [5]) else (GSL_CONTINUE, [0]))
  {| r_Minimum := [7]; r_PotVal := 1; r_Result := XTOL_REACHED; r_Success := true |} true true = Ok [[5]; [7]].
Proof. reflexivity. Qed.
Print Assumptions C141_box_partial.
Print Assumptions C141_box_refuted.
Print Assumptions C141_search_refuted.
Print Assumptions C141_plane_refuted.
Print Assumptions C141_search_partial.
Print Assumptions C141_result.
Print Assumptions C141_codes.
Print Assumptions C141_plane_partial.
Print Assumptions C141_simplex.
Print Assumptions C141_next_minima.
