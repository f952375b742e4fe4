(** C112: the asymmetry is the baryon density at the wall. *)
From Coq Require Import Reals List ZArith Lra Lia.
From Coquelicot Require Import Coquelicot.
From Verif Require Import Base Model.Eta Spec.EtaSpec Proofs.DerivLib Proofs.EtaProofs.
Import ListNotations.
Open Scope R_scope.

(** with sphalerons active on both sides of the wall the result is the density at the wall per entropy *)
Theorem C112_asymmetry_partial : forall T vw (nL n n1 n2 : R -> R) Z, 0 < T -> 0 <= vw -> 0 < Z ->
  (forall z, 0 <= z <= Z -> continuity_pt nL z) ->
  let G := sphaleron_rate 20 (65 / 100) T in
  stationary (6 / T) vw G (15 / 4) (fun z => 3 / 2 * G * nL z) n n1 n2 Z ->
  decays_beyond (6 / T) vw G (15 / 4) n n1 Z -> washed_out_behind (6 / T) vw G (15 / 4) n n1 ->
  eta_of T vw nL Z = n 0 / entropy (10675 / 100) T.
Proof.
  intros T vw nL n n1 n2 Z H V HZ C G. unfold G. destruct (constants T H) as [<- <-]. exact (eta_washed_out T vw nL n n1 n2 Z H V HZ C).
Qed.
Print Assumptions C112_asymmetry_partial.
Example C112_nonvacuous : forall T vw, 0 < T -> 0 <= vw -> exists nL n n1 n2,
  (forall z, 0 <= z <= 1 -> continuity_pt nL z) /\ stationary (diff_q T) vw (GamWS T) relax_factor (fun z => 3 / 2 * GamWS T * nL z) n n1 n2 1 /\
  decays_beyond (diff_q T) vw (GamWS T) relax_factor n n1 1 /\ washed_out_behind (diff_q T) vw (GamWS T) relax_factor n n1 /\ n 0 = 1.
Proof.
  intros T vw H V. destruct (root_positive T vw H V) as [A B].
  destruct (quadratic_solution T vw (- exponent T vw) H V) as [nL [n [n1 [n2 [N0 [N1 [C [S D]]]]]]]].
  exists nL, n, n1, n2. repeat (split; [assumption|]). split; [|assumption]. exists (- exponent T vw). rewrite N0, N1. repeat split; try assumption. ring.
Qed.

(** if the density is frozen behind the wall, the result is smaller by an exactly known factor *)
Theorem C112_frozen : forall T vw (nL n n1 n2 : R -> R) Z, 0 < T -> 0 <= vw -> 0 < Z ->
  (forall z, 0 <= z <= Z -> continuity_pt nL z) ->
  let G := sphaleron_rate 20 (65 / 100) T in
  let w := sqrt (vw ^ 2 + 4 * G * (6 / T) * (15 / 4)) in
  stationary (6 / T) vw G (15 / 4) (fun z => 3 / 2 * G * nL z) n n1 n2 Z ->
  decays_beyond (6 / T) vw G (15 / 4) n n1 Z -> frozen_behind n1 ->
  eta_of T vw nL Z = (vw + w) / (2 * w) * (n 0 / entropy (10675 / 100) T) /\ vw < w.
Proof.
  intros T vw nL n n1 n2 Z H V HZ C G w S D F.
  assert (W : w = omega T vw). { unfold w, omega. f_equal. unfold G. rewrite <- (proj2 (constants T H)). unfold diff_q, relax_factor. ring. }
  rewrite W. split; [|exact (proj2 (proj2 (omega_facts T vw H V)))].
  unfold G in S, D. revert S D. destruct (constants T H) as [<- <-]. intros S D. exact (eta_frozen T vw nL n n1 n2 Z H V HZ C S D F).
Qed.
Print Assumptions C112_frozen.
(** refuted: sphalerons are switched off behind the wall, but the result is not the density for that case *)
Theorem C112_asymmetry_refuted : exists T vw nL n n1 n2, 0 < T /\ 0 < vw /\
  (forall z, 0 <= z <= 1 -> continuity_pt nL z) /\
  let G := sphaleron_rate 20 (65 / 100) T in
  stationary (6 / T) vw G (15 / 4) (fun z => 3 / 2 * G * nL z) n n1 n2 1 /\
  decays_beyond (6 / T) vw G (15 / 4) n n1 1 /\ frozen_behind n1 /\
  eta_of T vw nL 1 <> n 0 / entropy (10675 / 100) T.
Proof.
  exists 100, (1 / 10). destruct (quadratic_solution 100 (1 / 10) 0 ltac:(lra) ltac:(lra)) as [nL [n [n1 [n2 [N0 [N1 [C [S D]]]]]]]].
  exists nL, n, n1, n2. split; [lra|]. split; [lra|]. split; [exact C|]. cbv zeta.
  rewrite <- (proj2 (constants 100 ltac:(lra))), <- (proj1 (constants 100 ltac:(lra))). split; [exact S|]. split; [exact D|]. split; [exact N1|].
  rewrite (eta_frozen 100 (1 / 10) nL n n1 n2 1 ltac:(lra) ltac:(lra) ltac:(lra) C S D N1), N0.
  destruct (omega_facts 100 (1 / 10) ltac:(lra) ltac:(lra)) as [W [_ VW]]. pose proof (entr_pos 100 ltac:(lra)) as E.
  set (w := omega 100 (1 / 10)) in *. set (s := s_entr 100) in *. intro X. apply (f_equal (fun x => x * (2 * w * s))) in X.
  replace ((1 / 10 + w) / (2 * w) * (1 / s) * (2 * w * s)) with (1 / 10 + w) in X by (field; lra).
  replace (1 / s * (2 * w * s)) with (2 * w) in X by (field; lra). lra.
Qed.
Print Assumptions C112_asymmetry_refuted.

(** the integral runs from the far end to the wall; with the arguments in the documented order (far end first) the sign would be the other *)
Theorem C112_orientation : forall T vw nL Z, 0 < T -> 0 <= vw -> 0 < Z ->
  (forall z, 0 <= z <= Z -> continuity_pt nL z) ->
  Nintegrate_eta T vw nL Z 0 = - eta_of T vw nL Z /\
  eta_of T vw nL Z = RInt (fun z => 3 / 2 * GamWS T * nL z * exp (exponent T vw * z)) 0 Z / (omega T vw * s_entr T).
Proof. exact orientation. Qed.
Print Assumptions C112_orientation.

(** the exponent is the inverse length over which a baryon density falls off behind the wall *)
Theorem C112_exponent : forall T vw, 0 < T -> 0 <= vw ->
  0 < - exponent T vw /\ free_exponent (6 / T) vw (sphaleron_rate 20 (65 / 100) T) (15 / 4) (- exponent T vw).
Proof. intros T vw H V. rewrite <- (proj2 (constants T H)). exact (root_positive T vw H V). Qed.
Print Assumptions C112_exponent.

(** the grid: n_step + 1 equidistant positions from the wall to the far end, each with the density there; the class handed over must be that of the method *)
Theorem C112_grid : forall n m h zmax nL, (0 < n)%nat ->
  (m <> h -> set_up_nL_grid n m h zmax nL = Throw RuntimeError) /\
  (m = h -> exists zs vs, set_up_nL_grid n m h zmax nL = Ok (zs, vs) /\ length zs = S n /\ length vs = S n /\
    forall i, (i <= n)%nat -> nth i zs 0 = INR i * (zmax / INR n) /\ nth i vs 0 = nL zmax (nth i zs 0)).
Proof.
  intros n m h zmax nL N. split.
  - intro H. unfold set_up_nL_grid. destruct m, h; reflexivity || congruence.
  - intros <-. destruct (set_up_nL_grid n m m zmax nL) as [[zs vs]| | |] eqn:E; try (destruct m; discriminate).
    exists zs, vs. split; [reflexivity|]. exact (grid_positions n zmax nL zs vs m N E).
Qed.
Print Assumptions C112_grid.

(** the spline takes its values at the positions of the grid … *)
Theorem C112_nodes_partial : forall n zmax nL zs vs m, (0 < n)%nat -> 0 < zmax ->
  set_up_nL_grid n m m zmax nL = Ok (zs, vs) ->
  exists t0 h, spline_nodes zs = Ok (t0, h) /\ forall i, (i <= n)%nat -> t0 + INR i * h = nth i zs 0.
Proof. exact grid_nodes. Qed.
Print Assumptions C112_nodes_partial.
Example C112_nonvacuous_nodes : set_up_nL_grid 1 top top 4 (fun a b => a + b) = Ok ([INR 0 * 4 / INR 1; INR 1 * 4 / INR 1], [4 + INR 0 * 4 / INR 1; 4 + INR 1 * 4 / INR 1]).
Proof. reflexivity. Qed.
(** … but for a decreasing grid, which set_class accepts as well, at the mirrored positions *)
Theorem C112_nodes_mirrored : forall zs t0 h n, length zs = S n -> (0 < n)%nat -> 0 < h ->
  (forall i, (i <= n)%nat -> nth i zs 0 = nth n zs 0 + INR (n - i) * h) ->
  spline_nodes zs = Ok (nth n zs 0, h) /\ (t0 = nth n zs 0 -> forall i, (i <= n)%nat -> t0 + INR i * h = nth (n - i) zs 0).
Proof. exact mirrored_general. Qed.
Print Assumptions C112_nodes_mirrored.
Theorem C112_nodes_refuted : exists zs t0 h, spline_nodes zs = Ok (t0, h) /\ nth 2 zs 0 < nth 1 zs 0 < nth 0 zs 0 /\
  nth 0 zs 0 - nth 1 zs 0 = nth 1 zs 0 - nth 2 zs 0 /\ t0 + INR 0 * h <> nth 0 zs 0.
Proof. exact mirrored. Qed.
Print Assumptions C112_nodes_refuted.
