(** C129: the image of the true vacuum used for tunnelling, and the path carried over to another temperature. *)
From Coq Require Import Reals List Lra Lia.
From Verif Require Import Spec.StartPathSpec Model.StartPath Proofs.StartPathProofs.
Import ListNotations.
Open Scope R_scope.

(** For every list of symmetries: the chosen matrix is the identity or one of them; it is the first of them whenever the two
    vacua are of any reasonable size, whatever the images of the true vacuum are. *)
Theorem C129_choice_partial : forall Gs T F, In (OptimalDiscreteSymmetry Gs T F) (identity :: Gs) /\
  (forall G Gs', Gs = G :: Gs' -> vector_length (F ++ map (fun p => fst p - snd p) (combine F T)) < 10 ^ 100 -> OptimalDiscreteSymmetry Gs T F = G).
Proof. intros Gs T F. split; [apply optimal_in|]. intros G Gs' -> H. apply optimal_first. rewrite norm_length. exact H. Qed.
Print Assumptions C129_choice_partial.
(** If all symmetries leave the potential unchanged, so does the image of every vacuum. *)
Theorem C129_potential : forall Gs T F (V : list R -> R), (forall G v, In G Gs -> V (Transform G v) = V v) ->
  forall v, V (Transform (OptimalDiscreteSymmetry Gs T F) v) = V v.
Proof. intros Gs T F V H v. destruct (optimal_in Gs T F) as [E|E]; [rewrite <- E, identity_vec; reflexivity|apply H, E]. Qed.
Print Assumptions C129_potential.
(** Refuted: the chosen image of the true vacuum is the closest to the false vacuum. *)
Theorem C129_closest_refuted : exists Gs T F g, In g Gs /\ (forall v, Transform (hd identity Gs) v = v) /\
  dist2 (Transform g T) F < dist2 (Transform (OptimalDiscreteSymmetry Gs T F) T) F.
Proof. exact not_closest. Qed.
Print Assumptions C129_closest_refuted.
Example C129_nonvacuous_potential : (fun v => nth 0 v 0 ^ 2) (Transform (OptimalDiscreteSymmetry [minus1] [1] [-2]) [3]) = 9 /\
  OptimalDiscreteSymmetry [minus1] [1] [-2] = minus1 /\ Transform minus1 [3] = [-3].
Proof.
  assert (E : OptimalDiscreteSymmetry [minus1] [1] [-2] = minus1).
  { apply optimal_first. unfold DeltaVEV, L2Norm. cbn [fold_left map combine app fst snd]. apply (Rlt_le_trans _ 16).
    - replace 16 with (sqrt (16 ^ 2)) by (rewrite sqrt_pow2; lra). apply sqrt_lt_1_alt. lra.
    - apply (Rle_trans _ (10 ^ 2)); [lra|]. apply Rle_pow; [lra|lia]. }
  assert (T : Transform minus1 [3] = [-3]) by (unfold Transform, mat_vec, minus1, identity; cbn; f_equal; ring).
  rewrite E, T. repeat split. cbn. ring.
Qed.

(** For every path and four vacua of one dimension: the true vacuum is carried to the new true vacuum, and the path stays as it is
    if the vacua did not move. *)
Theorem C129_start : forall T1 F1 T2 F2, length F1 = length T1 -> length T2 = length T1 -> length F2 = length T1 ->
  (forall path n, nth n path [] = T1 -> (n < length path)%nat -> nth n (WarpPath path T1 F1 T2 F2) [] = T2) /\
  (forall path, (forall x, In x path -> length x = length T1) -> WarpPath path T1 F1 T1 F1 = path).
Proof.
  intros T1 F1 T2 F2 A B C. split.
  - intros path n E N. unfold WarpPath. set (f := fun x => warp x T1 F1 T2 F2). rewrite (nth_indep _ [] (f [])) by (rewrite map_length; exact N).
    transitivity (f (nth n path [])); [apply (map_nth f)|]. rewrite E. unfold f. apply warp_start; assumption.
  - intros path H. unfold WarpPath. rewrite <- (map_id path) at 2. apply map_ext_in. intros x X. apply warp_same; [exact A|apply H, X].
Qed.
Print Assumptions C129_start.
(** For vacua of one dimension none of whose components is equal before and different after: straight lines go to straight lines
    with the same parameter, both ends included. *)
Theorem C129_line : forall T1 F1 T2 F2 s, length F1 = length T1 -> length T2 = length T1 -> length F2 = length T1 ->
  (forall d, (d < length T1)%nat -> nth d F1 0 <> nth d T1 0 \/ nth d F2 0 = nth d T2 0) ->
  WarpPath [T1; between s T1 F1; F1] T1 F1 T2 F2 = [T2; between s T2 F2; F2].
Proof.
  intros T1 F1 T2 F2 s A B C H. unfold WarpPath. cbn [map].
  rewrite warp_start, warp_between by assumption. rewrite <- (between_1 T1 F1 A) at 1. rewrite warp_between, between_1 by (try assumption; lia). reflexivity.
Qed.
Print Assumptions C129_line.
(** ... and if the same components are equal before and after, the path can be carried back. *)
Theorem C129_back : forall T1 F1 T2 F2 path, length F1 = length T1 -> length T2 = length T1 -> length F2 = length T1 ->
  (forall x, In x path -> length x = length T1) ->
  (forall d, (d < length T1)%nat -> nth d F1 0 = nth d T1 0 <-> nth d F2 0 = nth d T2 0) ->
  WarpPath (WarpPath path T1 F1 T2 F2) T2 F2 T1 F1 = path.
Proof.
  intros T1 F1 T2 F2 path A B C D H. unfold WarpPath. rewrite map_map. rewrite <- (map_id path) at 2. apply map_ext_in.
  intros x X. apply warp_back; try assumption. apply D, X.
Qed.
Print Assumptions C129_back.
(** Refuted: the carried path ends in the new false vacuum. *)
Theorem C129_end_refuted : exists T1 F1 T2 F2, length F1 = length T1 /\ length T2 = length T1 /\ length F2 = length T1 /\
  WarpPath [T1; F1] T1 F1 T2 F2 = [T2; T2] /\ T2 <> F2.
Proof.
  exists [0], [0], [0], [1]. repeat split. 2: { intros E. injection E as E. lra. }
  unfold WarpPath, warp, warp1. cbn. destruct (Req_EM_T (0 - 0) 0) as [_|N]; [|exfalso; apply N; ring]. repeat f_equal; ring.
Qed.
Print Assumptions C129_end_refuted.
Example C129_nonvacuous_line : WarpPath [[0; 5]; between (1/2) [0; 5] [2; 5]; [2; 5]] [0; 5] [2; 5] [1; 6] [5; 6] = [[1; 6]; [3; 6]; [5; 6]].
Proof.
  rewrite C129_line; try reflexivity.
  - cbn. repeat f_equal; lra.
  - intros [|[|d]] H; cbn in *; [left; lra|right; reflexivity|lia].
Qed.
