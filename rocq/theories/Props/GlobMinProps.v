(** C149: comparison of a minimum with the global one. *)
From Coq Require Import List Arith Lia Lra Sorted Reals.
From Verif Require Import Model.Base Model.GlobMin Spec.StartPathSpec Proofs.VevDimProofs Proofs.GlobMinProofs.
Import ListNotations.
Local Open Scope R_scope.

(** The verdict is that the reduced points are closer than 1 GeV. *)
Theorem C149_verdict_partial : forall (red flat : list R -> list R) mini n order temp p,
  length (mini temp p) = length order -> StronglySorted lt order -> Forall (fun o => (o < n)%nat) order -> (0 < n)%nat -> In (n - 1)%nat order ->
  length (flat (red (mini temp p))) = length (flat (red p)) ->
  exists b, IsGlobMin red flat mini order n temp p = Ok b /\ (b = true <-> sqrt (dist2 (flat (red (mini temp p))) (flat (red p))) < 1).
Proof. exact verdict. Qed.
Print Assumptions C149_verdict_partial.

(** A point equivalent to what the minimiser finds is confirmed. *)
Theorem C149_equivalent_partial : forall (red flat : list R -> list R) mini n order temp p,
  length (mini temp p) = length order -> StronglySorted lt order -> Forall (fun o => (o < n)%nat) order -> (0 < n)%nat -> In (n - 1)%nat order ->
  flat (red (mini temp p)) = flat (red p) -> IsGlobMin red flat mini order n temp p = Ok true.
Proof.
  intros red flat mini n order temp p L S F N X E. destruct (verdict red flat mini n order temp p L S F N X) as [b [R V]]; [rewrite E; reflexivity|].
  rewrite R. f_equal. apply V. rewrite E, dist2_self, sqrt_0. lra.
Qed.
Print Assumptions C149_equivalent_partial.

(** A point with fewer coordinates than the model has is reported. *)
Theorem C149_short : forall (red flat : list R -> list R) mini n order temp p,
  length (mini temp p) = length order -> StronglySorted lt order -> Forall (fun o => (o < n)%nat) order -> (0 < n)%nat -> In (n - 1)%nat order ->
  (length (flat (red p)) < length (flat (red (mini temp p))))%nat -> IsGlobMin red flat mini order n temp p = Throw OutOfRange.
Proof. exact verdict_short. Qed.
Print Assumptions C149_short.

(** Two confirmed points agree within 2 GeV in every reduced coordinate, if the minimiser finds the same for both. *)
Theorem C149_unique_partial : forall (red flat : list R -> list R) mini n order temp p q,
  (forall x, length (red x) = length x) -> (forall x, length (flat x) = length x) -> length p = length order -> length q = length order ->
  length (mini temp p) = length order -> mini temp q = mini temp p -> StronglySorted lt order -> Forall (fun o => (o < n)%nat) order -> (0 < n)%nat -> In (n - 1)%nat order ->
  IsGlobMin red flat mini order n temp p = Ok true -> IsGlobMin red flat mini order n temp q = Ok true ->
  forall i x y, nth_error (flat (red p)) i = Some x -> nth_error (flat (red q)) i = Some y -> Rabs (x - y) < 2.
Proof. exact same_global. Qed.
Print Assumptions C149_unique_partial.

(** The potential is not compared: a global minimum is rejected when the minimiser returns a higher one. *)
Theorem C149_lower_refuted : exists (V : list R -> R) mini p,
  (forall temp start, length (mini temp start) = 1%nat) /\ (forall x, V p <= V [x]) /\ (forall temp start, V p < V (mini temp start)) /\
  forall temp, IsGlobMin (fun x => x) (fun x => x) mini [0%nat] 1 temp p = Ok false.
Proof.
  exists (fun v => let x := hd 0 v in x ^ 4 / 4 - 4 * x ^ 3 / 3 + 3 * x ^ 2 / 2), (fun _ _ => [0]), [3]. split; [reflexivity|]. split; [|split].
  - intros x. cbn [hd]. cut (0 <= (x - 3) ^ 2 * (x ^ 2 / 4 + x / 6 + 1 / 4)); [intros H; nra|]. apply Rmult_le_pos; [apply pow2_ge_0|].
    replace (x ^ 2 / 4 + x / 6 + 1 / 4) with ((x / 2 + 1 / 6) ^ 2 + 2 / 9) by field. pose proof (pow2_ge_0 (x / 2 + 1 / 6)). lra.
  - intros _ _. cbn [hd]. lra.
  - intros temp. destruct (verdict (fun x => x) (fun x => x) (fun _ _ => [0]) 1 [0%nat] temp [3]) as [b [E V]]; try reflexivity; [repeat constructor|repeat constructor|lia|now left|].
    rewrite E. f_equal. destruct b; [|reflexivity]. destruct V as [V _]. specialize (V eq_refl). cbn [dist2] in V.
    replace ((0 - 3) ^ 2 + 0) with (3 * 3) in V by ring. rewrite sqrt_square in V; lra.
Qed.
Print Assumptions C149_lower_refuted.

Example C149_nonvacuous : IsGlobMin (map Rabs) (fun x => x) (fun _ _ => [0; 246]) [2; 3]%nat 4 100 [0; -246] = Ok true.
Proof.
  apply C149_equivalent_partial; [reflexivity|repeat constructor|repeat constructor|lia|cbn; tauto|]. cbn [map].
  replace (Rabs (-246)) with (Rabs 246); [reflexivity|]. unfold Rabs. repeat destruct Rcase_abs; lra.
Qed.
Example C149_nonvacuous_short : IsGlobMin (map Rabs) (fun x => x) (fun _ _ => [0; 246]) [2; 3]%nat 4 100 [0] = Throw OutOfRange.
Proof. apply C149_short; [reflexivity|repeat constructor|repeat constructor|lia|cbn; tauto|cbn; lia]. Qed.
