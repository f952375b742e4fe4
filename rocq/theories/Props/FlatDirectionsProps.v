(** C127: flat directions. *)
From Coq Require Import Reals List Lra Lia.
From Verif Require Import Spec.FlatDirectionsSpec Proofs.FlatDirectionsProofs Model.FlatDirections.
Open Scope R_scope.

(** every rotational symmetry of two or three fields and every field the potential does not depend on is found *)
Theorem C127_complete : forall n V,
  (forall i j, (i < j < n)%nat -> rotation_invariant V i j -> In (i, j) (flat_2D n V)) /\
  (forall i j k, (i < j < k)%nat -> (k < n)%nat -> sphere_invariant V i j k -> In (i, j, k) (flat_3D n V)) /\
  (forall i, (i < n)%nat -> independent V i -> In i (flat_1D n V)).
Proof. intros n V. split; [apply complete2|]. split; [apply complete3|apply complete1]. Qed.
(** what is found: the potential agrees at two points for one field and for two fields, at the six permutations of three values
    for three fields *)
Theorem C127_found : forall n V,
  (forall i, In i (flat_1D n V) <-> (i < n)%nat /\ close (V (point1 i 2)) (V (point1 i 100))) /\
  (forall i j, In (i, j) (flat_2D n V) <-> (i < j < n)%nat /\ close (V (point2 i j 2 100)) (V (point2 i j 100 2))) /\
  (forall i j k, In (i, j, k) (flat_3D n V) <-> (i < j <= k)%nat /\ (k < n)%nat /\
     close (V (point3 i j k 2 100 200)) (V (point3 i j k 2 200 100)) /\ close (V (point3 i j k 100 2 200)) (V (point3 i j k 2 200 100)) /\
     close (V (point3 i j k 100 2 200)) (V (point3 i j k 100 200 2)) /\ close (V (point3 i j k 200 2 100)) (V (point3 i j k 100 200 2)) /\
     close (V (point3 i j k 200 2 100)) (V (point3 i j k 200 100 2))).
Proof. exact found. Qed.
(** if each plane found is one of rotational symmetry, the converted point has the same potential, is zero in the second field
    of each plane, not negative in the first, equal to the point in all other fields, the same for points connected by a
    rotation, and stays as it is when converted again *)
Theorem C127_convert_partial : forall n V,
  (forall i j, In (i, j) (flat_2D n V) -> rotation_invariant V i j) -> forall p,
  V (convert n V p) = V p /\
  (forall i j, (i < j < n)%nat -> rotation_invariant V i j -> convert n V p j = 0) /\
  (forall i j, (i < j < n)%nat -> rotation_invariant V i j -> 0 <= convert n V p i) /\
  (forall k, (forall i j, (i < j < n)%nat -> rotation_invariant V i j -> k <> i /\ k <> j) -> convert n V p k = p k) /\
  (forall k, convert n V (convert n V p) k = convert n V p k) /\
  (forall i j q, (i < j < n)%nat -> rotation_invariant V i j -> (forall k, k <> i -> k <> j -> p k = q k) ->
     p i ^ 2 + p j ^ 2 = q i ^ 2 + q j ^ 2 -> forall k, convert n V p k = convert n V q k).
Proof.
  intros n V H p. split; [apply (convert_V n V H)|]. destruct (convert_facts n V H p) as (A & B & C & D).
  split; [exact A|]. split; [exact B|]. split; [exact C|]. split; [exact D|].
  intros i j q L R E S. exact (convert_same n V H i j L R p q E S).
Qed.
Example C127_nonvacuous_convert : (forall i j, In (i, j) (flat_2D 3 ring3) -> rotation_invariant ring3 i j) /\ In (0%nat, 2%nat) (flat_2D 3 ring3).
Proof. split; [exact ring3_ok|]. apply C127_complete; [lia|]. intros p q A B. unfold ring3. rewrite (A 1%nat) by lia. lra. Qed.
(** the length of the point never changes *)
Theorem C127_length : forall n V p, sum_below n (fun k => convert n V p k ^ 2) = sum_below n (fun k => p k ^ 2).
Proof. exact convert_length. Qed.
(** a symmetry under exchange is taken for one under rotation, and the converted point has another potential *)
Theorem C127_exchange_refuted : exists n V p, flat_2D n V <> nil /\ V (convert n V p) <> V p.
Proof.
  exists 2%nat, quartic, (fun _ => 1). destruct quartic_flat as [A B]. split; [|exact B]. intros E. rewrite E in A. destruct A.
Qed.
(** points that differ in a field found to be flat stay different *)
Theorem C127_one_refuted : exists n V p q i, In i (flat_1D n V) /\ independent V i /\ (forall k, k <> i -> p k = q k) /\ convert n V p i <> convert n V q i.
Proof.
  exists 2%nat, well, (fun _ => 5), (put (fun _ => 5) 0 7), 0%nat. destruct well_flat as (A & B & C).
  split; [exact A|]. split; [exact B|]. split; [|exact C]. intros k K. rewrite put_ne by exact K. reflexivity.
Qed.
(** a direction of three fields that has only two *)
Theorem C127_triple_refuted : exists n V i j, In (i, j, j) (flat_3D n V).
Proof. exists 2%nat, (fun _ => 0), 0%nat, 1%nat. exact triple_twice. Qed.

Print Assumptions C127_complete.
Print Assumptions C127_found.
Print Assumptions C127_convert_partial.
Print Assumptions C127_length.
Print Assumptions C127_exchange_refuted.
Print Assumptions C127_one_refuted.
Print Assumptions C127_triple_refuted.
