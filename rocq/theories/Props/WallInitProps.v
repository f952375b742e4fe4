(** C118: vacua and phases used for the wall. *)
From Coq Require Import Reals List Lra.
From Coquelicot Require Import Coquelicot.
From Verif Require Import Model.Base Model.WallInit Spec.WallInitSpec Proofs.WallInitProofs.
Import ListNotations.
Open Scope R_scope.

(** A vacuum that is at most |tree| away from the tree-level one is kept; else
    the first sign symmetry that brings it nearer than that is applied; else it
    is kept. *)
Theorem C118_choice : forall tree syms v,
  (dist2 tree v <= dist2 tree (origin tree) /\ choose_signs tree syms v = v) \/
  (dist2 tree (origin tree) < dist2 tree v /\
   ((exists pre s post, syms = pre ++ s :: post /\ choose_signs tree syms v = image s v /\ dist2 tree (image s v) < dist2 tree (origin tree) /\
     forall s', In s' pre -> dist2 tree (origin tree) <= dist2 tree (image s' v)) \/
    (choose_signs tree syms v = v /\ forall s, In s syms -> dist2 tree (origin tree) <= dist2 tree (image s v)))).
Proof. exact choose_cases. Qed.

(** A second application changes nothing. *)
Theorem C118_idempotent : forall tree syms v, choose_signs tree syms (choose_signs tree syms v) = choose_signs tree syms v.
Proof. exact choose_idempotent. Qed.

(** Any function that has the sign symmetries keeps its value. *)
Theorem C118_potential : forall (V : list R -> R) tree syms v,
  (forall s w, In s syms -> V (image s w) = V w) -> V (choose_signs tree syms v) = V v.
Proof. exact choose_potential. Qed.

Example C118_nonvacuous : choose_signs [1; 2] [[-1; 1]; [1; -1]; [-1; -1]] [-1; -2] = [-1; 2].
Proof.
  unfold choose_signs, norm2, distance2, first_nearer, flip. cbn. repeat (destruct (Rlt_dec _ _) as [?H|?H]; try lra).
  apply (f_equal2 (@cons R)); [lra|]. apply (f_equal2 (@cons R)); [lra|reflexivity].
Qed.

(** The chosen image need not be the nearest one. *)
Theorem C118_nearest_refuted : exists tree syms v s, In s syms /\
  dist2 tree (image s v) < dist2 tree (choose_signs tree syms v).
Proof.
  exists [4; 2], [[-1; 1]; [-1; -1]], [-4; -2], [-1; -1]. split; [right; left; reflexivity|].
  unfold choose_signs, norm2, distance2, first_nearer, flip. cbn. repeat (destruct (Rlt_dec _ _) as [?H|?H]; try lra); cbn; lra.
Qed.

(** The two ends of the wall are chosen independently: the distance between
    them can change, although each sign symmetry preserves distances. *)
Theorem C118_ends_refuted : exists tree syms vc vs,
  (forall s a b, In s syms -> length a = length s -> length b = length s -> dist2 (image s a) (image s b) = dist2 a b) /\
  dist2 (choose_signs tree syms vc) (choose_signs tree syms vs) <> dist2 vc vs.
Proof.
  exists [1], [[-1]], [- (1 / 2)], [-3]. split.
  - intros s a b [<-|[]] A B. destruct a as [|x [|? ?]]; try discriminate. destruct b as [|y [|? ?]]; try discriminate. cbn. ring.
  - unfold choose_signs, norm2, distance2, first_nearer, flip. cbn. repeat (destruct (Rlt_dec _ _) as [?H|?H]; try lra); cbn; lra.
Qed.

(** They are transformed alike when both are within |tree| of the tree-level
    vacuum, or the first fitting symmetry is the same. *)
Theorem C118_ends_partial : forall tree syms vc vs,
  dist2 tree vc <= dist2 tree (origin tree) -> dist2 tree vs <= dist2 tree (origin tree) ->
  choose_signs tree syms vc = vc /\ choose_signs tree syms vs = vs.
Proof.
  intros tree syms vc vs A B.
  destruct (choose_cases tree syms vc) as [[_ E]|[H _]]; [|lra]. destruct (choose_cases tree syms vs) as [[_ F]|[H _]]; [|lra]. split; assumption.
Qed.

Example C118_nonvacuous_ends : dist2 [246] [200] <= dist2 [246] (origin [246]) /\ dist2 [246] [0] <= dist2 [246] (origin [246]).
Proof. cbn. lra. Qed.

(** With an opposite pair of eigenvalues the phase is in the right half plane
    and is that of the eigenvalue up to its sign. *)
Theorem C118_phase : forall x y, (x, y) <> (0, 0) ->
  let p := phase_of (x, y) (- x, - y) in Rabs p <= PI / 2 /\ phase_up_to_sign (x, y) p.
Proof. exact phase_right. Qed.

(** It does not depend on the order of the pair, unless the eigenvalue is
    imaginary. *)
Theorem C118_order_partial : forall x y, x <> 0 -> phase_of (x, y) (- x, - y) = phase_of (- x, - y) (x, y).
Proof. exact phase_order. Qed.
Theorem C118_order_refuted : exists x y, phase_of (x, y) (- x, - y) = PI / 2 /\ phase_of (- x, - y) (x, y) = - (PI / 2).
Proof.
  exists 0, 1. split.
  - rewrite phase_cases. destruct (Rlt_dec 0 0); [lra|]. destruct (arg_zero_re 1) as [_ ->]. destruct (Rlt_dec 0 1); [reflexivity|lra].
  - replace (phase_of (- 0, - (1)) (0, 1)) with (phase_of (0, - (1)) (- 0, - - (1))) by (rewrite Ropp_0, Ropp_involutive; reflexivity).
    rewrite phase_cases. destruct (Rlt_dec 0 0); [lra|]. destruct (arg_zero_re (- (1))) as [_ ->]. destruct (Rlt_dec 0 (- (1))); [lra|]. destruct (Rlt_dec (- (1)) 0); [reflexivity|lra].
Qed.

(** The difference of the phases of two masses whose phases differ by [e] and
    lie on different sides of pi/2 is [e - pi]. *)
Theorem C118_jump : forall r e, 0 < r -> 0 < e < PI ->
  let z p := (r * cos p, r * sin p) in let ph p := phase_of (z p) (- fst (z p), - snd (z p)) in
  ph (PI / 2 + e / 2) - ph (PI / 2 - e / 2) = e - PI.
Proof. exact phase_jump. Qed.
(** Within the right half plane the phase itself is returned. *)
Theorem C118_phase_inside : forall r p, 0 < r -> - (PI / 2) < p < PI / 2 ->
  phase_of (r * cos p, r * sin p) (- (r * cos p), - (r * sin p)) = p.
Proof. exact phase_polar. Qed.

Example C118_nonvacuous_phase : (3, 4) <> (0, 0) /\ 0 < 1 < PI.
Proof. split; [intro H; apply (f_equal fst) in H; cbn in H; lra|]. pose proof PI2_3_2. unfold PI2 in *. lra. Qed.

(** Which entries are read: the last two for the top and the tau, the two before
    for the bottom; a list with fewer entries is reported. *)
Theorem C118_entries : forall pre b b' t t',
  phase_at (pre ++ [b'; b; t'; t]) 1 = Ok (cut (phase_of t t')) /\
  phase_at (pre ++ [b'; b; t'; t]) 3 = Ok (cut (phase_of b b')).
Proof.
  intros pre b b' t t'. split; [|apply (phase_at_ok pre [t'; t]); reflexivity].
  replace (pre ++ [b'; b; t'; t]) with ((pre ++ [b'; b]) ++ [t'; t]) by (rewrite <- app_assoc; reflexivity). apply (phase_at_ok _ []). reflexivity.
Qed.
Theorem C118_short : forall m k, (length m < k)%nat -> phase_at m k = Throw OutOfRange.
Proof. exact phase_at_short. Qed.

(** Phases below 1e-14 become 0, others are kept. *)
Theorem C118_cut : forall p, (Rabs p < / 10 ^ 14 -> cut p = 0) /\ (/ 10 ^ 14 <= Rabs p -> cut p = p).
Proof. intro p. unfold cut. split; intro H; destruct (Rlt_dec (Rabs p) (/ 10 ^ 14)); (reflexivity || lra). Qed.

(** The point near the symmetric vacuum is a hundredth of the way to the other. *)
Theorem C118_near : forall vs vc i, (i < length vs)%nat -> length vc = length vs ->
  nth i (near_symmetric vs vc) 0 = (99 * nth i vs 0 + nth i vc 0) / 100.
Proof.
  induction vs as [|x vs IH]; intros [|y vc] i I L; cbn [length] in *; try (exfalso; inversion I; fail); try discriminate.
  destruct i as [|i]; unfold near_symmetric in *; cbn [combine map fst snd nth]; [field|]. apply IH; [apply le_S_n; exact I|injection L; trivial].
Qed.
Example C118_nonvacuous_near : (0 < length [0])%nat /\ length [246] = length [0].
Proof. split; [constructor|reflexivity]. Qed.

Print Assumptions C118_choice.
Print Assumptions C118_idempotent.
Print Assumptions C118_potential.
Print Assumptions C118_nearest_refuted.
Print Assumptions C118_ends_refuted.
Print Assumptions C118_ends_partial.
Print Assumptions C118_phase.
Print Assumptions C118_order_partial.
Print Assumptions C118_order_refuted.
Print Assumptions C118_jump.
Print Assumptions C118_phase_inside.
Print Assumptions C118_entries.
Print Assumptions C118_short.
Print Assumptions C118_cut.
Print Assumptions C118_near.
