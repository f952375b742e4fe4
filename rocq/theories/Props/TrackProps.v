(** C13, C14, C62: tracking a phase in temperature. *)
From Coq Require Import Lqa.
From Verif.Model Require Import Base Track.
From Verif.Spec Require Import TrackSpec.
From Verif.Proofs Require Import TrackProofs.
Open Scope Q_scope.

(** C13: false in general.  Witness: tracking from 0 to 1/2 with step 1; the minimum is
    found at 0, the minimiser flies away at the (shortened) step to 1/2; going back one
    full step leads to -1/2, and a minimum at -2/5 is recorded, outside the range. *)
Theorem C13_range_refuted :
  exists oracle fuel l T,
    sane oracle /\ TrackPhase false 1 oracle fuel 0 (1 # 2) 1 = Ok l /\ In T l /\ T < 0.
Proof.
  exists (fun k T d => {| grad_big := Nat.eqb k 1; has_nan := false; dist := 0; neg_eig := Nat.leb 3 k; zero_T := -1 |}),
    5%nat. eexists. exists (-2 # 5).
  split; [intros k T d; split; [discriminate|left; discriminate]|].
  split; [vm_compute; reflexivity|]. split; [right; left; reflexivity|reflexivity].
Qed.
Print Assumptions C13_range_refuted.

(** what holds: never beyond finalT, and at most one initial step before initialT *)
Theorem C13_range_partial :
  forall unprotected th oracle fuel init fin dT l,
    0 < th -> sane oracle ->
    TrackPhase unprotected th oracle fuel init fin dT = Ok l ->
    exists d, Qabs d == Qabs dT /\ between (init - d) init fin /\
              Forall (fun T => between (init - d) T fin) l.
Proof. exact track_bounds. Qed.
Print Assumptions C13_range_partial.

(** the claim as stated, if the minimum can be followed at finalT itself *)
Theorem C13_monotone_in_range_partial :
  forall unprotected th oracle fuel init fin dT l,
    0 < th -> sane oracle ->
    (forall k T d, T == fin -> followed th (oracle k T d) /\
                   (unprotected = true \/ neg_eig (oracle k T d) = false)) ->
    TrackPhase unprotected th oracle fuel init fin dT = Ok l ->
    towards init fin l.
Proof. exact track_monotone. Qed.
Print Assumptions C13_monotone_in_range_partial.

(** a run with a failed step and a phase that ends in a saddle point *)
Definition demo_oracle (k : nat) (T d : Q) : probe :=
  {| grad_big := Qeq_bool T 20; has_nan := false; dist := 1; neg_eig := Qle_bool 12 T && Qle_bool T 19;
     zero_T := T - d / 2 |}.
Example C13_nonvacuous :
  sane demo_oracle /\
  (forall k T d, T == 100 -> followed 2 (demo_oracle k T d) /\ (false = true \/ neg_eig (demo_oracle k T d) = false)) /\
  TrackPhase false 2 demo_oracle 50 0 100 (-10) = Ok [0; 10; 11; 23 # 2].
Proof.
  split; [|split].
  - intros k T d. split; [discriminate|]. right. cbn [zero_T demo_oracle]. unfold between.
    assert (E : d / 2 == d * (1 # 2)) by (unfold Qdiv; reflexivity). destruct (Qlt_le_dec 0 d); [left|right]; lra.
  - intros k T d E. unfold demo_oracle, followed. cbn [grad_big has_nan dist neg_eig].
    rewrite !E. repeat split; [discriminate|]. right. reflexivity.
  - vm_compute. reflexivity.
Qed.

(** C14: false in general.  Witness: the minimum does not move, except that the minimiser
    fails exactly at finalT; the loop then alternates between finalT and a point before
    initialT for ever (and records the same temperature again and again). *)
Theorem C14_terminates_refuted :
  exists oracle init fin dT,
    sane oracle /\ forall fuel, TrackPhase false 1 oracle fuel init fin dT = OutOfFuel.
Proof.
  exists stuck_oracle, 0, (1 # 2), 1. split; [|exact stuck].
  intros k T d. split; [discriminate|left; discriminate].
Qed.
Print Assumptions C14_terminates_refuted.

(** what holds: it returns for every behaviour of the minimiser that follows the phase at
    finalT *)
Theorem C14_terminates_partial :
  forall unprotected th oracle init fin dT,
    0 < th -> sane oracle ->
    (forall k T d, T == fin -> followed th (oracle k T d)) ->
    exists fuel l, TrackPhase unprotected th oracle fuel init fin dT = Ok l.
Proof. exact track_terminates. Qed.
Print Assumptions C14_terminates_partial.

(** hypotheses are those of C13_nonvacuous, a run with a failed and a saddle step *)
Example C14_nonvacuous :
  forall k T d, T == 100 -> followed 2 (demo_oracle k T d).
Proof. intros k T d E. apply (proj1 (proj2 C13_nonvacuous) k T d E). Qed.

(** C62 *)
Theorem C62_zero_between :
  forall oracle fuel T1 T2 r, FindZero false oracle fuel T1 T2 = Ok r -> between T1 r T2.
Proof. exact find_zero_bracket. Qed.
Print Assumptions C62_zero_between.

Theorem C62_zero_terminates :
  forall same_sign oracle T1 T2, 0 < T1 -> 0 < T2 ->
    exists fuel r, FindZero same_sign oracle fuel T1 T2 = Ok r.
Proof. exact find_zero_terminates. Qed.
Print Assumptions C62_zero_terminates.

(** nothing is bisected when both ends have the same sign *)
Theorem C62_same_sign : forall oracle fuel T1 T2, FindZero true oracle fuel T1 T2 = Ok (-1).
Proof. exact find_zero_same_sign. Qed.
Print Assumptions C62_same_sign.

(** the result is the first end point or a probed point with the sign of the first end point
    whose minimum is close to the known ones *)
Theorem C62_zero_on_first_side :
  forall oracle fuel T1 T2 r, FindZero false oracle fuel T1 T2 = Ok r ->
    r = T1 \/ exists k, far (oracle k r) = false /\ like_1 (oracle k r) = true.
Proof. exact find_zero_side. Qed.
Print Assumptions C62_zero_on_first_side.

(** if the eigenvalue changes sign at Tz and no probe hits Tz exactly, the result is within a
    relative 1e-8 of it *)
Theorem C62_zero_accurate_partial :
  forall oracle fuel T1 T2 Tz r,
    0 < T1 -> 0 < T2 -> between T1 Tz T2 ->
    (forall k T, between T1 T T2 ->
       far (oracle k T) = false /\
       (like_1 (oracle k T) = true /\ between T1 T Tz \/
        like_1 (oracle k T) = false /\ like_2 (oracle k T) = true /\ between Tz T T2)) ->
    FindZero false oracle fuel T1 T2 = Ok r ->
    between T1 r Tz /\ (Qabs (r - Tz) <= (1 # 100000000) * T1 \/ Qabs (r - Tz) <= (1 # 100000000) * T2).
Proof. exact find_zero_accurate. Qed.
Print Assumptions C62_zero_accurate_partial.

(** if a probe hits the zero exactly the search stops with the last accepted point: here the
    zero is at 105 and the result is the end point 100 *)
Theorem C62_zero_accurate_refuted :
  exists oracle fuel r,
    (forall k T, far (oracle k T) = false /\ (like_1 (oracle k T) = true <-> T < 105) /\ (like_2 (oracle k T) = true <-> 105 < T)) /\
    FindZero false oracle fuel 100 110 = Ok r /\ r == 100.
Proof.
  exists (fun k T => {| far := false; like_1 := Qltb T 105; like_2 := Qltb 105 T |}), 2%nat. eexists.
  split; [intros k T; cbn [far like_1 like_2]; rewrite !Qltb_true; intuition|].
  split; [vm_compute; reflexivity|reflexivity].
Qed.
Print Assumptions C62_zero_accurate_refuted.

Example C62_nonvacuous :
  exists r, FindZero false (fun k T => {| far := false; like_1 := Qle_bool T 105; like_2 := negb (Qle_bool T 105) |})
    40 100 110 = Ok r /\ Qabs (r - 105) <= 1 # 100000.
Proof. eexists. split; [vm_compute; reflexivity|vm_compute; discriminate]. Qed.
