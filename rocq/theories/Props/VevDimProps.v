(** C148: points of all fields and vacuum expectation values. *)
From Coq Require Import List Arith Lia Sorted Reals.
From Verif Require Import Model.Base Model.Potential Model.VevDim Spec.PotentialSpec Proofs.VevDimProofs.
Import ListNotations.
Local Open Scope nat_scope.

(** What the minimiser returns comes back from the point of all fields. *)
Theorem C148_there_and_back : forall n order (v w : list R), length v = length order -> StronglySorted lt order -> Forall (fun o => o < n) order -> 0 < n ->
  MinimizeOrderVEV 0%R order v n = Ok w -> ConvertToVEVDim order w = Ok v.
Proof. exact (there_and_back 0%R). Qed.
Print Assumptions C148_there_and_back.

(** The other way round nothing is lost exactly if the fields without a vacuum expectation value vanish. *)
Theorem C148_back_and_there : forall n order (p : list R), length p = n -> StronglySorted lt order -> Forall (fun o => o < n) order -> 0 < n -> In (n - 1) order ->
  exists v w, ConvertToVEVDim order p = Ok v /\ MinimizeOrderVEV 0%R order v n = Ok w /\
    (w = p <-> forall i, i < n -> ~ In i order -> nth_error p i = Some 0%R).
Proof. exact (back_and_there 0%R). Qed.
Print Assumptions C148_back_and_there.

(** A point with too few fields is reported. *)
Theorem C148_short : forall order (p : list R), Exists (fun o => length p <= o) order -> ConvertToVEVDim order p = Throw OutOfRange.
Proof. exact (fun order p => convert_throws p order). Qed.
Print Assumptions C148_short.

Example C148_nonvacuous : StronglySorted lt [2; 4; 6; 7] /\ Forall (fun o => o < 8) [2; 4; 6; 7] /\ In (8 - 1) [2; 4; 6; 7] /\
  MinimizeOrderVEV 0 [2; 4; 6; 7] [10; 20; 30; 40] 8 = Ok [0; 0; 10; 0; 20; 0; 30; 40] /\
  ConvertToVEVDim [2; 4; 6; 7] [1; 0; 10; 0; 20; 0; 30; 40] = Ok [10; 20; 30; 40] /\
  ConvertToVEVDim [2; 4; 6; 7] [10; 20; 30; 40] = Throw OutOfRange.
Proof. split; [repeat constructor|]. split; [repeat constructor; lia|]. split; [cbn; tauto|]. repeat split; reflexivity. Qed.
