(** Specification vocabulary for the worker threads. *)
From Coq Require Import List Arith Permutation.
Import ListNotations.

(** how many starting points fail *)
Definition failures (good : nat -> bool) (starts : list nat) : nat := length (filter (fun p => negb (good p)) starts).

(** what a finished parallel search may deliver: [results] are distinct occurrences among the starting
    points, all successful, together with [failed] ones and the [rest] that was never tried *)
Definition delivered (good : nat -> bool) (starts results failed rest : list nat) : Prop :=
  Permutation starts (failed ++ results ++ rest) /\
  Forall (fun p => good p = true) results /\ Forall (fun p => good p = false) failed.
