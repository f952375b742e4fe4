(** What counterterms are for: they keep the vacuum and the masses at their tree-level values. *)
From Coq Require Import Reals List.
Open Scope R_scope.

(** the first and second derivatives [nab], [hes] cancel [N] and [H] *)
Definition cancels {G M} (okg : (nat -> R) -> G) (okh : (nat -> nat -> R) -> M) (n : nat) (nab : G) (hes : M) (N : nat -> R) (H : nat -> nat -> R) : Prop :=
  exists g h, nab = okg g /\ hes = okh h /\ (forall i, (i < n)%nat -> g i = - N i) /\
  forall i j, (i < n)%nat -> (j < n)%nat -> h i j = - H i j.
(** entries are zero or larger than [c] *)
Definition uncut (n : nat) (c : R) (H : nat -> nat -> R) : Prop :=
  forall i j, (i < n)%nat -> (j < n)%nat -> Rabs (H i j) <= c -> H i j = 0.
