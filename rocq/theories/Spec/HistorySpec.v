(** Specification of the transition history (C21). *)
From Verif.Model Require Import Base History.
Open Scope Z_scope.

(** pair [p] of the list has completed at temperature [T] *)
Definition completes (pairs : list hpair) (compl : list (option Z)) (p : hpair) (T : Z) : Prop :=
  In p pairs /\ nth_error compl (h_id p) = Some (Some T).

(** [p] is a completed transition out of [cur] with the highest completion temperature *)
Definition best_step pairs compl (cur : Z) (p : hpair) : Prop :=
  h_false p = cur /\ exists T, completes pairs compl p T /\
    forall p' T', completes pairs compl p' T' -> h_false p' = cur -> T' <= T.

(** phases and pairs visited from [cur] on *)
Inductive chain pairs compl : Z -> list Z -> list nat -> Prop :=
| chain_end cur : (forall p T, completes pairs compl p T -> h_false p <> cur) -> chain pairs compl cur [cur] []
| chain_step cur p hs ps : best_step pairs compl cur p -> chain pairs compl (h_true p) hs ps ->
    chain pairs compl cur (cur :: hs) (h_id p :: ps).

(** printed form of a chain: ids of the phases, the ids of the pairs on the arrows between them *)
Inductive printed (decimal : nat -> str) : list nat -> list nat -> str -> Prop :=
| printed_end i : printed decimal [i] [] (decimal i)
| printed_step i p ids ps t : printed decimal ids ps t ->
    printed decimal (i :: ids) (p :: ps) (decimal i ++ s2l "-(" ++ decimal p ++ s2l ")->" ++ t).
