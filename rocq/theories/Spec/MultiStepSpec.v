(** Specifications for the multi-step tracer (C18). *)
From Verif.Model Require Import Base Phase MultiStep.
From Verif.Spec Require Import PhaseSpec.
Open Scope Z_scope.

(** Phase tracking stays in the temperature range it was asked for (C13): *)
Definition tracks_inside (track : nat -> minimum -> Z -> list minimum) : Prop :=
  forall k start T m, In m (track k start T) ->
    Z.min (temp start) T <= temp m <= Z.max (temp start) T.
Definition retracks_inside (retrack : nat -> phase -> list minimum) : Prop :=
  forall k p m, In m (retrack k p) -> T_low p <= temp m <= T_high p.
Definition compares_inside (cmp : nat -> nat -> phase -> phase -> compare_result) : Prop :=
  forall k i q p m, In m (ext_existing (cmp k i q p) ++ ext_new (cmp k i q p)) ->
    Z.max (T_low q) (T_low p) <= temp m <= Z.min (T_high q) (T_high p).

(** every temperature from [lo] to [hi] is at most [slack] below the range of some phase *)
Definition covered (slack lo hi : Z) (ps : list phase) : Prop :=
  forall t, lo <= t <= hi -> exists q, In q ps /\ T_low q - slack <= t <= T_high q.
