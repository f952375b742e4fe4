(** Specifications for phases (C12, C15, C17, C60). *)
From Coq Require Import Sorted.
From Verif.Model Require Import Base Phase.
Open Scope Z_scope.

(** strictly increasing list *)
Definition increasing (l : list Z) : Prop :=
  forall i j a b, (i < j)%nat -> nth_error l i = Some a -> nth_error l j = Some b -> a < b.

Definition temps (p : phase) : list Z := map temp (mins p).

(** [m] is the first minimum of the history with its temperature *)
Definition first_at (h : list minimum) (m : minimum) : Prop :=
  exists pre post, h = pre ++ m :: post /\ forall m', In m' pre -> temp m' <> temp m.

(** smallest / largest element *)
Definition is_least (t : Z) (l : list Z) : Prop := In t l /\ forall x, In x l -> t <= x.
Definition is_greatest (t : Z) (l : list Z) : Prop := In t l /\ forall x, In x l -> x <= t.

(** two phases exist at a common temperature *)
Definition overlap (p q : phase) : Prop :=
  exists T, T_low p <= T <= T_high p /\ T_low q <= T <= T_high q.

(** the phase is alive on the open interval just below temperature [t] *)
Definition alive_below (t : Z) (p : phase) : Prop := T_low p < t <= T_high p.
Definition aliveb (t : Z) (p : phase) : bool := (T_low p <? t) && (t <=? T_high p).

(** a gap: some phase ends (downwards) at [t], nothing lives just below [t], but some
    phase lives at lower temperatures *)
Definition gap_at (ps : list phase) (t : Z) : Prop :=
  (exists p, In p ps /\ T_low p = t) /\ (exists p, In p ps /\ T_low p < t) /\
  forall p, In p ps -> ~ alive_below t p.

(** two different members of the list coexist on an interval of positive length *)
Definition two_coexist (ps : list phase) : Prop :=
  exists i j p q, (i < j)%nat /\ nth_error ps i = Some p /\ nth_error ps j = Some q /\
    Z.max (T_low p) (T_low q) < Z.min (T_high p) (T_high q).

(** what a stored phase must look like *)
Definition well_formed (p : phase) : Prop :=
  (2 <= length (mins p))%nat /\ increasing (temps p) /\
  is_least (T_low p) (temps p) /\ is_greatest (T_high p) (temps p).

(** end points labelled -1 (low end) and +1 (high end) *)
Definition ends_labelled (p : phase) : Prop :=
  exists a l b, mins p = a :: l ++ [b] /\ edge a = -1 /\ edge b = 1.

(** [q'] is [q] with possibly more temperatures *)
Definition extends (q q' : phase) : Prop :=
  pid q' = pid q /\ forall t, In t (temps q) -> In t (temps q').

Definition replace_at (i : nat) (q : phase) (l : list phase) : list phase :=
  firstn i l ++ match skipn i l with [] => [] | _ :: r => q :: r end.

(** phase lists that arise from the empty list by registering traced phases (with any
    numerical comparison results) and by queries that extend a stored phase *)
Inductive reachable : list phase -> Prop :=
| reach_nil : reachable []
| reach_add ps retrack cmp tracked : reachable ps ->
    reachable (fst (addPhase retrack cmp ps (make_phase tracked)))
| reach_get ps i q track T q' m : reachable ps -> nth_error ps i = Some q ->
    Get track q T = Ok (q', m) -> reachable (replace_at i q' ps).
