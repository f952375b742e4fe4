(** Specifications for the multi-step modes (C92-C95). *)
From Verif.Model Require Import Base Phase MultiStep Modes.
From Verif.Spec Require Import PhaseSpec MultiStepSpec.
Open Scope Z_scope.

(** tracked minima lie in the temperature range of the run *)
Definition inside (Tlow Thigh : Z) (ms : list minimum) : Prop := forall m, In m ms -> Tlow <= temp m <= Thigh.
(** what a successful tracking from T gives: it contains T and more than two different temperatures *)
Definition long_from (T : Z) (ms : list minimum) : Prop :=
  In T (map temp ms) /\ exists a b c, In a (map temp ms) /\ In b (map temp ms) /\ In c (map temp ms) /\ a < b /\ b < c.
(** lowest and highest tracked temperature *)
Definition lowest (T : Z) (ms : list minimum) : Prop := is_least T (map temp ms).
Definition highest (T : Z) (ms : list minimum) : Prop := is_greatest T (map temp ms).
(** at most one temperature was tracked *)
Definition no_length (ms : list minimum) : Prop := forall a b, In a (map temp ms) -> In b (map temp ms) -> a = b.
(** every temperature from [lo] to [hi] is at most [slack] away from the range of some phase *)
Definition near_covered (slack lo hi : Z) (ps : list phase) : Prop :=
  forall t, lo <= t <= hi -> exists q, In q ps /\ T_low q - slack <= t <= T_high q + slack.
(** a tracked middle phase of mode 2 with its reported end of the region where it is the global minimum: the end reached
    when tracking downwards lies between the lowest temperature of the phase and the start *)
Definition ends_below (T : Z) (t : traced2) : Prop :=
  exists e, t2_down t = Some e /\ e <= T /\ exists a, In a (map temp (t2_mins t)) /\ a <= e.
(** some stored phase exists at temperature T *)
Definition touches (T : Z) (ps : list phase) : Prop := exists q, In q ps /\ T_low q <= T <= T_high q.
(** tracking from the two ends of the temperature range worked in the given mode *)
Definition boundaries_traced (w : world) (mode : Z) : Prop :=
  (mode = -1 -> forall k ht, long_from (w_Tlow w) (w_trace w k ht (w_Tlow w)) /\ long_from (w_Thigh w) (w_trace w k ht (w_Thigh w))) /\
  (mode = 0 \/ mode = 1 \/ mode = 3 -> long_from (w_Tlow w) (w_low w) /\ long_from (w_Thigh w) (w_high w)) /\
  (mode = 2 -> long_from (w_Tlow w) (fst (w_low2 w)) /\ long_from (w_Thigh w) (fst (w_high2 w))).
(** the phases put into gaps are traced phases *)
Definition patches_traced (w : world) : Prop := forall ps a b, exists ms, w_patch w ps a b = make_phase ms.
