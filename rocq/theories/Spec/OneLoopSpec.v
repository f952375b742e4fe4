(** Squared masses along a curve. *)
From Coq Require Import List Reals.
Open Scope R_scope.

(** the squared mass [g] moves with velocity [d] at [t0] *)
Definition moves (t0 : R) (g : R -> R) (d : R) : Prop := derivable_pt_lim g t0 d.
(** [g] does not change near [t0] *)
Definition rests (t0 : R) (g : R -> R) : Prop := exists eps, 0 < eps /\ forall t, Rabs (t - t0) < eps -> g t = g t0.
(** a squared mass that is not negative, not at the threshold [thr], and, at temperature T, at a point where the thermal
    function [J] has derivative [J1]; or one that does not change *)
Definition regular (J J1 : R -> R) (thr T t0 : R) (g : R -> R) (d : R) : Prop :=
  (moves t0 g d /\ 0 <= g t0 /\ g t0 <> thr /\ (T <> 0 -> derivable_pt_lim J (g t0 / T ^ 2) (J1 (g t0 / T ^ 2)))) \/
  (rests t0 g /\ d = 0).
(** the same along the temperature axis for a mass that does not depend on the temperature *)
Definition thermal_point (J J1 : R -> R) (T : R) (g : R -> R) : Prop :=
  (forall t, g t = g T) /\ (g T = 0 \/ derivable_pt_lim J (g T / T ^ 2) (J1 (g T / T ^ 2))).
(** along the temperature axis for a mass that may depend on the temperature *)
Definition heated (J J1 : R -> R) (thr T : R) (g : R -> R) (d : R) : Prop :=
  (moves T g d /\ 0 <= g T /\ g T <> thr /\ derivable_pt_lim J (g T / T ^ 2) (J1 (g T / T ^ 2))) \/
  (thermal_point J J1 T g /\ d = 0).
