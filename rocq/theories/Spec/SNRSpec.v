(** Signal-to-noise ratio at LISA. *)
From Coq Require Import Reals.
From Coquelicot Require Import Coquelicot.
From Verif Require Import Model.GW.
Open Scope R_scope.

(** data of a transition; there may be no energy in turbulence *)
Definition valid_wave (d : gwdata) : Prop := 0 < g_T d /\ 0 < g_HR d /\ 0 < g_gstar d /\ 0 < g_Ksw d /\ 0 <= g_Kturb d /\ 0 < g_Hstar d.
(** noise of acceleration and of the optical path; the strain noise and the energy density it corresponds to; the Hubble constant is
    100 km / s / Mpc *)
Definition acceleration (f : R) : R := 576 / 10 ^ 50 / (2 * PI * f) ^ 4 * (1 + (/ 2500 / f) ^ 2).
Definition optical : R := 36 / 10 ^ 42.
Definition strain (f : R) : R := 10 / 3 * (acceleration f + optical) * (1 + (40 * f) ^ 2).
Definition sensitivity (f : R) : R := 4 * PI ^ 2 / 3 / (100 / (309 * 10 ^ 17)) ^ 2 * f ^ 3 * strain f.
(** seconds in T years *)
Definition seconds (T : R) : R := T * (36525 / 100) * (24 * 60 * 60).
(** rho is the signal-to-noise ratio of the spectrum omega in T years *)
Definition signal_to_noise (omega : R -> R) (fmin fmax T rho : R) : Prop :=
  0 <= rho /\ exists I, is_RInt (fun f => (omega f / sensitivity f) ^ 2) fmin fmax I /\ rho ^ 2 = seconds T * I.
