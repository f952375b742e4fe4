(** Specifications for the gravitational-wave and wall-velocity properties: written from the
    published formulas, without reference to the model. *)
From Coq Require Import Reals.
Open Scope R_scope.

(** a velocity in units of the speed of light *)
Definition physical_velocity (v : R) : Prop := 0 <= v <= 1.

(** documented turbulence spectrum: A (f/fp)^3 / ((1+f/fp)^(11/3) (1 + 8 pi f/H)) *)
Definition turb_documented (A fp H f : R) : R :=
  A * (f / fp) ^ 3 / Rpower (1 + f / fp) (11 / 3) / (1 + 8 * PI * f / H).

(** shock formation time in Hubble units: tau = (2/sqrt 3) HR / sqrt K *)
Definition turnover_time (HR K : R) : R := 2 / sqrt 3 * HR / sqrt K.

(** peak sound-wave energy density with the finite-lifetime suppression min(1,tau) *)
Definition sw_peak_documented (g HR K : R) : R :=
  0.674 * 0.674 * 2.061 * 1.2e-2 * 3.57e-5 * Rpower (100 / g) (1 / 3) * HR * K ^ 2 * Rmin 1 (turnover_time HR K).
