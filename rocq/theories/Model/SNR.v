(** Signal-to-noise ratio of gravitational waves: src/gravitational_waves/gw.cpp 148-221.
    Doubles are real numbers, the integral of GSL is exact.  Frequencies are positive. *)
From Coq Require Import Reals.
From Coquelicot Require Import Coquelicot.
From Verif Require Import Model.GW.
Open Scope R_scope.

(** SIfunc, 157-161 *)
Definition SIfunc (f : R) : R := 576 / 10 ^ 50 * (1 + (4 / 10 ^ 4 / f) ^ 2).
(** Rfunc, 163-167 *)
Definition Rfunc (f : R) : R := 1 + (f / (25 / 10 ^ 3)) ^ 2.
(** powspec_density, 169-174 *)
Definition powspec_density (f : R) : R := 1 / 2 * 20 / 3 * (SIfunc f / (2 * PI * f) ^ 4 + 36 / 10 ^ 42) * Rfunc f.
(** h2OmSens, 176-181 *)
Definition h2OmSens (f : R) : R := let H0 := 100 / (309 * 10 ^ 17) in (4 * PI ^ 2) / (3 * H0 ^ 2) * f ^ 3 * powspec_density f.
(** snr_integrand, 183-191; the object is one whose peak data are set, which an evaluation does not change (C32); a NaN is dealt with in
    GetSNR *)
Definition number (o : option R) : R := match o with Some x => x | None => 0 end.
Definition snr_integrand (d : gwdata) (swON turbON : bool) (f : R) : R := (number (snd (CalcGWAmplitude d f swON turbON)) / h2OmSens f) ^ 2.
(** GetSNR, 148-155, and Nintegrate_SNR, 193-221; None: NaN.  An amplitude is NaN for all frequencies or for none. *)
Definition GetSNR (d : gwdata) (swON turbON : bool) (fmin fmax T : R) : option R :=
  match snd (CalcGWAmplitude d fmin swON turbON) with
  | None => None
  | Some _ => Some (sqrt (86400 * (36525 / 100) * T * RInt (snr_integrand d swON turbON) fmin fmax))
  end.
