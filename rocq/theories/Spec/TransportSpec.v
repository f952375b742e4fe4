(** Specification: fluid equations of a species in the wall frame (Fromme and Huber, hep-ph/0604159 and
    hep-ph/0605242, equations 44 and 45): continuity and force equation, with the interaction rates that couple
    left top [t], left bottom [b], right top [c] and the Higgs bosons [h]. *)
From Coq Require Import Reals.
Open Scope R_scope.

(** thermal averages of one species: [a1] and [a2] in the continuity equation, [a4], [a5], [a6] in the force
    equation *)
Record averages := Av { a1 : R; a2 : R; a4 : R; a5 : R; a6 : R }.
Definition massless (b1 b4 b5 : R) : averages := Av b1 0 b4 b5 0.

(** [mu] potential, [mu'] its derivative, [u'] derivative of the velocity, [m2'] derivative of the squared mass *)
Definition continuity (A : averages) (vw m2' mu mu' u' rate : R) : Prop :=
  vw * a1 A * mu' + vw * a2 A * m2' * mu + u' = rate.
Definition force (A : averages) (vw m2' Gtot mu' u u' source : R) : Prop :=
  - a4 A * mu' + vw * a5 A * u' + vw * a6 A * m2' * u + Gtot * u = source.

(** interaction rates: Yukawa [GY], mass insertion [GM], helicity flip by W bosons [GW], Higgs number [GH], strong
    sphalerons [GSS]; [kt], [kb] are the averages K1 of top and bottom *)
Section Rates.
  Variables GY GM GW GH GSS kt kb t b c h : R.
  Definition sphaleron : R := GSS * ((1 + 9 * kt) * t + (1 + 9 * kb) * b + (1 - 9 * kt) * c).
  Definition rate_t : R := GY * (t + c + h) + 2 * GM * (t + c) + GW * (t - b) + sphaleron.
  Definition rate_b : R := GY * (b + c + h) + GW * (b - t) + sphaleron.
  Definition rate_c : R := GY * (t + b + 2 * c + 2 * h) + 2 * GM * (t + c) + sphaleron.
  Definition rate_h : R := 3 / 4 * GY * (t + b + 2 * c + 2 * h) + GH * h.
End Rates.

(** total interaction rate from the diffusion constant: D = K4 / (K1 Gtot) *)
Definition total_rate (A : averages) (D : R) : R := a4 A / (a1 A * D).
