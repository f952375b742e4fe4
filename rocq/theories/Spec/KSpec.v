(** Averages over a thermal distribution. *)
From Coq Require Import Reals ZArith Bool.
Open Scope R_scope.

(** Thermal distribution of fermions (s = 1) or bosons (s = -1). *)
Definition thermal (s T E : R) : R := / (exp (E / T) + s).

Definition energy (px py pz m2 : R) : R := sqrt (px ^ 2 + py ^ 2 + pz ^ 2 + m2).

(** Velocity along the wall normal of a particle without transverse momentum. *)
Definition speed (pz m2 : R) : R := Rabs pz / sqrt (pz ^ 2 + m2).

(** Power of a common rescaling of momenta, mass and temperature with which the
    integrand number [sw] changes. *)
Definition degree (sw : Z) : Z :=
  match sw with
  | 1 => -1 | 2 => -3 | 3 => -2 | 4 => -1 | 5 => 0 | 6 => -2 | 7 => -4 | 8 => -3 | 9 => -5 | 10 => -3 | _ => 0
  end%Z.

(** Power of the rescaling with which the normalised average changes: three
    powers from the momentum integral, and T^3 or T^2 from the normalisation. *)
Definition normalised_degree (sw : Z) : Z :=
  (degree sw + 3 - (if (sw =? 5) || (sw =? 6) || (sw =? 10) then 3 else 2))%Z.
