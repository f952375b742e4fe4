(** Specification: derivatives of partially defined real functions. *)
From Coq Require Import Reals ZArith.
Open Scope R_scope.

(** [G] gives at [x] the derivative of [F] *)
Definition derivative_at (F G : R -> option R) (x : R) : Prop :=
  exists f d, (exists eps, 0 < eps /\ forall y, Rabs (y - x) < eps -> F y = Some (f y)) /\
    G x = Some d /\ derivable_pt_lim f x d.

(** derivative from the right *)
Definition right_derivative_at (F G : R -> option R) (x : R) : Prop :=
  exists f d, (exists eps, 0 < eps /\ forall y, 0 <= y - x < eps -> F y = Some (f y)) /\ G x = Some d /\
    forall eps, 0 < eps -> exists delta, 0 < delta /\ forall h, 0 < h < delta -> Rabs ((f (x + h) - f x) / h - d) < eps.

(** the oscillation of [F] near [x] is below [eps]: values at nearby arguments differ by less *)
Definition oscillation_below (F : R -> option R) (x eps : R) : Prop :=
  exists delta, 0 < delta /\ forall y z, Rabs (y - x) < delta -> Rabs (z - x) < delta ->
    exists a b, F y = Some a /\ F z = Some b /\ Rabs (a - b) < eps.
(** [F] jumps at [x] by more than [eps] *)
Definition jumps (F : R -> option R) (x eps : R) : Prop :=
  exists delta b, 0 < delta /\ F x = Some b /\
    forall y, x - delta < y < x -> exists a, F y = Some a /\ eps < Rabs (b - a).

(** high-temperature limit of the potential of one degree of freedom: [m] is the squared mass, [lnA] the
    logarithm of 4 pi exp(-gamma) for bosons and pi exp(-gamma) for fermions, [c] the constant of the
    renormalisation scheme minus 3/2.  There is no logarithm of the mass. *)
Definition scalar_high_T (lnA c scale m T : R) : R :=
  - PI ^ 2 / 90 * T ^ 4 + m * T ^ 2 / 24 - T * (m * sqrt m) / (12 * PI) + m ^ 2 / (32 * PI ^ 2) * (lnA + ln (T / scale) - c / 2).
Definition fermion_high_T (lnA scale m T : R) : R :=
  7 * PI ^ 2 / 720 * T ^ 4 - m * T ^ 2 / 48 + m ^ 2 / (32 * PI ^ 2) * (lnA + ln (T / scale)).

(** [z] is the value of the Riemann zeta function at the integer [s]: the limit of the sums of 1/k^s *)
Definition zpart (s n : nat) : R := sum_f_R0 (fun k => / IZR (Z.of_nat (S k)) ^ s) n.
Definition is_zeta (s : nat) (z : R) : Prop := Un_cv (zpart s) z.
Definition zeta_values (zeta : nat -> R) : Prop := is_zeta 3 (zeta 3%nat) /\ is_zeta 5 (zeta 5%nat) /\ is_zeta 7 (zeta 7%nat).
