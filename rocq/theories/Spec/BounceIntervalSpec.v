(** Choice of the distance from the minimum at which two solutions agree best. *)
From Coq Require Import Reals.
Open Scope R_scope.

(** 1001 distances between exp(-10) and 1 per cent of the path, equidistant on a logarithmic scale *)
Definition tried (L lmin d : R) : Prop := exists i, INR i <= 1000 /\ d = (L - lmin) / 100 * exp (INR i / 100 - 10).
(** half of the relative difference *)
Definition half_difference (a b : R) : R := Rabs (a - b) / (2 * (a + b)).
(** how well the two solutions that start at distance d agree after the given fraction of the path *)
Definition disagreement (min_rho : R -> R -> R -> R) (lin_rho : R -> R -> R) (L fraction lmin d : R) : R :=
  half_difference (lin_rho (lmin + d) (lmin + d + L * fraction)) (min_rho lmin d (lmin + d + L * fraction)).
