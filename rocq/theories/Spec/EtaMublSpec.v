(** Baryon asymmetry in front of the wall (hep-ph/0605242, equations 47 and 48). *)
From Coq Require Import Reals.
From Coquelicot Require Import Coquelicot.
Open Scope R_scope.

(** rate of the weak sphalerons in the symmetric phase *)
Definition sphaleron (T : R) : R := T / 10 ^ 6.
(** the density e of baryons over entropy in front of the wall: sphalerons make baryons from the left-handed chemical potential and wash
    them out again; none far in front of the wall *)
Definition baryons (mubl : R -> R) (vw T zmax : R) (e : R -> R) : Prop :=
  e zmax = 0 /\
  forall z, 0 <= z <= zmax ->
    is_derive e z (45 * sphaleron T / (4 * vw) * e z - 405 * sphaleron T / (4 * PI ^ 2 * vw * (10675 / 100) * T) * mubl z).
(** continuous between the wall and zmax *)
Definition continuous_on (f : R -> R) (zmax : R) : Prop := forall z, 0 <= z <= zmax -> continuous f z.
