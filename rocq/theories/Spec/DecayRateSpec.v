(** Radiation: energy density, degrees of freedom. *)
From Coq Require Import Reals List.
Open Scope R_scope.

(** energy density of a relativistic gas with g degrees of freedom *)
Definition radiation (g T : R) : R := PI ^ 2 / 30 * g * T ^ 4.

(** degrees of freedom above the electroweak scale: 12 massless gauge bosons with 2 polarisations, one for every real scalar;
    quarks (6 flavours, 3 colours), charged leptons with 2 spins and antiparticles, neutrinos with one helicity each *)
Definition bosons_symmetric (scalars : R) : R := (8 + 3 + 1) * 2 + scalars.
(** below it: gluons and photon, W and Z with 3 polarisations, the scalars that are not would-be Goldstone bosons *)
Definition bosons_broken (scalars : R) : R := (8 + 1) * 2 + 3 * 3 + (scalars - 3).
Definition fermions : R := 6 * 3 * 2 * 2 + 3 * 2 * 2 + 3 * 2.
(** the contribution to the energy density relative to a boson is 7/8 for a fermion *)
Definition effective (b f : R) : R := b + 7 / 8 * f.
