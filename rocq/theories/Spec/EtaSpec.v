(** Baryon number in front of and behind a moving wall with sphalerons. *)
From Coq Require Import Reals.
Open Scope R_scope.

(** [n] with derivatives [n1] and [n2] is a stationary baryon density between
    0 and [Z] in the frame of a wall that moves with [vw] towards positive
    positions: diffusion with constant [D], washout with [rate * relax] and
    production from [drive]. *)
Definition stationary (D vw rate relax : R) (drive n n1 n2 : R -> R) (Z : R) : Prop :=
  forall z, 0 <= z <= Z ->
  derivable_pt_lim n z (n1 z) /\ derivable_pt_lim n1 z (n2 z) /\
  D * n2 z + vw * n1 z - relax * rate * n z + drive z = 0.

(** A density proportional to [exp (a z)] that is stationary without
    production. *)
Definition free_exponent (D vw rate relax a : R) : Prop := D * a ^ 2 + vw * a - relax * rate = 0.

(** The density continues beyond [Z] as the free solution that decays: [n1 = b n]
    with the negative exponent [b]. *)
Definition decays_beyond (D vw rate relax : R) (n n1 : R -> R) (Z : R) : Prop :=
  exists b, b < 0 /\ free_exponent D vw rate relax b /\ n1 Z = b * n Z.

(** The density continues behind the wall with washout: as the free solution
    that decays towards negative positions. *)
Definition washed_out_behind (D vw rate relax : R) (n n1 : R -> R) : Prop :=
  exists a, 0 < a /\ free_exponent D vw rate relax a /\ n1 0 = a * n 0.

(** The density is frozen behind the wall. *)
Definition frozen_behind (n1 : R -> R) : Prop := n1 0 = 0.

(** Standard values for the plasma: entropy of [g] degrees of freedom,
    sphaleron rate for gauge coupling [c]. *)
Definition entropy (g T : R) : R := 2 * PI ^ 2 / 45 * g * T ^ 3.
Definition sphaleron_rate (kappa c T : R) : R := 6 * kappa * (c ^ 2 / (4 * PI)) ^ 5 * T.
