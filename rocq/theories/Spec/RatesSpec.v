(** Rates and sources of the vev-insertion approach and thermal masses of
    fermions, from the literature formulas and group theory. *)
From Coq Require Import Reals.
From Coquelicot Require Import Complex.
Open Scope R_scope.

(** Complex energy of a quasi-particle with energy [w] and width [G]. *)
Definition cenergy (w G : R) : C := (w, - G).

(** Momentum integrand of the relaxation rate for equal left- and right-handed
    particles: phase space factor times the imaginary part of the two
    propagator terms; [h] is the weight of the thermal distribution. *)
Definition relaxation (k w G h : R) : R :=
  let e := cenergy w G in
  k ^ 2 / w ^ 2
  * Im ((e * Cconj e - RtoC (k ^ 2)) / (e - Cconj e) * RtoC (h + h)
        + (e * e + RtoC (k ^ 2)) / (e + e) * RtoC (h + h))%C.

(** Momentum integrand of the CP-violating source, with the distribution
    function at complex energy to first order in the width:
    n(w - i G) = n - i G n'. *)
Definition source (k w G n n' : R) : R :=
  let e := cenergy w G in
  let N : C := (n, - (G * n')) in
  k ^ 2 / w ^ 2
  * Im ((e * Cconj e - RtoC (k ^ 2)) / ((e - Cconj e) * (e - Cconj e)) * (N - Cconj N)
        + (e * e + RtoC (k ^ 2)) / ((e + e) * (e + e)) * (N + N - RtoC 1))%C.

(** Two functions of the width agree up to its third power. *)
Definition agree_to_first_order (w : R) (f g : R -> R) : Prop :=
  exists M, forall G, 0 < G <= w -> Rabs (f G - g G) <= M * G ^ 3.

(** Rate of a species with [colours] colours, mass [m] in the wall and
    integrand [I]. *)
Definition rate_density (colours T m I : R) : R :=
  6 / T ^ 2 * (colours * (2 * m ^ 2) * I) / (2 * PI ^ 2 * T).
Definition source_density (colours vw m thp I : R) : R :=
  colours * vw * (2 * m ^ 2 * thp) * I / PI ^ 2.

(** Squared thermal mass of a fermion: [T^2/8] times the sum of squared
    coupling times quadratic Casimir of each gauge group, plus the Yukawa part
    (a doublet couples with half the weight of a singlet). *)
Definition casimir_colour : R := 4 / 3.
Definition casimir_isospin : R := 3 / 4.
Definition thermal_mass (gp g gs hypercharge isospin colour yukawa : R) (T : R) : R :=
  T ^ 2 / 8 * (gp ^ 2 * hypercharge ^ 2 + g ^ 2 * isospin + gs ^ 2 * colour + yukawa).
Definition singlet_mass (gp g gs Y c y T : R) : R := thermal_mass gp g gs Y 0 c (y ^ 2) T.
Definition doublet_mass (gp g gs Y c y T : R) : R := thermal_mass gp g gs Y casimir_isospin c (y ^ 2 / 2) T.
