(** The K functions of the Fromme-Huber transport equations: integrands,
    normalisations and the tables that are interpolated.

    Simplifications: doubles are exact reals.  The Monte Carlo integral of GSL
    over the cube, GSL's one-dimensional integral, the bicubic splines of GSL
    and the cubic splines of Boost are arbitrary functions (parameters). *)
From Coq Require Import Reals List ZArith Lia.
From Verif Require Import Base.
Import ListNotations.
Open Scope R_scope.

(** src/Kfactors/Kfactors.cpp 25-42 *)
Definition distribution_f0 (E0 : R) (s : Z) (T : R) (diff : Z) : R :=
  let beta := 1 / T in
  let expv := exp (beta * E0) in
  if (diff =? 0)%Z then 1 / (expv + IZR s)
  else if (diff =? 1)%Z then - beta * expv / (expv + IZR s) ^ 2
  else if (diff =? 2)%Z then beta * beta * expv * (expv - IZR s) / (expv + IZR s) ^ 3
  else 0.

(** src/Kfactors/Kfactors.cpp 44-92; the momentum always has three components
    (111, 128-130) *)
Definition K_integrand (px py pz m2 : R) (sw : Z) (s : Z) (T : R) : R :=
  let E0z := sqrt (pz * pz + m2) in
  let E0 := sqrt (px * px + py * py + pz * pz + m2) in
  let f := distribution_f0 E0 s T in
  match sw with
  | 1%Z => - pz * pz / E0 * f 2%Z
  | 2%Z => f 2%Z / (2 * E0)
  | 3%Z => f 1%Z / (2 * E0)
  | 4%Z => pz * pz / (E0 * E0) * f 1%Z
  | 5%Z => pz * pz / E0 * f 1%Z
  | 6%Z => (E0 * E0 - pz * pz) / (2 * E0 ^ 3) * f 1%Z
  | 7%Z => Rabs pz / (2 * E0 * E0 * E0z) * (f 1%Z / E0 - f 2%Z)
  | 8%Z => Rabs pz * f 1%Z / (2 * E0 * E0 * E0z)
  | 9%Z => Rabs pz / (4 * E0 ^ 3 * E0z) * (f 1%Z / E0 - f 2%Z)
  | 10%Z => Rabs pz * f 0%Z / (2 * E0 ^ 3 * E0z)
  | _ => 0
  end.

(** A value, or the end of the program by exit(EXIT_FAILURE). *)
Inductive kresult := Value (r : R) | Exits.

Section Integrals.
(** gsl_monte_vegas_integrate over the cube from 0 to 1000 (Kfactors.cpp
    118-145) and gsl_integration_qags from 0 to 30 (205-208) *)
Variable cube : (R -> R -> R -> R) -> R.
Variable line : (R -> R) -> R.

(** Kfactors.cpp 107-154 *)
Definition K_integration (m2 T : R) (sw s : Z) : R :=
  cube (fun px py pz => K_integrand px py pz m2 sw s T) * 8.

(** Kfactors.cpp 187-214 *)
Definition Ktilde_normalization (T : R) (s : Z) (m2 : R) : R :=
  line (fun x => x ^ 2 / (exp (sqrt (m2 * (1 / T) ^ 2 + x ^ 2)) + IZR s)) * (4 * PI * T ^ 3).

(** Kfactors.cpp 156-175 *)
Definition K_functions (m2 T : R) (sw s : Z) : kresult :=
  let numerator := K_integration m2 T sw s in
  if (10 <? sw)%Z then Exits
  else if ((sw =? 5) || (sw =? 6) || (sw =? 10))%Z then Value (numerator / Ktilde_normalization T s m2)
  else Value (numerator / (- PI ^ 3 * T ^ 2 * 2 / 3)).

(** src/prog/Kfactor_grid.cpp 33-40: values at m^2/T^2 = 0, 1, ..., 400 *)
Definition Ktilde_grid (s : Z) (i : nat) : R := Ktilde_normalization 1 s (INR i).

(** src/prog/Kfactor_grid.cpp 168-189: entry of the table of the function
    number [sw] for the squared mass [m2] and temperature [T] *)
Definition table_entry (sw s : Z) (m2 T : R) : R :=
  if (sw =? 9)%Z then K_integration (Rmax m2 (/ 10 ^ 15)) T 9 s else K_integration m2 T sw s.
End Integrals.

(** src/Kfactors/KfactorsinterpolatedGSL.cpp 26-57; [fermion] and [boson] are
    the splines through Ktilde_grid *)
Definition CalculateNorm1 (T : R) : R := - PI ^ 3 * T ^ 2 * 2 / 3.
Definition CalculateNorm2 (fermion boson : R -> R) (m2 T : R) (s : Z) : R :=
  (if (s =? 1)%Z then fermion (m2 / T ^ 2) else boson (m2 / T ^ 2)) * T ^ 3.

(** KfactorsinterpolatedGSL.cpp 392-442: quotient of interpolated integral and
    normalisation; [K sw s m2 T] is the bicubic spline of the table.  Other
    numbers have no such function. *)
Definition normalized (fermion boson : R -> R) (K : Z -> Z -> R -> R -> R) (sw s : Z) (m2 T : R) : R :=
  match sw with
  | 1%Z => K 1%Z s m2 T / CalculateNorm1 T
  | 2%Z => K 2%Z s m2 T / CalculateNorm1 T
  | 4%Z => K 4%Z s m2 T / CalculateNorm1 T
  | 5%Z => K 5%Z s m2 T / CalculateNorm2 fermion boson m2 T s
  | 6%Z => K 6%Z s m2 T / CalculateNorm2 fermion boson m2 T s
  | 8%Z => K 8%Z s m2 T / CalculateNorm2 fermion boson m2 T s
  | 9%Z => K 9%Z s m2 T / CalculateNorm1 T
  | _ => 0
  end.

(** std::vector::at for writing *)
Definition set_at (v : list R) (k : nat) (x : R) : outcome (list R) :=
  if (k <? length v)%nat then Ok (firstn k v ++ x :: skipn (S k) v) else Throw OutOfRange.

(** KfactorsinterpolatedGSL.cpp 65-73 (and the nine further copies): the array
    handed to GSL, which expects the value for (x_i, y_j) at [j * M + i] *)
Fixpoint fill (M : nat) (table : nat -> nat -> R) (ijs : list (nat * nat)) (v : list R) : outcome (list R) :=
  match ijs with
  | [] => Ok v
  | (i, j) :: rest => bind (set_at v (j * M + i) (table i j)) (fill M table rest)
  end.
Definition grid_array (M N : nat) (table : nat -> nat -> R) : outcome (list R) :=
  fill M table (list_prod (seq 0 M) (seq 0 N)) (repeat 0 (M * N)).
