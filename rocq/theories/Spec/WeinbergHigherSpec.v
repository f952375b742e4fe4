(** What third and fourth derivatives of the one-loop potential are, along a line in field space. *)
From Coq Require Import Reals List.
From Coquelicot Require Import Coquelicot.
From Verif Require Import Model.EigenDeriv Model.Weinberg.
Import ListNotations.
Open Scope R_scope.

(** the columns of the rotation of the Higgs fields are orthonormal *)
Definition orthonormal (N : nat) (O : nat -> nat -> R) : Prop :=
  forall l m, (l < N)%nat -> (m < N)%nat -> rsum N (fun i => O i l * O i m) = if Nat.eqb l m then 1 else 0.

(** along the direction u the matrix of squared masses of the sector is M + t D + t^2 E / 2 with
    D = sum_i u_i lambda3_i and E = sum_ij u_i u_j lambda4_ij; the rotation to mass eigenstates makes D and E diagonal, with
    real entries d and e *)
Definition slope (N : nat) (u : nat -> R) (s : sector) (a b : nat) : C := csum N (fun i => Cmult (RtoC (u i)) (lambda3 s a b i)).
Definition curve (N : nat) (u : nat -> R) (s : sector) (a b : nat) : C :=
  csum N (fun i => csum N (fun j => Cmult (RtoC (u i * u j)) (lambda4 s a b i j))).
Definition diagonal (s : sector) (D : nat -> nat -> C) (d : nat -> R) : Prop :=
  forall a b, (a < size s)%nat -> (b < size s)%nat ->
    csum (size s) (fun a' => csum (size s) (fun b' => Cmult (RtoC (rot s a a' * rot s b b')) (D a' b'))) = RtoC (if Nat.eqb a b then d a else 0).
(** a state is massive, or massless along the whole line *)
Definition massive_or_decoupled (s : sector) (d e : nat -> R) : Prop :=
  forall a, (a < size s)%nat -> / 10 ^ 5 <= mass2 s a \/ (mass2 s a = 0 /\ d a = 0 /\ e a = 0).

(** squared mass of state a at the point t of the line, and the sum m^4 (log (m^2 / scale^2) - c) over all states *)
Definition mass2_at (s : sector) (d e : nat -> R) (a : nat) (t : R) : R := mass2 s a + d a * t + e a * t ^ 2 / 2.
Definition one_loop (scale : R) (sectors : list (sector * (nat -> R) * (nat -> R))) (t : R) : R :=
  / (16 * PI ^ 2) * fold_right Rplus 0 (map (fun '(s, d, e) =>
    factor s / 2 * rsum (size s) (fun a => mass2_at s d e a t ^ 2 * (ln (mass2_at s d e a t / scale ^ 2) - cwconst s))) sectors).

(** contraction of a vector of N^3 or N^4 numbers with u in every index *)
Definition contract3 (N : nat) (u : nat -> R) (r : list R) : R :=
  rsum N (fun l => rsum N (fun m => rsum N (fun n => u l * u m * u n * nth (n + N * (m + N * l)) r 0))).
Definition contract4 (N : nat) (u : nat -> R) (r : list R) : R :=
  rsum N (fun j => rsum N (fun l => rsum N (fun m => rsum N (fun n => u j * u l * u m * u n * nth (n + N * (m + N * (l + N * j))) r 0)))).
