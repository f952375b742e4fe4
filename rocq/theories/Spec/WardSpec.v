(** Electroweak symmetry acting on field vectors, functions invariant under it, and what a vacuum is. *)
From Coq Require Import Reals ZArith List.
From Coquelicot Require Import Complex.
From Verif.Spec Require Import NumDerivSpec PotentialSpec ScalarSpec.
Import ListNotations.
Open Scope R_scope.

(** positions of real and imaginary part of the upper and of the lower component of a doublet in the field vector *)
Definition slot : Type := (nat * nat * nat * nat)%type.
Definition doublet_at (q : slot) (v : list R) : doublet :=
  let '(a, b, c, d) := q in mkdoublet (nth a v 0) (nth b v 0) (nth c v 0) (nth d v 0).
Definition slot_members (q : slot) : list nat := let '(a, b, c, d) := q in [a; b; c; d].

(** [w] arises from [v] by the transformation [U] of all doublets; singlets do not change *)
Definition transformed (n : nat) (ds : list slot) (U : matrix22) (v w : list R) : Prop :=
  length v = n /\ length w = n /\
  (forall q, In q ds -> doublet_at q w = apply22 U (doublet_at q v)) /\
  (forall i, (i < n)%nat -> ~ In i (flat_map slot_members ds) -> nth i w 0 = nth i v 0).
Definition gauge_invariant {A} (n : nat) (ds : list slot) (f : list R -> A) : Prop :=
  forall U v w, unitary U -> transformed n ds U v w -> f w = f v.

(** change of sign of the listed components *)
Definition flipped (neg : list nat) (v : nat -> R) (i : nat) : R := if existsb (Nat.eqb i) neg then - v i else v i.
Definition vec (n : nat) (x : nat -> R) : list R := map x (seq 0 n).
Definition even_under {A} (n : nat) (neg : list nat) (f : list R -> A) : Prop :=
  forall x, f (vec n (flipped neg x)) = f (vec n x).

(** second order Taylor expansion of a function of n variables *)
Definition taylor2 (n : nat) (f : list R -> R) (v : nat -> R) (N : nat -> R) (H : nat -> nat -> R) : Prop :=
  (forall i j, (i < n)%nat -> (j < n)%nat -> H i j = H j i) /\
  forall eps, 0 < eps -> exists delta, 0 < delta /\ forall h : nat -> R, (forall i, (i < n)%nat -> Rabs (h i) <= delta) ->
    Rabs (f (vec n (fun i => v i + h i)) - f (vec n v) - sumR n (fun i => N i * h i)
          - / 2 * sumR n (fun i => sumR n (fun j => H i j * (h i * h j))))
    <= eps * sumR n (fun i => h i * h i).

(** slots of the models *)
Definition slots_SM : list slot := [(0, 1, 2, 3)]%nat.
Definition slots_CxSM : list slot := [(0, 1, 3, 2)]%nat.
Definition slots_2HDM : list slot := [(0, 1, 4, 5); (2, 3, 6, 7)]%nat.
Definition slots_N2HDM : list slot := [(0, 2, 6, 4); (1, 3, 7, 5)]%nat.

(** infinitesimal transformations: the matrices i, i sigma_3, i sigma_1, i sigma_2 on a doublet as (row, column, entry), and
    the electric charge, which acts on the upper component only *)
Inductive generator := Hypercharge | Isospin3 | Isospin1 | Isospin2 | Charge.
Definition entries (g : generator) (q : slot) : list (nat * nat * R) :=
  let '(a, b, c, d) := q in
  match g with
  | Hypercharge => [(a, b, -1); (b, a, 1); (c, d, -1); (d, c, 1)]
  | Isospin3 => [(a, b, -1); (b, a, 1); (c, d, 1); (d, c, -1)]
  | Isospin1 => [(a, d, -1); (b, c, 1); (c, b, -1); (d, a, 1)]
  | Isospin2 => [(a, c, 1); (b, d, 1); (c, a, -1); (d, b, -1)]
  | Charge => [(a, b, -1); (b, a, 1)]
  end.
Definition rotated (g : generator) (ds : list slot) (x : nat -> R) (i : nat) : R :=
  fold_right (fun e acc => let '(r, c, t) := e in if Nat.eqb r i then t * x c + acc else acc) 0 (flat_map (entries g) ds).

(** all first derivatives vanish *)
Definition stationary {E} (ok : R -> E) (n : nat) (f : list R -> Z -> E) (w : list R) : Prop :=
  forall i, (i < n)%nat -> f w (Z.of_nat (S i)) = ok 0.
(** the mass matrix annihilates the directions of the gauge group *)
Definition goldstones_massless (n : nat) (ds : list slot) (M : nat -> nat -> R) (w : list R) : Prop :=
  forall g i, (i < n)%nat -> sumR n (fun j => M i j * rotated g ds (fun k => nth k w 0) j) = 0.
Definition norm_squared (idx : list nat) (w : list R) : R := fold_right (fun i a => nth i w 0 * nth i w 0 + a) 0 idx.
(** [w] is a stationary point of [f] with the given length of its doublet components, and the Hessian [h w] has the
    would-be Goldstone bosons *)
Definition proper_vacuum {E M} (ok : R -> E) (okm : (nat -> nat -> R) -> M) (n : nat) (ds : list slot) (f : list R -> Z -> E) (h : list R -> M)
    (w : list R) (x : R) : Prop :=
  stationary ok n f w /\ norm_squared (flat_map slot_members ds) w = x /\ exists m, h w = okm m /\ goldstones_massless n ds m w.
