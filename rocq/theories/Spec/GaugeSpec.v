(** Masses of the gauge bosons from the covariant derivative of the doublets, and what a unitary mixing matrix is. *)
From Coq Require Import Reals List.
From Coquelicot Require Import Complex.
From Verif.Spec Require Import ScalarSpec WardSpec.
Import ListNotations.
Open Scope R_scope.

(** W1, W2, W3, B act on a doublet by g sigma_a / 2 and g' / 2 *)
Inductive boson := W1 | W2 | W3 | B.
Definition bosons : list boson := [W1; W2; W3; B].
Definition action (g gp : R) (b : boson) : matrix22 :=
  let h : C := RtoC (g / 2) in let hp : C := RtoC (gp / 2) in let z : C := RtoC 0 in
  match b with
  | W1 => ((z, h), (h, z))
  | W2 => ((z, - (Ci * h)), (Ci * h, z))%C
  | W3 => ((h, z), (z, - h))%C
  | B => ((hp, z), (z, hp))
  end.
(** the order in which the library numbers them *)
Definition index (b : boson) : nat := match b with W1 => 0 | W2 => 1 | W3 => 2 | B => 3 end.
(** the sum over doublets of |D Phi|^2 is 1/2 sum_ab M_ab A_a A_b with the following M *)
Definition kinetic_mass (g gp : R) (ds : list slot) (v : list R) (a b : boson) : R :=
  fold_right (fun q acc => 2 * Re (inner (apply22 (action g gp a) (doublet_at q v)) (apply22 (action g gp b) (doublet_at q v))) + acc) 0 ds.

(** [x] is an eigenvector of the 4x4 matrix [M] with eigenvalue [m] *)
Definition eigenvector (M : nat -> nat -> R) (x : list R) (m : R) : Prop :=
  length x = 4%nat /\ (exists i, nth i x 0 <> 0) /\
  forall i, (i < 4)%nat -> M i 0%nat * nth 0 x 0 + M i 1%nat * nth 1 x 0 + M i 2%nat * nth 2 x 0 + M i 3%nat * nth 3 x 0 = m * nth i x 0.
(** the physical bosons: the charged ones, the Z boson and the photon *)
Definition physical_bosons (M : nat -> nat -> R) (g gp mW2 mZ2 : R) : Prop :=
  eigenvector M [1; 0; 0; 0] mW2 /\ eigenvector M [0; 1; 0; 0] mW2 /\ eigenvector M [0; 0; g; - gp] mZ2 /\ eigenvector M [0; 0; gp; g] 0.

(** a complex matrix with three rows *)
Definition matrix33 : Type := nat -> nat -> C.
Definition csum3 (f : nat -> C) : C := (f 0%nat + f 1%nat + f 2%nat)%C.
Definition delta (i j : nat) : C := if Nat.eqb i j then RtoC 1 else RtoC 0.
Definition unitary33 (V : matrix33) : Prop :=
  (forall j k, (j < 3)%nat -> (k < 3)%nat -> csum3 (fun i => V i j * Cconj (V i k))%C = delta j k) /\
  (forall i l, (i < 3)%nat -> (l < 3)%nat -> csum3 (fun j => V i j * Cconj (V l j))%C = delta i l).
