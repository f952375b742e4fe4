(** Orthonormal bases of eigenvectors that depend differentiably on a parameter, and the points at which the
    derivatives of the one-loop potential are compared. *)
From Coq Require Import Reals List.
From Coquelicot Require Import Coquelicot.
From Verif Require Import Model.EigenDeriv Model.Weinberg Spec.EigenSpec.
Open Scope R_scope.

(** vectors [X p] (component [a]: [X p a]) that form an orthonormal basis *)
Definition orthobasis (n : nat) (X : nat -> nat -> C) : Prop :=
  (forall p q, (p < n)%nat -> (q < n)%nat -> totalC n (fun a => Cmult (Cconj (X p a)) (X q a)) = delta p q) /\
  (forall a b, (a < n)%nat -> (b < n)%nat -> totalC n (fun p => Cmult (X p a) (Cconj (X p b))) = delta a b).
(** ... of eigenvectors *)
Definition eigenframe (n : nat) (M : nat -> nat -> C) (lam : nat -> R) (X : nat -> nat -> C) : Prop :=
  (forall a p, (a < n)%nat -> (p < n)%nat -> totalC n (fun b => Cmult (M a b) (X p b)) = Cmult (RtoC (lam p)) (X p a)) /\
  orthobasis n X.
(** ... differentiable at [t] *)
Definition smooth_frame (n : nat) (M : R -> nat -> nat -> C) (lam : nat -> R -> R) (X : nat -> R -> nat -> C)
    (t : R) (lam' : nat -> R) (X' : nat -> nat -> C) : Prop :=
  (forall p, (p < n)%nat -> branch n M (lam p) (X p) t (lam' p) (X' p)) /\
  (forall s, orthobasis n (fun p => X p s)).
Definition smoothly_diagonalisable (n : nat) (M : R -> nat -> nat -> C) (t : R) : Prop :=
  exists lam X lam' X', smooth_frame n M lam X t lam' X'.

(** squared masses are 0 or larger than 1e-4, and two of them are equal or differ by more than 1e-5 *)
Definition masses_ok (n : nat) (M : nat -> nat -> C) : Prop :=
  forall lam X, eigenframe n M lam X ->
    (forall p, (p < n)%nat -> lam p = 0 \/ 1 / 10000 < lam p) /\
    (forall p q, (p < n)%nat -> (q < n)%nat -> lam p = lam q \/ 1 / 100000 < Rabs (lam p - lam q)).
Definition never_negative (n : nat) (M : nat -> nat -> C) : Prop :=
  forall lam X, eigenframe n M lam X -> forall p, (p < n)%nat -> 0 <= lam p.

(** the tensors are symmetric in fields of the same kind *)
Definition symmetric_curvature (K : curvature) : Prop :=
  (forall a b, L2 K a b = L2 K b a) /\ (forall a b c, L3 K a b c = L3 K b a c) /\
  (forall a b c d, L4 K a b c d = L4 K b a c d) /\ (forall a b c d, L4 K a b c d = L4 K a b d c) /\
  (forall a b c d, G2H2 K a b c d = G2H2 K b a c d) /\ (forall a b c d, G2H2 K a b c d = G2H2 K a b d c) /\
  (forall a b, QF2 K a b = QF2 K b a) /\ (forall a b c, QF2H1 K a b c = QF2H1 K b a c) /\
  (forall a b, LF2 K a b = LF2 K b a) /\ (forall a b c, LF2H1 K a b c = LF2H1 K b a c).

(** the solvers of Eigen diagonalise the mass matrices *)
Definition solves (rsolver : nat -> (nat -> nat -> R) -> list R * (nat -> nat -> R)) (csolver : nat -> cmat -> list R * cmat)
    (K : curvature) : Prop :=
  forall u,
    (let d := rsolver (NHiggs K) (MassHiggs K u) in diagonalises (NHiggs K) (cast (MassHiggs K u)) (fst d, cast (snd d))) /\
    (let d := rsolver (NGauge K) (MassGauge K u) in diagonalises (NGauge K) (cast (MassGauge K u)) (fst d, cast (snd d))) /\
    diagonalises (NHiggs K) (cast (MassHiggs K u)) (csolver (NHiggs K) (cast (MassHiggs K u))) /\
    diagonalises (NGauge K) (cast (MassGauge K u)) (csolver (NGauge K) (cast (MassGauge K u))) /\
    diagonalises (NQuarks K) (MassQuark K u) (csolver (NQuarks K) (MassQuark K u)) /\
    diagonalises (NLepton K) (MassLepton K u) (csolver (NLepton K) (MassLepton K u)).

(** all mass matrices have differentiable eigenvectors when field [k] moves through its value in [v] *)
Definition smooth_along (K : curvature) (v : nat -> R) (k : nat) : Prop :=
  smoothly_diagonalisable (NHiggs K) (fun t => cast (MassHiggs K (entry_set v k t))) (v k) /\
  smoothly_diagonalisable (NGauge K) (fun t => cast (MassGauge K (entry_set v k t))) (v k) /\
  smoothly_diagonalisable (NQuarks K) (fun t => MassQuark K (entry_set v k t)) (v k) /\
  smoothly_diagonalisable (NLepton K) (fun t => MassLepton K (entry_set v k t)) (v k).

Definition good_masses (K : curvature) (v : nat -> R) : Prop :=
  masses_ok (NHiggs K) (cast (MassHiggs K v)) /\ masses_ok (NGauge K) (cast (MassGauge K v)) /\
  masses_ok (NQuarks K) (MassQuark K v) /\ masses_ok (NLepton K) (MassLepton K v).

(** the eigenvectors of the fermions are real *)
Definition real_fermions (csolver : nat -> cmat -> list R * cmat) (K : curvature) (v : nat -> R) : Prop :=
  (forall a p, (a < NQuarks K)%nat -> (p < NQuarks K)%nat -> Im (snd (csolver (NQuarks K) (MassQuark K v)) a p) = 0) /\
  (forall a p, (a < NLepton K)%nat -> (p < NLepton K)%nat -> Im (snd (csolver (NLepton K) (MassLepton K v)) a p) = 0).

(** no entry of the rotation of the Higgs fields is so small that it is dropped *)
Definition plain_rotation (rsolver : nat -> (nat -> nat -> R) -> list R * (nat -> nat -> R)) (K : curvature) (v : nat -> R) : Prop :=
  forall a p, (a < NHiggs K)%nat -> (p < NHiggs K)%nat ->
    let x := snd (rsolver (NHiggs K) (MassHiggs K v)) a p in x = 0 \/ / 10 ^ 10 <= Rabs x.

(** [r] is [x], or 0 if [x] is below 1e-10 *)
Definition cut_at_zero (x r : R) : Prop := (Rabs x < / 10 ^ 10 /\ r = 0) \/ (/ 10 ^ 10 <= Rabs x /\ r = x).
