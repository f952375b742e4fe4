(** Specification for the potential: tensors, quartic polynomials, partial derivatives, placement of vevs. *)
From Coq Require Import Reals QArith Qabs List Permutation Sorted.
From Verif.Spec Require Import NumDerivSpec.
Import ListNotations.
Open Scope R_scope.

Definition below (n : nat) (idx : list nat) : Prop := Forall (fun i => (i < n)%nat) idx.
(** entries of rank r do not change when their indices are permuted *)
Definition symmetric_tensor {A} (n r : nat) (T : list nat -> A) : Prop :=
  forall i j, length i = r -> below n i -> Permutation i j -> T i = T j.
(** entries with non-decreasing indices *)
Definition canonical (idx : list nat) : Prop := Sorted le idx.

Definition sym2 (n : nat) (L2 : nat -> nat -> R) : Prop := forall i j, (i < n)%nat -> (j < n)%nat -> L2 i j = L2 j i.
Definition sym3 (n : nat) (L3 : nat -> nat -> nat -> R) : Prop :=
  forall i j k, (i < n)%nat -> (j < n)%nat -> (k < n)%nat -> L3 i j k = L3 j i k /\ L3 i j k = L3 i k j.
Definition sym4 (n : nat) (L4 : nat -> nat -> nat -> nat -> R) : Prop :=
  forall i j k l, (i < n)%nat -> (j < n)%nat -> (k < n)%nat -> (l < n)%nat ->
    L4 i j k l = L4 j i k l /\ L4 i j k l = L4 i k j l /\ L4 i j k l = L4 i j l k.

(** the polynomial with the given couplings *)
Definition quartic (n : nat) (L1 : nat -> R) (L2 : nat -> nat -> R) (L3 : nat -> nat -> nat -> R)
    (L4 : nat -> nat -> nat -> nat -> R) (v : nat -> R) : R :=
  sumR n (fun i => L1 i * v i)
  + / 2 * sumR n (fun i => sumR n (fun j => L2 i j * (v i * v j)))
  + / 6 * sumR n (fun i => sumR n (fun j => sumR n (fun k => L3 i j k * (v i * v j * v k))))
  + / 24 * sumR n (fun i => sumR n (fun j => sumR n (fun k => sumR n (fun l => L4 i j k l * (v i * v j * v k * v l))))).

(** replace one component of a field configuration *)
Definition moved (v : list R) (i : nat) (t : R) : list R := firstn i v ++ t :: skipn (S i) v.
(** [d] is the partial derivative of [f] with respect to component i at v; f must be defined near v *)
Definition partial_derivative {E} (ok : R -> E) (f : list R -> E) (v : list R) (i : nat) (d : R) : Prop :=
  exists g, (forall t, f (moved v i t) = ok (g t)) /\ derivable_pt_lim g (nth i v 0) d.

(** coordinate k sits at position order[k] of [w], everything else is zero *)
Definition placed {A} (zero : A) (n : nat) (order : list nat) (v w : list A) : Prop :=
  length w = n /\
  (forall k o, nth_error order k = Some o -> nth_error w o = nth_error v k) /\
  (forall i, (i < n)%nat -> ~ In i order -> nth_error w i = Some zero).

(** every component's modulus is within 1 of the tree-level one *)
Definition close_to_tree (n : nat) (t v : list (option Q)) : Prop :=
  forall i, (i < n)%nat -> exists x y, nth_error v i = Some (Some x) /\ nth_error t i = Some (Some y) /\
    (Qabs (Qabs x - Qabs y) < 1)%Q.

(** coordinates of fields coupled to gauge bosons are set to zero, the others kept *)
Definition ew_zeroed (charged : nat -> bool) (order : list nat) (sol sol' : list R) : Prop :=
  length sol' = length sol /\
  forall k o, nth_error order k = Some o -> nth_error sol' k = if charged o then Some 0 else nth_error sol k.
(** no coordinate of an uncoupled field precedes one of a coupled field *)
Definition coupled_first (charged : nat -> bool) (order : list nat) : Prop :=
  forall k l a b, (k < l)%nat -> nth_error order k = Some a -> nth_error order l = Some b -> charged b = true -> charged a = true.
