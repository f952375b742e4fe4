(** Explicit Runge-Kutta methods and their order (Butcher). *)
From Coq Require Import Reals List QArith Qreals.
Import ListNotations.
Open Scope R_scope.

(** coefficients: row i has the weights of the earlier slopes in stage i *)
Record tableau := mkTableau { rows : list (list Q); weights : list Q }.
Definition pair_add (a b : R * R) : R * R := (fst a + fst b, snd a + snd b).
Definition pair_mul (k : R) (a : R * R) : R * R := (k * fst a, k * snd a).
Fixpoint combine (w : list Q) (ks : list (R * R)) : R * R :=
  match w, ks with x :: w, k :: ks => pair_add (pair_mul (Q2R x) k) (combine w ks) | _, _ => (0, 0) end.
Definition qsum (l : list Q) : Q := fold_right Qplus 0%Q l.
Fixpoint stages (rs : list (list Q)) (F : R -> R * R -> R * R) (y : R * R) (t h : R) (ks : list (R * R)) : list (R * R) :=
  match rs with
  | [] => ks
  | r :: rs => stages rs F y t h (ks ++ [F (t + Q2R (qsum r) * h) (pair_add y (pair_mul h (combine r ks)))])
  end.
Definition rk_step (T : tableau) (F : R -> R * R -> R * R) (y : R * R) (t h : R) : R * R :=
  pair_add y (pair_mul h (combine (weights T) (stages (rows T) F y t h []))).

(** rooted trees: a single vertex, or a tree u whose root is attached to the root of t *)
Inductive tree := Vertex | Graft (t u : tree).
Fixpoint vertices (t : tree) : nat := match t with Vertex => 1 | Graft t u => vertices t + vertices u end.
Definition qn (n : nat) : Q := inject_Z (Z.of_nat n).
(** the density: the product of the sizes of the subtrees of all vertices *)
Fixpoint density (t : tree) : Q :=
  match t with Vertex => 1%Q | Graft t u => (density t * density u * (qn (vertices t + vertices u) / qn (vertices t)))%Q end.
Definition qdot (a b : list Q) : Q := qsum (map (fun p => fst p * snd p)%Q (List.combine a b)).
(** the elementary weights of the stages *)
Fixpoint phi (T : tableau) (t : tree) : list Q :=
  match t with
  | Vertex => map (fun _ => 1%Q) (rows T)
  | Graft t u => map (fun p => (fst p * qdot (snd p) (phi T u))%Q) (List.combine (phi T t) (rows T))
  end.
(** the method has order p: the conditions of all trees with at most p vertices *)
Definition has_order (p : nat) (T : tableau) : Prop :=
  forall t, (vertices t <= p)%nat -> (qdot (weights T) (phi T t) * density t == 1)%Q.
(** a matrix applied to a vector *)
Definition lin (a b c d : R) (y : R * R) : R * R := (a * fst y + b * snd y, c * fst y + d * snd y).
