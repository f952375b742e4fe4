(** Flat directions of the potential: src/minimum_tracer/minimum_tracer.cpp 776-963, 1095-1127, 1428-1438.  Doubles are real
    numbers, arithmetic is exact. *)
From Coq Require Import Reals List Arith Bool.
Import ListNotations.
Open Scope R_scope.

(** a point with nVEV components *)
Definition point := nat -> R.
Definition put (p : point) (i : nat) (x : R) : point := fun k => if Nat.eqb k i then x else p k.

(** almost_the_same, 1428-1438, with the precision 1e-8 of all calls here and num_zero = 1e-10 (minimum_tracer.h 586-590) *)
Definition same (a b : R) : bool :=
  if andb (if Rlt_dec (Rabs a) (/ 10 ^ 10) then true else false) (if Rlt_dec (Rabs b) (/ 10 ^ 10) then true else false) then true
  else if Rlt_dec (Rabs (a - b)) (Rabs (a + b) / 2 * / 10 ^ 8) then true else false.

(** std::unique followed by erase, 938-943: drops repetitions of the preceding element *)
Fixpoint unique {A : Type} (eqb : A -> A -> bool) (xs : list A) : list A :=
  match xs with
  | [] => []
  | x :: xs => match xs with [] => [x] | y :: _ => if eqb x y then unique eqb xs else x :: unique eqb xs end
  end.

Section Flat.
  (** [V] is the tree-level potential as a function of the vacuum expectation values: VEff(MinimizeOrderVEV(point), 0, 0, 0) *)
  Variables (n : nat) (V : point -> R).
  Definition ones : point := fun _ => 1.
  Definition at1 (i : nat) (x : R) := V (put ones i x).
  Definition at2 (i j : nat) (x y : R) := V (put (put ones i x) j y).
  (** for j = k the last assignment wins *)
  Definition at3 (i j k : nat) (x y z : R) := V (put (put (put ones i x) j y) k z).
  (** 791-850 *)
  Definition test3 (i j k : nat) : bool :=
    same (at3 i j k 2 100 200) (at3 i j k 2 200 100) && same (at3 i j k 100 2 200) (at3 i j k 2 200 100) &&
    same (at3 i j k 100 2 200) (at3 i j k 100 200 2) && same (at3 i j k 200 2 100) (at3 i j k 100 200 2) &&
    same (at3 i j k 200 2 100) (at3 i j k 200 100 2).
  (** 852-877 *)
  Definition test2 (i j : nat) : bool := same (at2 i j 2 100) (at2 i j 100 2).
  (** 879-896 *)
  Definition test1 (i : nat) : bool := same (at1 i 2) (at1 i 100).
  (** flat_3D_dirs, flat_2D_dirs and flat_1D_dirs; k starts at j (795) *)
  Definition flat_3D : list (nat * nat * nat) :=
    unique (fun a b => Nat.eqb (fst (fst a)) (fst (fst b)) && Nat.eqb (snd (fst a)) (snd (fst b)) && Nat.eqb (snd a) (snd b))
      (flat_map (fun i => flat_map (fun j => map (fun k => (i, j, k)) (filter (test3 i j) (seq j (n - j)))) (seq (S i) (n - S i))) (seq 0 n)).
  Definition flat_2D : list (nat * nat) :=
    unique (fun a b => Nat.eqb (fst a) (fst b) && Nat.eqb (snd a) (snd b))
      (flat_map (fun i => map (fun j => (i, j)) (filter (test2 i) (seq (S i) (n - S i)))) (seq 0 n)).
  Definition flat_1D : list nat := unique Nat.eqb (filter test1 (seq 0 n)).
  Definition flat_dirs_found : bool :=
    match flat_3D, flat_2D, flat_1D with [], [], [] => false | _, _, _ => true end.
  (** ConvertToNonFlatDirections, 948-963; NonFlatDirections is only printed and left out *)
  Definition turn (p : point) (d : nat * nat) : point :=
    let '(i, j) := d in put (put p i (sqrt (p i * p i + p j * p j))) j 0.
  Definition convert (p : point) : point := if flat_dirs_found then fold_left turn flat_2D p else p.
End Flat.
