(** What is expected of the table of the potential. *)
From Coq Require Import Reals List ZArith Ascii.
Import ListNotations.
Local Open Scope R_scope.

(** the values of one coordinate: n steps of one size from [lo] to [hi], or the value of the reference point *)
Definition values (lo hi ref : R) (n : nat) : list R :=
  match n with 0%nat => [ref] | _ => map (fun j => lo + INR j / INR n * (hi - lo)) (seq 0 (S n)) end.
(** all the combinations of one value of each coordinate, the last coordinate running fastest *)
Fixpoint combinations (axes : list (list R)) : list (list R) :=
  match axes with [] => [[]] | a :: rest => flat_map (fun x => map (cons x) (combinations rest)) a end.

(** a decimal digit and the number written by digits, most significant first *)
Definition is_digit (c : ascii) : Prop := (48 <= nat_of_ascii c <= 57)%nat.
Definition number (s : list ascii) : Z := fold_left (fun a c => (10 * a + (Z.of_nat (nat_of_ascii c) - 48))%Z) s 0%Z.
(** the number written with a decimal point *)
Definition decimal (s frac : list ascii) : R := IZR (number s) + IZR (number frac) / 10 ^ length frac.
