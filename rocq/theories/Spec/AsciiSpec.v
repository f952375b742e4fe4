(** Specification of text plots (C55). *)
From Coq Require Import QArith List Ascii.
From Verif.Model Require Import Ascii.
Import ListNotations.
Local Open Scope Q_scope.

(** abscissas from left to right *)
Inductive rising : list Q -> Prop :=
| rising_one x : rising [x]
| rising_cons x y l : x < y -> rising (y :: l) -> rising (x :: y :: l).
(** a curve with at least two points, from left to right, one value per abscissa *)
Definition plottable (c : curve) : Prop := (2 <= length (cx c))%nat /\ length (cy c) = length (cx c) /\ rising (cx c).
Definition is_abscissa (cs : list curve) (x : Q) : Prop := exists c, In c cs /\ In x (cx c).
Definition is_value (cs : list curve) (y : Q) : Prop := exists c, In c cs /\ In y (cy c).
(** the curves do not all consist of the same single value *)
Definition not_flat (cs : list curve) : Prop := exists y z, is_value cs y /\ is_value cs z /\ y < z.
(** a range covers a set of numbers *)
Definition covers (r : Q * Q) (S : Q -> Prop) : Prop := forall v, S v -> fst r <= v /\ v <= snd r.
(** a plane of w columns of h cells *)
Definition sized (w h : nat) (p : plane) : Prop := length p = w /\ Forall (fun col => length col = h) p.
(** every cell is blank or one of the markers *)
Definition only (ms : list ascii) (p : plane) : Prop := Forall (Forall (fun a => a = " "%char \/ In a ms)) p.
(** marker m occurs in column k *)
Definition drawn (m : ascii) (k : nat) (p : plane) : Prop := exists col, nth_error p k = Some col /\ In m col.
