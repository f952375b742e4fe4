(** GSL_integration_mubl::init: choice among sign-equivalent vacua and of the
    CP-violating phases.

    Simplifications: exact reals; all vectors have the length nVEV, so at()
    never throws; signed zeros are not distinguished (std::arg of a negative
    number is pi). *)
From Coq Require Import Reals List Lra.
From Coquelicot Require Import Coquelicot.
From Verif Require Import Model.Base.
Import ListNotations.
Open Scope R_scope.

(** sum of (tree_i - v_i)^2,
    src/baryo_calculation/transport_equations.cpp 179-182, 203-206, 244-247 *)
Definition distance2 (tree v : list R) : R :=
  fold_left (fun acc p => acc + (fst p - snd p) ^ 2) (combine tree v) 0.
(** transport_equations.cpp 175-177 *)
Definition norm2 (tree : list R) : R := fold_left (fun acc x => acc + x ^ 2) tree 0.
(** transport_equations.cpp 196-197, 220-221, 261-262 *)
Definition flip (s v : list R) : list R := map (fun p => fst p * snd p) (combine s v).

(** transport_equations.cpp 183-201 (and 207-225, 248-266): the first symmetry
    that brings the vacuum nearer than |tree| *)
Fixpoint first_nearer (tree : list R) (symmetries : list (list R)) (v : list R) : list R :=
  match symmetries with
  | [] => v
  | s :: rest => if Rlt_dec (distance2 tree (flip s v)) (norm2 tree) then flip s v else first_nearer tree rest v
  end.
Definition choose_signs (tree : list R) (symmetries : list (list R)) (v : list R) : list R :=
  if Rlt_dec (norm2 tree) (distance2 tree v) then first_nearer tree symmetries v else v.

(** transport_equations.cpp 234-239 *)
Definition near_symmetric (vs vc : list R) : list R := map (fun p => fst p + / 100 * (snd p - fst p)) (combine vs vc).

(** std::arg *)
Definition arg (z : C) : R :=
  let (x, y) := z in
  if Rlt_dec 0 x then atan (y / x)
  else if Rlt_dec x 0 then (if Rle_dec 0 y then atan (y / x) + PI else atan (y / x) - PI)
  else if Rlt_dec 0 y then PI / 2 else if Rlt_dec y 0 then - (PI / 2) else 0.

(** transport_equations.cpp 273-298, 314-338: argument of an eigenvalue, of the
    one before it in the list if the first is in the left half plane *)
Definition phase_of (last before : C) : R :=
  if Rlt_dec (1 / 2 * PI) (Rabs (arg last)) then arg before else arg last.
(** transport_equations.cpp 299-305, 339-345 *)
Definition cut (p : R) : R := if Rlt_dec (Rabs p) (/ 10 ^ 14) then 0 else p.

(** m.at(m.size() - k), transport_equations.cpp 274-297; the unsigned difference
    wraps around if the list is shorter, and at() then throws *)
Definition from_end (m : list C) (k : nat) : outcome C :=
  if Nat.ltb (length m) k then Throw OutOfRange
  else match nth_error m (length m - k) with Some z => Ok z | None => Throw OutOfRange end.
(** transport_equations.cpp 275-276, 281-287, 300-301 with k = 1 (top, of the
    quark eigenvalues, and tau, of the lepton eigenvalues 279-280, 293-298) and
    277-278, 288-292, 302-303 with k = 3 (bottom); the entry before is only
    read if it is needed *)
Definition phase_at (m : list C) (k : nat) : outcome R :=
  bind (from_end m k) (fun last =>
  if Rlt_dec (1 / 2 * PI) (Rabs (arg last))
  then bind (from_end m (S k)) (fun before => Ok (cut (arg before)))
  else Ok (cut (arg last))).
