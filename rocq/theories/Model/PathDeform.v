(** Deformation of the tunnelling path: src/bounce_solution/action_calculation.cpp 124-151, 1003-1010, 1011-1090, 1092-1456,
    class BounceActionInt.  Doubles are real numbers, arithmetic is exact. *)
From Coq Require Import Reals List ZArith Bool.
From Verif Require Import Model.Action.
Import ListNotations.
Open Scope R_scope.

(** std::vector<double> of size dim: only the components below [dim] are used *)
Definition vec := nat -> R.
(** operator* of two vectors (utility.h), L2NormVector (utility.cpp) *)
Fixpoint dot (dim : nat) (a b : vec) : R := match dim with O => 0 | S d => dot d a b + a d * b d end.
Definition norm (dim : nat) (a : vec) : R := sqrt (dot dim a a).

(** NormalForce, 124-138, and NormalForceBernstein, 140-151: the same expression, with the tangent and curvature of the
    spline or of the smoothed path *)
Definition NormalForce (dim : nat) (tangent curvature : vec) (dldrho : R) (gradient : vec) : vec :=
  fun i => dldrho ^ 2 * curvature i - (gradient i - dot dim gradient tangent * tangent i).

(** the entry K(i, j) of 1366-1376; [len] is l.back() - l.front() *)
Definition K_entry (deg i j : nat) (len : R) : R :=
  len * IZR (nChoosek (Z.of_nat deg) (Z.of_nat i)) * IZR (nChoosek (Z.of_nat deg) (Z.of_nat j)) /
  (IZR (nChoosek (2 * Z.of_nat deg) (Z.of_nat i + Z.of_nat j)) * (2 * INR deg + 1)).

(** * PathDeformationCheck *)
(** a quotient of norms *)
Inductive quotient := Num (r : R) | Infinite | NotANumber.
Definition divide (f g : R) : quotient := if Req_EM_T g 0 then if Req_EM_T f 0 then NotANumber else Infinite else Num (f / g).
(** std::max(a, b) is b if a < b, else a *)
Definition qmax (a b : quotient) : quotient :=
  match a, b with
  | Num x, Num y => if Rlt_dec x y then b else a
  | Num _, Infinite => Infinite
  | _, _ => a
  end.
(** the positions of 1036 *)
Fixpoint positions (fuel : nat) (np last delta : R) : list R :=
  match fuel with
  | O => []
  | S n => if Rle_dec np (last - delta / 10) then np :: positions n (np + delta) last delta else []
  end.
(** NumberPathKnots, action_calculation.h 238 *)
Definition knots : nat := 50.
(** 1011-1090, the value that is returned; [force] and [gradient] are the norms at a position *)
Definition PathDeformationCheck (force gradient : R -> R) (first last : R) : bool :=
  let delta := (last - first) / (10 * INR knots) in
  let e := fold_left (fun e np => qmax e (divide (force np) (gradient np))) (positions (10 * knots) (first + delta) last delta) (Num 0) in
  match e with Num r => if Rlt_dec r (5 / 100) then true else false | _ => false end.

(** * PathDeformation *)
(** a path: displacement from the false vacuum by knot and component *)
Definition path := nat -> vec.
(** the loops over it_path with std::max, 1240-1256, starting from 0 *)
Fixpoint largest (n : nat) (f : nat -> R) : R := match n with O => 0 | S n => Rmax (largest n f) (f n) end.
(** best_path, next_path, MaximumGradient, MaximumRelativeError, stepsize and forces *)
Record deformation := mkDeformation {
  d_best : path; d_next : path; d_gradient : R; d_error : R; d_step : R; d_forces : option path }.

Section Deform.
  Variables (dim : nat) (L : R).
  (** the projection on Bernstein polynomials, 1132-1180, force and gradient on the smoothed path, 1224-1230 *)
  Variables (smooth : path -> path) (force gradient : path -> path).
  (** 1268-1275: number of knots at which the force turned around *)
  Fixpoint turned (n : nat) (a b : path) : nat :=
    match n with O => 0%nat | S n => ((if Rlt_dec (dot dim (a n) (b n)) 0 then 1 else 0) + turned n a b)%nat end.
  (** SinglePathDeformation, 1092-1318, with the reductor of 1403 and 1003-1010; a reductor of zero is left out *)
  Definition SinglePathDeformation (s : deformation) : deformation :=
    let reductor := d_gradient s / L / d_step s in
    let p := smooth (d_next s) in
    let f := force p in
    let next := fun k => if Nat.ltb k knots then (fun i => p k i + f k i / reductor) else d_next s k in
    let g' := largest knots (fun k => norm dim (gradient p k)) in
    let e' := largest knots (fun k => norm dim (f k)) / g' in
    (* a quotient of zero by zero or by zero is not smaller *)
    let better := if Req_EM_T g' 0 then false else if Rlt_dec e' (d_error s) then true else false in
    let best := if better then next else d_best s in
    let g := if better then g' else d_gradient s in
    let e := if better then e' else d_error s in
    match d_forces s with
    | None => mkDeformation best next g e (d_step s) (Some f)
    | Some old =>
        let reversed := if Rlt_dec (INR knots * (15 / 100)) (INR (turned knots f old)) then true else false in
        let step := if reversed then d_step s / 5 else d_step s * (15 / 10) in
        mkDeformation best (if reversed then best else next) g e (Rmax (Rmin step (1 / 10)) (/ 10 ^ 4)) (Some f)
    end.
  (** the loop of 1400-1437; [n] rounds are left, [idle] is NoBestPathCounter; the flag is
      PathDeformationConvergedWithout1D *)
  Fixpoint rounds (n idle : nat) (s : deformation) : deformation * bool :=
    match n with
    | O => (s, false)
    | S n =>
        let s' := SinglePathDeformation s in
        let idle := if Req_EM_T (d_error s') (d_error s) then S idle else O in
        if Rlt_dec (d_error s') (5 / 100) then (s', true)
        else if Rlt_dec 5 (d_error s') then (s', false)
        else if Nat.ltb 20 idle then (s', false)
        else rounds n idle s'
    end.
  (** PathDeformation, 1320-1456: the argument of SetPath and whether the path is taken as converged; [start] is the path of
      1380-1398, whose last knot is the false vacuum, [g0] the gradient found there *)
  Definition PathDeformation (start : path) (false_vacuum : vec) (g0 : R) : path * bool :=
    let start := fun k => if Nat.ltb k knots then start k else fun _ => 0 in
    let '(s, c) := rounds (Pos.to_nat 200) 0 (mkDeformation start start g0 (10 ^ 100) (2 / 10 ^ 5) None) in
    (fun k i => false_vacuum i + d_best s k i, c).
End Deform.
