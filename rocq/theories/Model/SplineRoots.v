(** Roots of splines: spline::solve and internal::solve_linear, solve_quadratic, solve_cubic, src/utility/spline/spline.cpp
    434-492 and 659-864.  Doubles are exact reals; the estimates of rounding errors are kept, since the branches depend on them. *)
From Coq Require Import Reals List Arith Bool.
From Verif Require Import Model.Spline.
Import ListNotations.
Local Open Scope R_scope.

(** get_eps, 660-664 *)
Definition get_eps : R := / 2 ^ 52.
(** solve_linear, 667-691 *)
Definition solve_linear (a b : R) : list R :=
  if Req_EM_T b 0 then if Req_EM_T a 0 then [0] else [] else [- a / b].
(** Newton steps, 727-740 and 833-843 *)
Definition newton (f f1 : R -> R) (newton_iter : nat) (x : R) : R :=
  Nat.iter newton_iter (fun x => if Rlt_dec (1 / 10 ^ 8) (Rabs (f1 x)) then x - f x / f1 x else x) x.
(** solve_quadratic, 694-743 *)
Definition solve_quadratic (a b c : R) (newton_iter : nat) : list R :=
  if Req_EM_T c 0 then solve_linear a b else
  let p := 0.5 * b / c in
  let q := a / c in
  let discr := p * p - q in
  let eps := 0.5 * get_eps in
  let discr_err := (6 * (p * p) + 3 * Rabs q + Rabs discr) * eps in
  let x := if Rle_dec (Rabs discr) discr_err then [- p]
           else if Rlt_dec discr 0 then []
           else [- p - sqrt discr; - p + sqrt discr] in
  map (newton (fun x => (c * x + b) * x + a) (fun x => 2 * c * x + b) newton_iter) x.
(** std::sort *)
Fixpoint insert_sorted (x : R) (l : list R) : list R :=
  match l with [] => [x] | y :: t => if Rle_dec x y then x :: l else y :: insert_sorted x t end.
Definition sort (l : list R) : list R := fold_right insert_sorted [] l.
(** the index of the smallest absolute value, 846-861 *)
Definition smallest (z : list R) : nat :=
  snd (fold_left (fun '(xmin, imin) i => let v := Rabs (nth i z 0) in if Rlt_dec v xmin then (v, i) else (xmin, imin)) (seq 1 (length z - 1)) (Rabs (nth 0 z 0), 0%nat)).
(** z[i] = v *)
Definition store (z : list R) (i : nat) (v : R) : list R := firstn i z ++ v :: skipn (S i) z.
(** the roots of the depressed cubic z^3 - 3 p z - 2 q, 793-827; the cube root of the positive number basis is std::pow(basis, 1.0 / 3.0) *)
Definition depressed (p q discr p_err discr_err : R) : list R :=
  if Rle_dec (Rabs discr) discr_err then
    if Rle_dec (Rabs p) p_err then [0]
    else [2 * q / p; - 0.5 * (2 * q / p)]
  else if Rlt_dec 0 discr then
    let ac := 1 / 3 * acos (q / (p * sqrt p)) in
    let sq := 2 * sqrt p in
    [sq * cos ac; sq * cos (ac - 2 * PI / 3); sq * cos (ac - 4 * PI / 3)]
  else
    let sgnq := if Rle_dec 0 q then 1 else -1 in
    let basis := Rabs q + sqrt (- discr) in
    let C := sgnq * Rpower basis (1 / 3) in
    [C + p / C].
(** solve_cubic, 752-864; the division by d is left out there for d = 1 *)
Definition solve_cubic (a b c d : R) (newton_iter : nat) : list R :=
  if Req_EM_T d 0 then solve_quadratic a b c newton_iter else
  let a := a / d in let b := b / d in let c := c / d in
  let p := - (1 / 3) * b + 1 / 9 * (c * c) in
  let r := 2 * (c * c) - 9 * b in
  let q := - 0.5 * a - 1 / 54 * (c * r) in
  let discr := p * p * p - q * q in
  let eps := get_eps in
  let p_err := eps * (3 / 3 * Rabs b + 4 / 9 * (c * c) + Rabs p) in
  let r_err := eps * (6 * (c * c) + 18 * Rabs b + Rabs r) in
  let q_err := 0.5 * Rabs a * eps + 1 / 54 * Rabs c * (r_err + Rabs r * 3 * eps) + Rabs q * eps in
  let discr_err := p * p * (3 * p_err + Rabs p * 2 * eps) + Rabs q * (2 * q_err + Rabs q * eps) + Rabs discr * eps in
  let z := depressed p q discr p_err discr_err in
  let z := map (fun z => newton (fun z => ((z + c) * z + b) * z + a) (fun z => (3 * z + 2 * c) * z + b) newton_iter (z - 1 / 3 * c)) z in
  let z := if Req_EM_T a 0 then store z (smallest z) 0 else z in
  sort z.

(** the piece i of spline::solve, 456-476; the vector x of roots is kept in reverse *)
Definition segment_eps (s : spline) (i : nat) : R :=
  let h := if Nat.ltb 0 i then sx s i - sx s (i - 1)%nat else 0 in get_eps * 512 * Rmin h 1.
Definition add_root (eps : R) (x : list R) (new_root : R) : list R :=
  match x with
  | back :: t => if Rlt_dec new_root (back + eps) then new_root :: t else new_root :: x
  | [] => [new_root]
  end.
Definition solve_piece (s : spline) (y : R) (x : list R) (i : nat) : list R :=
  fold_left (fun x root =>
    let eps := segment_eps s i in
    if Rle_dec (- eps) root then if Rlt_dec root (sx s (i + 1)%nat - sx s i) then add_root eps x (sx s i + root) else x else x)
    (solve_cubic (sy s i - y) (sb s i) (sc s i) (sd s i) 1) x.
(** spline::solve, 434-492 *)
Definition solve (s : spline) (y : R) (ignore_extrapolation : bool) : list R :=
  let e := (sn s - 1)%nat in
  let left := if ignore_extrapolation then [] else
    rev (map (fun root => sx s 0%nat + root) (filter (fun root => Rlt_b root 0) (solve_cubic (sy s 0%nat - y) (sb s 0%nat) (sc0 s) 0 1))) in
  let inner := fold_left (solve_piece s y) (seq 0 e) left in
  let right := if ignore_extrapolation then [] else
    map (fun root => sx s e + root) (filter (fun root => Rle_b 0 root) (solve_cubic (sy s e - y) (sb s e) (sc s e) 0 1)) in
  rev inner ++ right.
