(** Cubic splines: src/utility/spline/spline.cpp, include/BSMPT/utility/spline/spline.h.
    Doubles are exact reals.  A std::vector<double> of the (common) size [n] is a function of the index, of
    which only the values below [n] are meaningful.  A failing assert (abort in debug builds, continuation
    with meaningless values in release builds) and a division by zero are the outcome [None]. *)
From Coq Require Import Reals List Arith Bool.
Import ListNotations.
Local Open Scope R_scope.

Definition bindo {A B} (x : option A) (f : A -> option B) : option B := match x with Some a => f a | None => None end.
(** for (i = start; cnt times; i++) body *)
Fixpoint loop {St : Type} (body : nat -> St -> option St) (i cnt : nat) (s : St) : option St :=
  match cnt with O => Some s | S c => bindo (body i s) (loop body (S i) c) end.
(** v[i] = a *)
Definition updf (v : nat -> R) (i : nat) (a : R) : nat -> R := fun k => if Nat.eqb k i then a else v k.

(** enum bd_type and spline_type, spline.h 43-57 *)
Inductive bd_type := first_deriv | second_deriv | not_a_knot.
Inductive spline_type := linear | cspline | cspline_hermite.

(** band_matrix, spline.h 160-187: the entries inside the band (m_upper[k][i] is entry (i, i+k), m_lower[k][i] is
    entry (i, i-k), spline.cpp 534-555) and the additional diagonal m_lower[0] (557-566) *)
Record band := mkBand { bdim : nat; num_upper : nat; num_lower : nat; ent : nat -> nat -> R; saved_diag : nat -> R }.
(** constructor and resize, 500-519: all entries zero *)
Definition band_zero (dim nu nl : nat) : band := mkBand dim nu nl (fun _ _ => 0) (fun _ => 0).
(** the asserts of operator(), 537-538 and 548-549 *)
Definition in_band (A : band) (i j : nat) : bool :=
  Nat.ltb i (bdim A) && Nat.ltb j (bdim A) && Nat.leb j (i + num_upper A) && Nat.leb i (j + num_lower A).
(** operator(), 534-555: read and write *)
Definition get (A : band) (i j : nat) : option R := if in_band A i j then Some (ent A i j) else None.
Definition put (A : band) (i j : nat) (a : R) : option band :=
  if in_band A i j
  then Some (mkBand (bdim A) (num_upper A) (num_lower A)
               (fun r c => if Nat.eqb r i && Nat.eqb c j then a else ent A r c) (saved_diag A))
  else None.
(** saved_diag(i) = a, 562-566 *)
Definition set_diag (A : band) (i : nat) (a : R) : band :=
  mkBand (bdim A) (num_upper A) (num_lower A) (ent A) (updf (saved_diag A) i a).

(** lu_decompose, first loop (577-588): row i is divided by its diagonal entry *)
Definition normalise_row (i : nat) (A : band) : option band :=
  bindo (get A i i) (fun a =>
  if Req_EM_T a 0 then None else
  let A := set_diag A i (1 / a) in
  let j_min := (i - num_lower A)%nat in
  let j_max := Nat.min (bdim A - 1) (i + num_upper A) in
  bindo (loop (fun j A => bindo (get A i j) (fun v => put A i j (v * saved_diag A i))) j_min (j_max + 1 - j_min) A)
        (fun A => put A i i 1)).
(** lu_decompose, body of the second loop over i (595-607) *)
Definition eliminate_row (k i : nat) (A : band) : option band :=
  bindo (get A k k) (fun p =>
  if Req_EM_T p 0 then None else
  bindo (get A i k) (fun q =>
  let x := - q / p in
  bindo (put A i k (- x)) (fun A =>
  let j_max := Nat.min (bdim A - 1) (k + num_upper A) in
  loop (fun j A => bindo (get A i j) (fun a => bindo (get A k j) (fun b => put A i j (a + x * b)))) (k + 1) (j_max - k) A))).
(** 591-608 *)
Definition eliminate_column (k : nat) (A : band) : option band :=
  let i_max := Nat.min (bdim A - 1) (k + num_lower A) in
  loop (eliminate_row k) (k + 1) (i_max - k) A.
(** 569-609 *)
Definition lu_decompose (A : band) : option band :=
  bindo (loop normalise_row 0 (bdim A) A) (fun A => loop eliminate_column 0 (bdim A) A).

(** the sums of l_solve (619-622) and r_solve (636-639) *)
Definition row_sum (A : band) (i start cnt : nat) (x : nat -> R) : option R :=
  loop (fun j s => bindo (get A i j) (fun a => Some (s + a * x j))) start cnt 0.
(** l_solve, 611-626 *)
Definition l_solve (A : band) (b : nat -> R) : option (nat -> R) :=
  loop (fun i x =>
    let j_start := (i - num_lower A)%nat in
    bindo (row_sum A i j_start (i - j_start) x) (fun sum => Some (updf x i (b i * saved_diag A i - sum))))
    0 (bdim A) (fun _ => 0).
(** r_solve, 628-643; the c-th pass has i = dim - 1 - c *)
Definition r_solve (A : band) (b : nat -> R) : option (nat -> R) :=
  loop (fun c x =>
    let i := (bdim A - 1 - c)%nat in
    let j_stop := Nat.min (bdim A - 1) (i + num_upper A) in
    bindo (row_sum A i (i + 1) (j_stop - i) x) (fun sum =>
    bindo (get A i i) (fun d => if Req_EM_T d 0 then None else Some (updf x i ((b i - sum) / d)))))
    0 (bdim A) (fun _ => 0).
(** lu_solve, 645-657, with the default is_lu_decomposed = false *)
Definition lu_solve (A : band) (b : nat -> R) : option (nat -> R) :=
  bindo (lu_decompose A) (fun A => bindo (l_solve A b) (fun y => r_solve A y)).

(** the object: m_x, m_y, m_b, m_c, m_d, m_c0, m_left, m_right (spline.h 60-70) and the number of points *)
Record spline := mkSpline {
  sn : nat; sx : nat -> R; sy : nat -> R; sb : nat -> R; sc : nat -> R; sd : nat -> R; sc0 : R;
  sleft : bd_type; sright : bd_type }.

Definition is_first (b : bd_type) : bool := match b with first_deriv => true | _ => false end.
Definition is_nak (b : bd_type) : bool := match b with not_a_knot => true | _ => false end.

(** the loop of set_coeffs_from_b, 59-67: entries below n-1 of c and d are rewritten *)
Definition c_from_b (n : nat) (x y b c : nat -> R) : nat -> R := fun i =>
  if Nat.ltb i (n - 1)
  then (3 * (y (i + 1)%nat - y i) / (x (i + 1)%nat - x i) - (2 * b i + b (i + 1)%nat)) / (x (i + 1)%nat - x i)
  else c i.
Definition d_from_b (n : nat) (x y b c d : nat -> R) : nat -> R := fun i =>
  if Nat.ltb i (n - 1)
  then ((b (i + 1)%nat - b i) / (3 * (x (i + 1)%nat - x i)) - 2 / 3 * c_from_b n x y b c i) / (x (i + 1)%nat - x i)
  else d i.
(** set_coeffs_from_b, 50-71 *)
Definition set_coeffs_from_b (s : spline) : spline :=
  let c := c_from_b (sn s) (sx s) (sy s) (sb s) (sc s) in
  let d := d_from_b (sn s) (sx s) (sy s) (sb s) (sc s) (sd s) in
  mkSpline (sn s) (sx s) (sy s) (sb s) c d (if is_first (sleft s) then 0 else c 0%nat) (sleft s) (sright s).

(** the asserts at the start of set_points, 78-90 (the sizes of x and y agree by representation) *)
Fixpoint increasing (x : nat -> R) (k : nat) : bool :=
  match k with O => true | S k' => increasing x k' && (if Rlt_dec (x k') (x (S k')) then true else false) end.
Definition points_ok (n : nat) (x : nat -> R) (left right : bd_type) : bool :=
  Nat.leb 3 n && (if is_nak left || is_nak right then Nat.leb 4 n else true) && increasing x (n - 1).

(** the linear branch, 92-108 *)
Definition set_linear (n : nat) (x y : nat -> R) (left right : bd_type) : spline :=
  let slope i := (y (i + 1)%nat - y i) / (x (i + 1)%nat - x i) in
  let b := updf slope (n - 1) (slope (n - 2)%nat) in
  mkSpline n x y b (fun _ => 0) (fun _ => 0) 0 left right.

(** interior rows of the equation system, 120-127 *)
Definition interior_row (x y : nat -> R) (i : nat) (st : band * (nat -> R)) : option (band * (nat -> R)) :=
  let '(A, rhs) := st in
  bindo (put A i (i - 1) (1 / 3 * (x i - x (i - 1)%nat))) (fun A =>
  bindo (put A i i (2 / 3 * (x (i + 1)%nat - x (i - 1)%nat))) (fun A =>
  bindo (put A i (i + 1) (1 / 3 * (x (i + 1)%nat - x i))) (fun A =>
  Some (A, updf rhs i ((y (i + 1)%nat - y i) / (x (i + 1)%nat - x i) - (y i - y (i - 1)%nat) / (x i - x (i - 1)%nat)))))).
(** left boundary row, 129-156 *)
Definition left_row (x y : nat -> R) (left : bd_type) (lv : R) (st : band * (nat -> R)) : option (band * (nat -> R)) :=
  let '(A, rhs) := st in
  match left with
  | second_deriv =>
      bindo (put A 0 0 2) (fun A => bindo (put A 0 1 0) (fun A => Some (A, updf rhs 0 lv)))
  | first_deriv =>
      bindo (put A 0 0 (2 * (x 1%nat - x 0%nat))) (fun A =>
      bindo (put A 0 1 (1 * (x 1%nat - x 0%nat))) (fun A =>
      Some (A, updf rhs 0 (3 * ((y 1%nat - y 0%nat) / (x 1%nat - x 0%nat) - lv)))))
  | not_a_knot =>
      bindo (put A 0 0 (- (x 2%nat - x 1%nat))) (fun A =>
      bindo (put A 0 1 (x 2%nat - x 0%nat)) (fun A =>
      bindo (put A 0 2 (- (x 1%nat - x 0%nat))) (fun A => Some (A, updf rhs 0 0))))
  end.
(** right boundary row, 157-186; the not-a-knot branch assigns rhs[0], not rhs[n-1] (181) *)
Definition right_row (n : nat) (x y : nat -> R) (right : bd_type) (rv : R) (st : band * (nat -> R)) : option (band * (nat -> R)) :=
  let '(A, rhs) := st in
  match right with
  | second_deriv =>
      bindo (put A (n - 1) (n - 1) 2) (fun A => bindo (put A (n - 1) (n - 2) 0) (fun A => Some (A, updf rhs (n - 1) rv)))
  | first_deriv =>
      bindo (put A (n - 1) (n - 1) (2 * (x (n - 1)%nat - x (n - 2)%nat))) (fun A =>
      bindo (put A (n - 1) (n - 2) (1 * (x (n - 1)%nat - x (n - 2)%nat))) (fun A =>
      Some (A, updf rhs (n - 1) (3 * (rv - (y (n - 1)%nat - y (n - 2)%nat) / (x (n - 1)%nat - x (n - 2)%nat))))))
  | not_a_knot =>
      bindo (put A (n - 1) (n - 3) (- (x (n - 1)%nat - x (n - 2)%nat))) (fun A =>
      bindo (put A (n - 1) (n - 2) (x (n - 1)%nat - x (n - 3)%nat)) (fun A =>
      bindo (put A (n - 1) (n - 1) (- (x (n - 2)%nat - x (n - 3)%nat))) (fun A => Some (A, updf rhs 0 0))))
  end.
(** d and b from c, 191-207 *)
Definition cspline_d (x c : nat -> R) (i : nat) : R := 1 / 3 * (c (i + 1)%nat - c i) / (x (i + 1)%nat - x i).
Definition cspline_b (x y c : nat -> R) (i : nat) : R :=
  (y (i + 1)%nat - y i) / (x (i + 1)%nat - x i) - 1 / 3 * (2 * c i + c (i + 1)%nat) * (x (i + 1)%nat - x i).
(** the cspline branch, 109-208, and 288-289 *)
Definition set_cspline (n : nat) (x y : nat -> R) (left : bd_type) (lv : R) (right : bd_type) (rv : R) : option spline :=
  let A := band_zero n (if is_nak left then 2 else 1) (if is_nak right then 2 else 1) in
  bindo (loop (interior_row x y) 1 (n - 2) (A, fun _ => 0)) (fun st =>
  bindo (left_row x y left lv st) (fun st =>
  bindo (right_row n x y right rv st) (fun '(A, rhs) =>
  bindo (lu_solve A rhs) (fun c =>
  let h := x (n - 1)%nat - x (n - 2)%nat in
  let d := updf (cspline_d x c) (n - 1) 0 in
  let b := updf (cspline_b x y c) (n - 1) (3 * d (n - 2)%nat * h * h + 2 * c (n - 2)%nat * h + cspline_b x y c (n - 2)%nat) in
  let c := if is_first right then updf c (n - 1) 0 else c in
  Some (mkSpline n x y b c d (if is_first left then 0 else c 0%nat) left right))))).

(** the hermite branch, 209-282.  m_c, m_d are fresh vectors of zeros for a new object. *)
Definition hermite_slope (x y : nat -> R) (i : nat) : R :=
  let h := x (i + 1)%nat - x i in
  let hl := x i - x (i - 1)%nat in
  - h / (hl * (hl + h)) * y (i - 1)%nat + (h - hl) / (hl * h) * y i + hl / (h * (hl + h)) * y (i + 1)%nat.
Definition hermite_left (x y b : nat -> R) (left : bd_type) (lv : R) : R :=
  match left with
  | first_deriv => lv
  | second_deriv =>
      let h := x 1%nat - x 0%nat in 0.5 * (- b 1%nat - 0.5 * lv * h + 3 * (y 1%nat - y 0%nat) / h)
  | not_a_knot =>
      let h0 := x 1%nat - x 0%nat in let h1 := x 2%nat - x 1%nat in
      - b 1%nat + 2 * (y 1%nat - y 0%nat) / h0 + h0 * h0 / (h1 * h1) * (b 1%nat + b 2%nat - 2 * (y 2%nat - y 1%nat) / h1)
  end.
(** slope and curvature at the right end, 249-277 *)
Definition hermite_right (n : nat) (x y b : nat -> R) (right : bd_type) (rv : R) : R * R :=
  match right with
  | first_deriv => (rv, 0)
  | second_deriv =>
      let h := x (n - 1)%nat - x (n - 2)%nat in
      (0.5 * (- b (n - 2)%nat + 0.5 * rv * h + 3 * (y (n - 1)%nat - y (n - 2)%nat) / h), 0.5 * rv)
  | not_a_knot =>
      let h0 := x (n - 2)%nat - x (n - 3)%nat in let h1 := x (n - 1)%nat - x (n - 2)%nat in
      let be := - b (n - 2)%nat + 2 * (y (n - 1)%nat - y (n - 2)%nat) / h1 +
                h1 * h1 / (h0 * h0) * (b (n - 3)%nat + b (n - 2)%nat - 2 * (y (n - 2)%nat - y (n - 3)%nat) / h0) in
      (be, (b (n - 2)%nat + 2 * be) / h1 - 3 * (y (n - 1)%nat - y (n - 2)%nat) / (h1 * h1))
  end.
Definition set_hermite (n : nat) (x y : nat -> R) (left : bd_type) (lv : R) (right : bd_type) (rv : R) : spline :=
  let b := hermite_slope x y in
  let b := updf b 0 (hermite_left x y b left lv) in
  let '(be, ce) := hermite_right n x y b right rv in
  let b := updf b (n - 1) be in
  let c := updf (fun _ => 0) (n - 1) ce in
  set_coeffs_from_b (mkSpline n x y b c (fun _ => 0) 0 left right).

(** set_points, 73-290, on an object with the given boundary conditions (set_boundary 38-48, constructor
    spline.h 75-108) *)
Definition set_points (n : nat) (x y : nat -> R) (type : spline_type) (left : bd_type) (lv : R) (right : bd_type) (rv : R) : option spline :=
  if points_ok n x left right then
    match type with
    | linear => Some (set_linear n x y left right)
    | cspline => set_cspline n x y left lv right rv
    | cspline_hermite => Some (set_hermite n x y left lv right rv)
    end
  else None.

(** make_monotonic, first loop body (301-311) *)
Definition Rle_b (a b : R) : bool := if Rle_dec a b then true else false.
Definition Rlt_b (a b : R) : bool := if Rlt_dec a b then true else false.
Definition Req_b (a b : R) : bool := if Req_EM_T a b then true else false.
Definition mono_sign (n : nat) (y : nat -> R) (i : nat) (st : bool * (nat -> R)) : bool * (nat -> R) :=
  let '(modified, b) := st in
  let im1 := (i - 1)%nat in let ip1 := Nat.min (i + 1) (n - 1) in
  if (Rle_b (y im1) (y i) && Rle_b (y i) (y ip1) && Rlt_b (b i) 0) || (Rle_b (y i) (y im1) && Rle_b (y ip1) (y i) && Rlt_b 0 (b i))
  then (true, updf b i 0) else (modified, b).
(** second loop body (315-340) *)
Definition mono_limit (x y : nat -> R) (i : nat) (st : bool * (nat -> R)) : bool * (nat -> R) :=
  let '(modified, b) := st in
  let avg := (y (i + 1)%nat - y i) / (x (i + 1)%nat - x i) in
  if Req_b avg 0 && (negb (Req_b (b i) 0) || negb (Req_b (b (i + 1)%nat) 0))
  then (true, updf (updf b i 0) (i + 1) 0)
  else if (Rle_b 0 (b i) && Rle_b 0 (b (i + 1)%nat) && Rlt_b 0 avg) || (Rle_b (b i) 0 && Rle_b (b (i + 1)%nat) 0 && Rlt_b avg 0)
  then let r := sqrt (b i * b i + b (i + 1)%nat * b (i + 1)%nat) / Rabs avg in
       if Rlt_b 3 r then (true, let b1 := updf b i (b i * (3 / r)) in updf b1 (i + 1) (b1 (i + 1)%nat * (3 / r))) else (modified, b)
  else (modified, b).
Fixpoint for_pure {St : Type} (body : nat -> St -> St) (i cnt : nat) (s : St) : St :=
  match cnt with O => s | S c => for_pure body (S i) c (body i s) end.
(** make_monotonic, 292-349 *)
Definition make_monotonic (s : spline) : bool * spline :=
  let st := for_pure (mono_sign (sn s) (sy s)) 0 (sn s) (false, sb s) in
  let '(modified, b) := for_pure (mono_limit (sx s) (sy s)) 0 (sn s - 1) st in
  let s' := mkSpline (sn s) (sx s) (sy s) b (sc s) (sd s) (sc0 s) (sleft s) (sright s) in
  if modified then (true, set_coeffs_from_b s') else (false, s').

(** std::upper_bound on the increasing m_x: index of the first element greater than t, or n *)
Fixpoint upper_bound (x : nat -> R) (t : R) (i cnt : nat) : nat :=
  match cnt with O => i | S c => if Rlt_dec t (x i) then i else upper_bound x t (S i) c end.
(** find_closest, 352-358 *)
Definition find_closest (s : spline) (t : R) : nat := (upper_bound (sx s) t 0 (sn s) - 1)%nat.
(** operator(), 360-388 *)
Definition eval (s : spline) (t : R) : R :=
  let idx := find_closest s t in
  let h := t - sx s idx in
  let e := (sn s - 1)%nat in
  if Rlt_dec t (sx s 0%nat) then (sc0 s * h + sb s 0%nat) * h + sy s 0%nat
  else if Rlt_dec (sx s e) t then (sc s e * h + sb s e) * h + sy s e
  else ((sd s idx * h + sc s idx) * h + sb s idx) * h + sy s idx.
(** deriv, 390-432, for order > 0 *)
Definition deriv (s : spline) (order : nat) (t : R) : R :=
  let idx := find_closest s t in
  let h := t - sx s idx in
  let e := (sn s - 1)%nat in
  if Rlt_dec t (sx s 0%nat) then
    match order with 1%nat => 2 * sc0 s * h + sb s 0%nat | 2%nat => 2 * sc0 s | _ => 0 end
  else if Rlt_dec (sx s e) t then
    match order with 1%nat => 2 * sc s e * h + sb s e | 2%nat => 2 * sc s e | _ => 0 end
  else
    match order with
    | 1%nat => (3 * sd s idx * h + 2 * sc s idx) * h + sb s idx
    | 2%nat => 6 * sd s idx * h + 2 * sc s idx
    | 3%nat => 6 * sd s idx
    | _ => 0
    end.
