(** The path from which the bounce is started: src/bounce_solution/bounce_solution.cpp 74-116 (optimal discrete symmetry) and
    src/minimum_tracer/minimum_tracer.cpp 734-757 (WarpPath), 1380-1426 (Create1DimGrid), 1428-1472 (almost_the_same).
    Doubles are real numbers, arithmetic is exact. *)
From Coq Require Import Reals List Arith ZArith.
Import ListNotations.
Open Scope R_scope.

(** std::vector<double> *)
Definition vec := list R.
(** L2NormVector, src/utility/utility.cpp *)
Definition L2Norm (v : vec) : R := sqrt (fold_left (fun s x => s + x * x) v 0).
(** Eigen::MatrixXd, by rows and columns *)
Definition matrix := nat -> nat -> R.
Definition identity : matrix := fun i j => if Nat.eqb i j then 1 else 0.
Definition mat_vec (M : matrix) (v : vec) : vec :=
  map (fun i => fold_left (fun s j => s + M i j * nth j v 0) (seq 0 (length v)) 0) (seq 0 (length v)).

(** CalculateOptimalDiscreteSymmetry, 74-105.  CandidateTrueVacuum (91) is computed and not used: the vector whose norm is
    compared is FalseVacuum followed by FalseVacuum - TrueVacuum (92-94). *)
Definition DeltaVEV (TrueVacuum FalseVacuum : vec) : vec :=
  FalseVacuum ++ map (fun p => fst p - snd p) (combine FalseVacuum TrueVacuum).
Definition optimal_step (TrueVacuum FalseVacuum : vec) (s : R * matrix) (GroupElement : matrix) : R * matrix :=
  let d := L2Norm (DeltaVEV TrueVacuum FalseVacuum) in
  if Rlt_dec d (fst s) then (d, GroupElement) else s.
Definition OptimalDiscreteSymmetry (GroupElements : list matrix) (TrueVacuum FalseVacuum : vec) : matrix :=
  snd (fold_left (optimal_step TrueVacuum FalseVacuum) GroupElements (10 ^ 100, identity)).
(** TransformIntoOptimalDiscreteSymmetry, 107-116 *)
Definition Transform (O : matrix) (vev : vec) : vec := mat_vec O vev.

(** one component of WarpPath, 747-752; the five vectors have one size *)
Definition warp1 (x T1 F1 T2 F2 : R) : R :=
  if Req_EM_T (F1 - T1) 0 then T2 + (x - T1) else T2 + (F2 - T2) * (x - T1) / (F1 - T1).
Fixpoint warp (x T1 F1 T2 F2 : vec) : vec :=
  match x, T1, F1, T2, F2 with
  | x :: xs, t1 :: T1, f1 :: F1, t2 :: T2, f2 :: F2 => warp1 x t1 f1 t2 f2 :: warp xs T1 F1 T2 F2
  | _, _, _, _, _ => []
  end.
Definition WarpPath (path : list vec) (T1 F1 T2 F2 : vec) : list vec := map (fun x => warp x T1 F1 T2 F2) path.

(** Create1DimGrid between two points, 1411-1426; the two vectors have one size *)
Definition Grid (min_start min_end : vec) (npoints : nat) : list vec :=
  min_start :: map (fun i => map (fun p => fst p + INR i * (1 / INR npoints * (snd p - fst p))) (combine min_start min_end)) (seq 1 npoints).

(** Create1DimGrid along the field k, 1380-1408; [nsteps] and [k] are ints, only [nsteps] may be negative here; None is the
    std::out_of_range of res.at(k) (1403) *)
Definition set_at (k : nat) (x : R) (v : vec) : vec := firstn k v ++ x :: skipn (S k) v.
Definition Grid1 (point : vec) (k : nat) (low high : R) (nsteps : Z) : option (list vec) :=
  if Z.eqb nsteps 0 then Some [point]
  else if Z.ltb nsteps 0 then Some []
  else if Nat.ltb k (length point) then
    Some (map (fun i => set_at k (low + INR i * ((high - low) / IZR nsteps)) point) (seq 0 (S (Z.to_nat nsteps))))
  else None.

(** almost_the_same of two values, 1428-1438 *)
Definition almost (rel zero a b : R) : bool :=
  if andb (if Rlt_dec (Rabs a) zero then true else false) (if Rlt_dec (Rabs b) zero then true else false) then true
  else if Rlt_dec (Rabs (a - b)) (Rabs (a + b) / 2 * rel) then true else false.
(** of two vectors, 1440-1472; None is the exception of 1448 *)
Definition almost_vec (a b : vec) (allow_for_sign_flip : bool) (rel zero : R) : option bool :=
  if Nat.eqb (length a) (length b) then
    let count := fold_left (fun c p => ((if allow_for_sign_flip then if almost rel zero (fst p) (snd p) then 1 else 0
                                        else if almost rel zero (Rabs (fst p)) (Rabs (snd p)) then 1 else 0) + c)%nat) (combine a b) 0%nat in
    Some (Nat.eqb count (length a))
  else None.
