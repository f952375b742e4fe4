(** Wall thickness from the height of the potential barrier: the version with
    a plane minimisation in threads and the one on the straight line.

    Simplifications: doubles are exact reals; the potential at fixed
    temperature is an arbitrary function of the vevs (MinimizeOrderVEV and VEff
    in one); the plane minimiser, the splines and the one-dimensional
    minimisers of Boost and GSL are arbitrary functions. *)
From Coq Require Import Reals List Lra Lia.
From Verif Require Import Base Model.KFunctions.
Import ListNotations.
Open Scope R_scope.

(** Result of a division by a square root: finite, infinite or not a number. *)
Inductive number := Finite (r : R) | Infinite | NotANumber.

(** vc / sqrt(8 Vb), src/WallThickness/WallThicknessLib.cpp 141,
    WallThickness1D.cpp 72; vc is not negative (a length, EWSBVEV) *)
Definition over_root (vc Vb : R) : number :=
  if Rlt_dec 0 Vb then Finite (vc / sqrt (8 * Vb))
  else if Rlt_dec Vb 0 then NotANumber
  else if Rlt_dec 0 vc then Infinite else NotANumber.

(** * Plane version *)

(** WallThicknessLib.cpp 52-69: the point number [k] of [maxstep] *)
Definition mix (t : R) (a b : list R) : list R := map (fun p => fst p * (1 - t) + snd p * t) (combine a b).
Definition basepoints (vevsymmetric vcritical : list R) : list (list R) :=
  map (fun k => mix (1 / 10 * INR k) vevsymmetric vcritical) (seq 0 11).

(** Program counters of thread_Job, WallThicknessLib.cpp 82-97: before the test
    of the index, before at(index++), minimising point [k], finished. *)
Inductive tpc := TCheck | TFetch | TWork (k : nat) | TDone.
Record tstate := TState { t_index : nat; t_data : list R; t_threads : list tpc; t_terminated : bool }.

Definition set_thread (l : list tpc) (i : nat) (p : tpc) : list tpc := firstn i l ++ p :: skipn (S i) l.

(** One step of thread [i] for [n] points, [value k] is minus the potential at
    the minimum of the plane of point [k].  The exception of at() leaves the
    function of the thread, so std::terminate ends the program. *)
Definition tstep (n : nat) (value : nat -> R) (i : nat) (s : tstate) : tstate :=
  if t_terminated s then s
  else match nth_error (t_threads s) i with
  | Some TCheck => TState (t_index s) (t_data s) (set_thread (t_threads s) i (if Nat.ltb (t_index s) n then TFetch else TDone)) false
  | Some TFetch =>
      if Nat.ltb (t_index s) n
      then TState (S (t_index s)) (t_data s) (set_thread (t_threads s) i (TWork (t_index s))) false
      else TState (S (t_index s)) (t_data s) (t_threads s) true
  | Some (TWork k) =>
      match set_at (t_data s) k (value k) with
      | Ok d => TState (t_index s) d (set_thread (t_threads s) i TCheck) false
      | _ => TState (t_index s) (t_data s) (t_threads s) true
      end
  | _ => s
  end.
Definition trun (n : nat) (value : nat -> R) (sched : list nat) (s : tstate) : tstate :=
  fold_left (fun s i => tstep n value i s) sched s.
(** WallThicknessLib.cpp 54-57, 99-113 *)
Definition tstart (threads n : nat) : tstate := TState 0 (repeat 0 n) (repeat TCheck threads) false.

(** WallThicknessLib.cpp 122-143: [spline] through the data, [lowest] the value
    of Boost's brent_find_minima between 0 and 1 *)
Definition plane_thickness (spline : list R -> R -> R) (lowest : (R -> R) -> R) (vc : R) (data : list R) : number :=
  let f := spline data in
  let VMax := - lowest f in
  let Vmin := Rmin (- f 0) (- f 1) in
  over_root vc (VMax - Vmin).

(** WallThicknessLib.cpp 34-48: vectors of different length *)
Definition calculate_wall_thickness_plane (compute : list (list R) -> list R)
    (spline : list R -> R -> R) (lowest : (R -> R) -> R) (length_of : list R -> R) (vcritical vevsymmetric : list R) : outcome number :=
  if Nat.eqb (length vcritical) (length vevsymmetric)
  then Ok (plane_thickness spline lowest (length_of vcritical) (compute (basepoints vevsymmetric vcritical)))
  else Throw RuntimeError.

(** * Line version *)

Section Line.
Variable V : list R -> R.

(** src/WallThickness/WallThickness1D.cpp 39-59 *)
Definition on_line (t : R) (vcritical vevsymmetric : list R) : list R :=
  map (fun p => t * fst p + (1 - t) * snd p) (combine vcritical vevsymmetric).
Definition minus_V (vcritical vevsymmetric : list R) (t : R) : R := -1 * V (on_line t vcritical vevsymmetric).

(** WallThickness1D.cpp 97-109; [brent] is GSL_Maximize_From_S_gen_line
    (149-199): position and value of -V, or no success; [guess] the random
    numbers.  [fuel] bounds the number of tries. *)
Fixpoint collect (fuel : nat) (brent : R -> option (R * R)) (guess : nat -> R) (ntry : nat) (solutions : list (R * R))
  : outcome (list (R * R)) :=
  match fuel with
  | O => OutOfFuel
  | S fuel =>
      let solutions := match brent (guess ntry) with Some r => solutions ++ [r] | None => solutions end in
      if Nat.eqb (length solutions) 20 then Ok solutions else collect fuel brent guess (S ntry) solutions
  end.
(** WallThickness1D.cpp 111-120 *)
Definition choose (solutions : list (R * R)) : outcome (R * R) :=
  match solutions with
  | [] => Throw OutOfRange
  | s :: rest => Ok (fold_left (fun best s => if Rlt_dec (snd best) (snd s) then s else best) rest s)
  end.
(** WallThickness1D.cpp 76-147 with an empty solV *)
Definition GSL_Find_Maximum_line (fuel : nat) (brent : (R -> R) -> R -> option (R * R)) (guess : nat -> R) (vcritical vevsymmetric : list R)
  : outcome (list R) :=
  bind (collect fuel (brent (minus_V vcritical vevsymmetric)) guess 0 []) (fun solutions =>
  bind (choose solutions) (fun best =>
    let solV := map (Rmult (fst best)) vcritical in
    let MaxVal := V solV in
    let MinValC := V vcritical in
    let MinVal0 := V (map (fun _ => 0) vcritical) in
    Ok (solV ++ [MaxVal - Rmin MinVal0 MinValC]))).
(** WallThickness1D.cpp 61-74 *)
Definition calculate_wall_thickness_1D (fuel : nat) (brent : (R -> R) -> R -> option (R * R)) (guess : nat -> R) (length_of : list R -> R)
    (vcritical vevsymmetric : list R) : outcome number :=
  bind (GSL_Find_Maximum_line fuel brent guess vcritical vevsymmetric) (fun vbarrier =>
    match nth_error vbarrier (length vcritical) with
    | None => Throw OutOfRange
    | Some Vb => Ok (if Req_EM_T Vb 0 then Finite 0 else over_root (length_of vcritical) Vb)
    end).
End Line.
