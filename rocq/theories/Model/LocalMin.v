(** The calls of the minimisation libraries: src/minimizer/LibNLOPT/MinimizeNLOPT.cpp, GSL_Minimize_From_S_gen_all of
    src/minimizer/MinimizeGSL.cpp and FindNextLocalMinima of src/minimizer/Minimizer.cpp.  The libraries are oracles; doubles are real
    numbers. *)
From Coq Require Import Reals.
From Verif.Model Require Import Base Plane.
Open Scope R_scope.

(** nlopt::result, the values of nlopt.h *)
Inductive nlopt_result := FAILURE | FORCED_STOP | N_SUCCESS | STOPVAL_REACHED | FTOL_REACHED | XTOL_REACHED | MAXEVAL_REACHED | MAXTIME_REACHED.
(** NLOPTReturnType, include/BSMPT/minimizer/LibNLOPT/MinimizeNLOPT.h 45-65 *)
Record nlopt_return := { r_Minimum : rvec; r_PotVal : R; r_Result : nlopt_result; r_Success : bool }.

(** the bounds of one field, MinimizeNLOPT.cpp 41-50: the initial ones are -300 and 300 (39-40) *)
Definition upper (v : R) : R := if Rlt_dec 300 (Rabs v) then 1.5 * v else 300.
Definition lower (v : R) : R := if Rlt_dec (- Rabs v) (-300) then -1.5 * Rabs v else -300.
(** LowerBound and UpperBound, 39-51, for vevTreeMin *)
Definition box (vev : rvec) : list (R * R) := map (fun v => (lower v, upper v)) vev.
(** the same in MinimizePlaneUsingNLOPT, 95-125: the field Index is left out *)
Fixpoint plane_box (i Index : nat) (vev : rvec) : list (R * R) :=
  match vev with
  | [] => []
  | v :: rest => (if (i <? Index)%nat then [(lower v, upper v)] else if (Index <? i)%nat then [(lower v, upper v)] else []) ++ plane_box (S i) Index rest
  end.

(** result == SUCCESS or FTOL_REACHED or XTOL_REACHED, 63-65, 134-136, 157-159 *)
Definition is_success (r : nlopt_result) : bool := match r with N_SUCCESS | FTOL_REACHED | XTOL_REACHED => true | _ => false end.

(** nlopt::opt::optimize: a starting point outside of the bounds, or a lower bound above the upper one, is an invalid argument
    (nlopt/src/api/optimize.c); otherwise [run] is the result of the algorithm, an exception (None) or the code, the point and its value *)
Definition inside1 (p : R * R) (y : R) : bool := if Rle_dec (fst p) y then if Rle_dec y (snd p) then true else false else false.
Fixpoint insideb (b : list (R * R)) (x : rvec) : bool :=
  match b, x with [], [] => true | p :: b', y :: x' => inside1 p y && insideb b' x' | _, _ => false end.
Section Nlopt.
Variable run : list (R * R) -> rvec -> (rvec -> R) -> option (nlopt_result * rvec * R).
Definition optimize (b : list (R * R)) (start : rvec) (f : rvec -> R) : outcome (nlopt_result * rvec * R) :=
  if insideb b start then match run b start f with Some r => Ok r | None => Throw RuntimeError end else Throw InvalidArgument.

(** MinimizeUsingNLOPT, 31-76; [V] is VEff at the temperature with MinimizeOrderVEV inside, VEV starts as zeros (35) *)
Definition MinimizeUsingNLOPT (vev : rvec) (V : rvec -> R) : nlopt_return :=
  match optimize (box vev) (repeat 0 (length vev)) V with
  | Ok (code, x, minf) => {| r_Minimum := x; r_PotVal := minf; r_Result := code; r_Success := is_success code |}
  | _ => {| r_Minimum := []; r_PotVal := 0; r_Result := FORCED_STOP; r_Success := false |}
  end.
(** MinimizePlaneUsingNLOPT, 90-139: exceptions are not caught; [plane] is TransformCoordinates *)
Definition MinimizePlaneUsingNLOPT (vev : rvec) (Index : nat) (plane : rvec -> rvec) (V : rvec -> R) : outcome nlopt_return :=
  bind (optimize (plane_box 0 Index vev) (repeat 0 (length vev - 1)) (fun x => V (plane x))) (fun '(code, x, minf) =>
  Ok {| r_Minimum := plane x; r_PotVal := minf; r_Result := code; r_Success := is_success code |}).
End Nlopt.

(** GSL_Minimize_From_S_gen_all, MinimizeGSL.cpp 61-121.  [iterate k] is the status of the k-th gsl_multimin_fminimizer_iterate (true: no
    error), [small k] whether gsl_multimin_test_size gives GSL_SUCCESS after it (otherwise GSL_CONTINUE), [x k] the point then. *)
Inductive gsl_status := GSL_SUCCESS | GSL_CONTINUE | GSL_ERROR.
Section GSL.
Variables iterate small : nat -> bool.
Variable x : nat -> rvec.
(** the loop 91-101, [iter] after the increment; MaxIter is 600 *)
Fixpoint gsl_loop (fuel iter : nat) : outcome (gsl_status * nat) :=
  match fuel with
  | 0%nat => OutOfFuel
  | S f =>
      let iter := S iter in
      if negb (iterate iter) then Ok (GSL_ERROR, iter)
      else if small iter then Ok (GSL_SUCCESS, iter)
      else if (iter <? 600)%nat then gsl_loop f iter else Ok (GSL_CONTINUE, iter)
  end.
(** 103-112: the point, or zeros *)
Definition GSL_Minimize_From_S (dim : nat) : outcome (gsl_status * rvec) :=
  bind (gsl_loop 600 0) (fun '(s, k) => Ok (s, match s with GSL_SUCCESS => x k | _ => repeat 0 dim end)).
End GSL.

(** FindNextLocalMinima, Minimizer.cpp 446-487; [gsl k] is the result of the k-th call of GSL_Minimize_From_S_gen_all (the count starts
    with 0), [nlopt] that of FindLocalMinimum *)
Section Next.
Variable gsl : nat -> gsl_status * rvec.
Variable nlopt : nlopt_return.
Fixpoint tries_loop (fuel tries : nat) : outcome (gsl_status * rvec * nat) :=
  match fuel with
  | 0%nat => OutOfFuel
  | S f =>
      let r := gsl tries in let tries := S tries in
      match fst r with
      | GSL_SUCCESS => Ok (r, tries)
      | _ => if (tries <? 600)%nat then tries_loop f tries else Ok (r, tries)
      end
  end.
Definition FindNextLocalMinima (useGSL useNLopt : bool) : outcome (list rvec) :=
  bind (if useGSL then bind (tries_loop 600 0) (fun '(r, _) => match fst r with GSL_SUCCESS => Ok [snd r] | _ => Ok [] end) else Ok []) (fun l =>
  Ok (l ++ if useNLopt then if r_Success nlopt then [r_Minimum nlopt] else [] else [])).
End Next.
