(** The check for electroweak symmetry restoration at high temperature,
    MinimumTracer::IsThereEWSymmetryRestoration, src/minimum_tracer/minimum_tracer.cpp 1174-1270.

    The numerics of step [i] of the temperature loop (the potential divided by 1 + T^2, its gradient,
    its Hessian matrix, the smallest eigenvalue of the latter, the solution of the linear system)
    are a record.  A double is [option R], [None] being NaN or infinite.  Arithmetic is exact.
    Log messages are dropped. *)
From Coq Require Import Reals List ZArith.
From Verif.Model Require Import Base Action.
Import ListNotations.
Open Scope R_scope.

Record ewsr_step := {
  ev : option R;              (* SmallestEigenvalue(0, Hessian), 1214 *)
  stat : option (list R)      (* HessianEigen.colPivHouseholderQr().solve(GradientEigen), 1247-1248; [None] = a coordinate is NaN *)
}.

(** abs(a / b - 1) < treshold, 1216-1218; division by zero gives an infinity or NaN and false *)
Definition near1 (a b : option R) : bool :=
  match a, b with
  | Some x, Some y => negb (Reqb y 0) && Rltb (Rabs (x / y - 1)) (1 / 1000000)
  | _, _ => false
  end.

(** the loop over exponentT, 1198-1233: the step at which the eigenvalue has settled; a vector
    that was never assigned has size 0 *)
Fixpoint ewsr_loop (steps : list ewsr_step) (old older : option R) : option ewsr_step :=
  match steps with
  | [] => None
  | s :: rest =>
      if near1 (ev s) old && near1 (ev s) older then Some s
      else ewsr_loop rest (ev s) old
  end.

(** status and the new value of HighTemperatureVEV, if assigned; [ewvev] = EWSBVEV(MinimizeOrderVEV(.)) *)
Definition IsThereEWSymmetryRestoration (ewvev : list R -> R) (steps : list ewsr_step) : Z * option (list R) :=
  match ewsr_loop steps (Some (10 ^ 100)) (Some (10 ^ 200)) with
  | None => (0%Z, None)                                       (* 1235 *)
  | Some s =>
      match ev s with
      | None => (0%Z, None)                                   (* not reached: the test above is false *)
      | Some e =>
          if Rltb e 0 then ((-1)%Z, None)                     (* 1237-1243 *)
          else if Reqb e 0 then (1%Z, None)                   (* 1245-1246 *)
          else match stat s with
               | None => (0%Z, None)                          (* 1255-1256 *)
               | Some x => (if Rleb (ewvev x) (1 / 2) then 3%Z else 2%Z, Some x)   (* 1258-1269 *)
               end
      end
  end.
