(** Comparison of a minimum with the global one: MinimumTracer::IsGlobMin,
    src/minimum_tracer/minimum_tracer.cpp 1066-1127. *)
From Coq Require Import List Reals.
From Verif.Model Require Import Base Potential VevDim StartPath.
Import ListNotations.
Local Open Scope R_scope.

Section GlobMin.
  (** ReduceVEV, 700-727, and ConvertToNonFlatDirections, 948-963: any functions here; modelled in Model/Signs.v and Model/FlatDirections.v *)
  Variables ReduceVEV ConvertToNonFlatDirections : list R -> list R.
  (** what Minimizer::Minimize_gen_all finds at a temperature from a starting point, 1072-1078 *)
  Variable Minimize_gen_all : R -> list R -> list R.
  Variable VevOrder : list nat.
  Variable NHiggs : nat.

  (** GetGlobalMinimum, 1067-1087 *)
  Definition GetGlobalMinimum (Temp : R) (start : list R) : outcome (list R) :=
    MinimizeOrderVEV 0 VevOrder (Minimize_gen_all Temp start) NHiggs.

  (** diff_vec, 1111-1114: over the entries of glob_min, [test_min.at(i)] throws *)
  Fixpoint differences (glob_min test_min : list R) : outcome (list R) :=
    match glob_min, test_min with
    | [], _ => Ok []
    | _ :: _, [] => Throw OutOfRange
    | g :: gs, t :: ts => bind (differences gs ts) (fun r => Ok (g - t :: r))
    end.

  (** IsGlobMin, 1095-1127: the value of min.is_glob_min; num_error is 1 *)
  Definition IsGlobMin (temp : R) (point : list R) : outcome bool :=
    bind (GetGlobalMinimum temp point) (fun all =>
    bind (ConvertToVEVDim VevOrder all) (fun found =>
    let glob_min := ConvertToNonFlatDirections (ReduceVEV found) in
    let test_min := ConvertToNonFlatDirections (ReduceVEV point) in
    bind (differences glob_min test_min) (fun diff_vec =>
    Ok (if Rlt_dec (L2Norm diff_vec) 1 then true else false)))).
End GlobMin.
