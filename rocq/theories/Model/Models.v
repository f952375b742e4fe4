(** Model selection: include/BSMPT/models/IncludeAllModels.h,
    src/models/IncludeAllModels.cpp, src/utility/utility.cpp 19-24, 39-44. *)
From Verif.Model Require Import Base Strings.

(** enum class ModelIDs, IncludeAllModels.h 31-46. *)
Inductive model_id := NotSet | C2HDM | R2HDM | N2HDM | CXSM | CPINTHEDARK | SM | TEMPLATE | Stop.

(** ModelNames, IncludeAllModels.h 52-60.  An unordered_map: the iteration order
    is unspecified, so the functions below take the table as an argument and the
    theorems quantify over its permutations. *)
Definition ModelNames : list (str * model_id) :=
  [ (s2l "c2hdm", C2HDM); (s2l "r2hdm", R2HDM); (s2l "n2hdm", N2HDM); (s2l "cxsm", CXSM);
    (s2l "sm", SM); (s2l "cpinthedark", CPINTHEDARK); (s2l "template", TEMPLATE) ].

(** getModel, IncludeAllModels.cpp 60-76. *)
Fixpoint getModel (names : list (str * model_id)) (s : str) : model_id :=
  match names with
  | [] => NotSet
  | (key, id) :: rest =>
      if str_eqb (to_lower s) (to_lower key) then id else getModel rest s
  end.

Definition model_eqb (a b : model_id) : bool :=
  match a, b with
  | NotSet, NotSet | C2HDM, C2HDM | R2HDM, R2HDM | N2HDM, N2HDM | CXSM, CXSM
  | CPINTHEDARK, CPINTHEDARK | SM, SM | TEMPLATE, TEMPLATE | Stop, Stop => true
  | _, _ => false
  end.

Fixpoint inv_find (id : model_id) (m : list (model_id * str)) : option str :=
  match m with
  | [] => None
  | (i, s) :: r => if model_eqb id i then Some s else inv_find id r
  end.

(** InvertModelNames, IncludeAllModels.cpp 78-91. *)
Fixpoint InvertModelNames_go (acc : list (model_id * str)) (names : list (str * model_id))
  : outcome (list (model_id * str)) :=
  match names with
  | [] => Ok acc
  | (s, id) :: rest =>
      match inv_find id acc with
      | Some _ => Throw RuntimeError
      | None => InvertModelNames_go (acc ++ [(id, s)]) rest
      end
  end.
Definition InvertModelNames names := InvertModelNames_go [] names.

(** ModelIDToString: IMN.at(Model), utility.cpp 19-24 and 39-44. *)
Definition ModelIDToString (names : list (str * model_id)) (id : model_id) : outcome str :=
  bind (InvertModelNames names) (fun m =>
    match inv_find id m with Some s => Ok s | None => Throw OutOfRange end).

(** FChoose, IncludeAllModels.cpp 33-58: which class is constructed. *)
Definition FChoose (id : model_id) : outcome model_id :=
  match id with
  | SM => Ok SM | R2HDM => Ok R2HDM | C2HDM => Ok C2HDM | N2HDM => Ok N2HDM
  | CXSM => Ok CXSM | CPINTHEDARK => Ok CPINTHEDARK | TEMPLATE => Ok TEMPLATE
  | NotSet | Stop => Throw RuntimeError
  end.
