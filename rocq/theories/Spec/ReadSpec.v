(** Columns of the input files and the parameters of the models, by name. *)
From Coq Require Import List QArith String.
Import ListNotations.
Open Scope string_scope.

(** the first columns of the example input files (example/*_Input.dat), without the index column *)
Definition SM_columns := ["muSq"; "lambda"].
Definition CxSM_columns := ["v"; "vs"; "va"; "msq"; "lambda"; "delta2"; "b2"; "d2"; "Reb1"; "Imb1"; "Rea1"; "Ima1"].
Definition R2HDM_columns := ["type"; "L1"; "L2"; "L3"; "L4"; "L5"; "m12sq"; "tbeta"].
Definition C2HDM_columns := ["Type"; "L1"; "L2"; "L3"; "L4"; "re_L5"; "im_L5"; "re_m12sq"; "p_tbeta"].
Definition N2HDM_columns := ["p_THDMtype"; "p_L1"; "p_L2"; "p_L3"; "p_L4"; "p_L5"; "p_L6"; "p_L7"; "p_L8"; "p_vs"; "p_tbeta"; "p_m12sq"].
Definition CPintheDark_columns := ["mHsm"; "mH1"; "mH2"; "mH3"; "mHp"; "R11"; "R12"; "R13"; "R21"; "R22"; "R23"; "R31"; "R32"; "R33";
  "L1"; "L2"; "L3"; "L4"; "L5"; "L6"; "L7"; "L8"; "Tr"; "Ti"; "m11sq"; "m22sq"; "mssq"].
(** the parameters in the order in which set_gen expects them *)
Definition SM_parameters := ["muSq"; "lambda"].
Definition CxSM_parameters := ["v"; "vs"; "va"; "msq"; "lambda"; "delta2"; "b2"; "d2"; "Reb1"; "Imb1"; "Rea1"; "Ima1"].
Definition R2HDM_parameters := ["L1"; "L2"; "L3"; "L4"; "L5"; "m12sq"; "tbeta"; "type"].
Definition C2HDM_parameters := ["L1"; "L2"; "L3"; "L4"; "re_L5"; "im_L5"; "re_m12sq"; "p_tbeta"; "Type"].
Definition N2HDM_parameters := ["p_L1"; "p_L2"; "p_L3"; "p_L4"; "p_L5"; "p_L6"; "p_L7"; "p_L8"; "p_tbeta"; "p_vs"; "p_m12sq"; "p_THDMtype"].
Definition CPintheDark_parameters := ["m11sq"; "m22sq"; "mssq"; "Tr"; "Ti"; "L1"; "L2"; "L3"; "L4"; "L5"; "L6"; "L7"; "L8"].

(** the value below a name *)
Fixpoint below (header : list string) (values : list Q) (name : string) : option Q :=
  match header, values with
  | h :: hs, q :: qs => if String.eqb h name then Some q else below hs qs name
  | _, _ => None
  end.
(** every parameter has the value below its name *)
Definition by_name (header names : list string) (values par : list Q) : Prop := map (below header values) names = map Some par.
(** a line padded with copies of [x] *)
Definition padded {A} (n : nat) (x : A) (l : list A) : list A := List.app l (repeat x (n - List.length l)).
