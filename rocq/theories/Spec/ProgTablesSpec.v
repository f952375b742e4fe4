(** What is expected of the tables. *)
From Coq Require Import QArith List ZArith.
From Verif Require Import Model.Minim Model.ProgTables.
Import ListNotations.

(** the results for one parameter point *)
Record results := { r_in : list Q; r_ct : list Q; r_Tc : Q; r_vc : Q; r_xi : option Q; r_vev : list Q; r_vev0 : list Q; r_vNLO : Q;
  r_vw : Q; r_LW : Q; r_phases : list Q; r_eta : list Q }.
(** the content of a column with a given label *)
Definition content (r : results) (q : quantity) : cell :=
  match q with
  | QInput i => Val (nth_error (r_in r) i)
  | QCT i => Val (nth_error (r_ct r) i)
  | QTc => Val (Some (r_Tc r))
  | QVc => Val (Some (r_vc r))
  | QXi => Val (r_xi r)
  | QVev i => Val (nth_error (r_vev r) i)
  | QVevZero i => Val (nth_error (r_vev0 r) i)
  | QVNLO => Val (Some (r_vNLO r))
  | QVw => Val (Some (r_vw r))
  | QLW => Val (Some (r_LW r))
  | QPhase i => Val (nth_error (r_phases r) i)
  | QEta i => Val (nth_error (r_eta r) i)
  | QNothing => Nothing
  end.
(** the critical values with a ratio *)
Definition with_ewpt (e : ewpt) (xi : option Q) (r : results) : Prop :=
  r_Tc r = e_Tc e /\ r_vc r = e_vc e /\ r_vev r = e_min e /\ r_xi r = xi.
(** the number that stands for a status in the documentation *)
Definition status_number (s : mstatus) : Z :=
  match s with
  | SUCCESS => 1
  | NOTVANISHINGATFINALTEMP => -1
  | NOTNLOSTABLE => -2
  | NUMERICALLYUNSTABLE => -3
  | BELOWTHRESHOLD => -4
  | NLOVEVZEROORINF => -5
  end.
