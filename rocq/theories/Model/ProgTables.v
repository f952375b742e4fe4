(** Model of the tables written by src/prog/BSMPT.cpp, CalculateEWBG.cpp, CalcCT.cpp and NLOVEV.cpp: which lines of the input file give
    rows, what the columns of the header name, and what the rows hold.  Numbers are rationals, as in Model/Minim.v. *)
From Coq Require Import QArith List ZArith Ascii Arith Bool.
From Verif Require Import Model.Minim Model.PotPlotter.
Import ListNotations.
Local Open Scope Z_scope.

(** what the label of a column names: a column of the input, a counterterm (addLegendCT), the entries of addLegendTemp (critical
    temperature, critical vev, their ratio, the vevs), the vevs at zero temperature (addLegendVEV), v_NLO, and the columns of
    CalculateEWBG.cpp 108-116; [QNothing] is the column without a name that an empty legend leaves after a separator *)
Inductive quantity := QInput (i : nat) | QCT (i : nat) | QTc | QVc | QXi | QVev (i : nat) | QVevZero (i : nat) | QVNLO
  | QVw | QLW | QPhase (i : nat) | QEta (i : nat) | QNothing.
(** what is written in a column: a number (None is NaN or an infinity) or nothing *)
Inductive cell := Val (x : option Q) | Nothing.

(** sep << v for a vector v, include/BSMPT/utility/utility.h 97-113: an empty vector leaves an empty column *)
Definition put (v : list Q) : list cell := match v with [] => [Nothing] | _ => map (fun x => Val (Some x)) v end.
(** the columns of linestr, as numbers *)
Definition line_cells (v : list Q) : list cell := map (fun x => Val (Some x)) v.
(** EWPT.vc / EWPT.Tc *)
Definition ratio (e : ewpt) : option Q := if Qeq_bool (e_Tc e) 0 then None else Some (e_vc e / e_Tc e)%Q.
(** static_cast<int>(StatusFlag), include/BSMPT/minimizer/Minimizer.h 116-125 *)
Definition status_code (s : mstatus) : Z :=
  match s with SUCCESS => 1 | NOTVANISHINGATFINALTEMP => -1 | NOTNLOSTABLE => -2 | NUMERICALLYUNSTABLE => -3 | BELOWTHRESHOLD => -4 | NLOVEVZEROORINF => -5 end.
Definition succeeded (e : ewpt) : bool := match e_status e with SUCCESS => true | _ => false end.
(** C_PT * EWPT.Tc < EWPT.vc and the status is SUCCESS, BSMPT.cpp 203-204, CalculateEWBG.cpp 143-144 *)
Definition strong (e : ewpt) : bool := andb (succeeded e) (negb (Qle_bool (e_vc e) (C_PT * e_Tc e)%Q)).

(** BSMPT.cpp 99-100 and 200-209 (PrintErrorLines is true); [inp] are the columns of linestr, [ct] is parameters.second *)
Definition header_BSMPT (nIn nCT nVEV : nat) : list quantity :=
  map QInput (seq 0 nIn) ++ map QCT (seq 0 nCT) ++ [QTc; QVc; QXi] ++ map QVev (seq 0 nVEV).
Definition row_BSMPT (inp ct : list Q) (e : ewpt) : list cell :=
  line_cells inp ++ put ct ++ [Val (Some (e_Tc e)); Val (Some (e_vc e));
    if strong e then Val (ratio e) else Val (Some (inject_Z (status_code (e_status e))))] ++ put (e_min e).

(** CalculateEWBG.cpp 103-117; operator<< of an empty legend writes nothing after the separator *)
Definition header_EWBG (nIn nCT nVEV nEta : nat) : list quantity :=
  map QInput (seq 0 nIn) ++ map QCT (seq 0 nCT) ++ [QTc; QVc; QXi] ++ map QVev (seq 0 nVEV) ++ [QVw; QLW] ++ map QPhase (seq 0 6) ++
  match nEta with 0%nat => [QNothing] | _ => map QEta (seq 0 nEta) end.
(** 168-184 and 186-204; LW, the phases and eta are computed only in the first case *)
Definition row_EWBG (inp ct : list Q) (e : ewpt) (vw LW : Q) (phases eta : list Q) (nEta : nat) : list cell :=
  if strong e then
    line_cells inp ++ put ct ++ [Val (Some (e_Tc e)); Val (Some (e_vc e))] ++ [Val (ratio e)] ++ put (e_min e) ++
    [Val (Some vw); Val (Some LW)] ++ line_cells phases ++ put eta
  else
    line_cells inp ++ put ct ++ [Val (Some (e_Tc e)); Val (Some (e_vc e))] ++ put (e_min e) ++ [Val (ratio e)] ++
    [Val (Some vw); Val (Some (inject_Z (-1)))] ++ repeat (Val (Some (inject_Z (-50)))) 6 ++ repeat (Val (Some (inject_Z 0))) nEta.
(** the summary of a single line, 206-232: the entries of eta that are read by at(); None is std::out_of_range, which ends the
    program with EXIT_FAILURE.  [eta] is empty (138) unless CalcEta was called. *)
Fixpoint read_at (v : list Q) (n : nat) : option (list Q) :=
  match n with 0%nat => Some [] | S m => match read_at v m, nth_error v m with Some r, Some x => Some (r ++ [x]) | _, _ => None end end.
Definition summary_EWBG (e : ewpt) (eta : list Q) (nEta : nat) : option (list Q) :=
  let eta' := if strong e then eta else [] in if succeeded e then read_at eta' nEta else Some [].

(** CalcCT.cpp 86-88 and 96 *)
Definition header_CT (nIn nCT : nat) : list quantity := map QInput (seq 0 nIn) ++ map QCT (seq 0 nCT).
Definition row_CT (inp ct : list Q) : list cell := line_cells inp ++ put ct.
(** NLOVEV.cpp 91-98 and 120-122 *)
Definition header_NLOVEV (nIn nCT nVEV : nat) : list quantity :=
  map QInput (seq 0 nIn) ++ map QCT (seq 0 nCT) ++ map QVevZero (seq 0 nVEV) ++ [QVNLO].
Definition row_NLOVEV (inp ct sol : list Q) (vev : Q) : list cell := line_cells inp ++ put ct ++ put sol ++ [Val (Some vev)].

(** while (getline(infile, linestr)) of BSMPT.cpp 93, CalcCT.cpp 80, CalculateEWBG.cpp 95: getline fails when it reads no character
    before the end of the file *)
Definition lines_getline (text : list ascii) : list (list ascii) :=
  let l := getlines [] text in match last l [] with [] => removelast l | _ => l end.
(** while (true) { getline; ...; if (infile.eof()) break; } of NLOVEV.cpp 83-134 *)
Definition lines_eof (text : list ascii) : list (list ascii) := getlines [] text.
(** the body of the loops, e.g. BSMPT.cpp 95-224: the lines used as header and as parameter points *)
Inductive use := Header (line : list ascii) | Point (line : list ascii).
Fixpoint uses (FirstLine LastLine linecounter : Z) (lines : list (list ascii)) : list use :=
  match lines with
  | [] => []
  | l :: rest =>
    if LastLine <? linecounter then []
    else (if linecounter =? 1 then [Header l] else []) ++
         (if (FirstLine <=? linecounter) && (linecounter <=? LastLine) && negb (linecounter =? 1) then [Point l] else []) ++
         uses FirstLine LastLine (linecounter + 1) rest
  end.
