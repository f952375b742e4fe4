(** Model of the programs that scan a temperature or a wall velocity: src/prog/VEVEVO.cpp and src/prog/PlotEWBG_vw.cpp, and the
    lines that PlotEWBG_vw.cpp and PlotEWBG_nL.cpp write.  The numbers of the scans are a type with addition and comparisons; it
    is used with real numbers (exact arithmetic) and with the doubles of the standard library (SpecFloat). *)
From Coq Require Import Reals List ZArith Ascii String SpecFloat.
Import ListNotations.

(** double: addition rounded to nearest, <= and == *)
Definition double := spec_float.
Definition dadd (x y : double) : double := SFadd 53 1024 x y.
Definition dleb (x y : double) : bool := SFleb x y.
Definition deqb (x y : double) : bool := SFeqb x y.
Definition dltb (x y : double) : bool := SFltb x y.
(** the same for real numbers *)
Definition rleb (x y : R) : bool := if Rle_dec x y then true else false.
Definition reqb (x y : R) : bool := if Req_EM_T x y then true else false.
Definition rltb (x y : R) : bool := if Rlt_dec x y then true else false.

Section Scan.
  Variable num : Type.
  Variable add : num -> num -> num.
  Variable leb eqb : num -> num -> bool.
  (** a point, and what is written for it: EWSBVEV and VEff with MinimizeOrderVEV inside *)
  Variable vec value : Type.
  Variable no_solution : vec.
  Variable EWSBVEV : vec -> value.
  Variable VEff : vec -> num -> value.
  (** Minimize_gen_all: the result may depend on the number of the call (random starting points), the temperature and the start *)
  Variable Minimize : nat -> num -> vec -> vec.
  Variable vevTreeMin : vec.

  (** one line of the output, VEVEVO.cpp 142-146; [row_start] is the starting point given to the minimizer and is not written *)
  Record row := { row_T : num; row_v : value; row_sol : vec; row_V : value; row_start : vec }.
  (** the loop of VEVEVO.cpp 118-147 with the lines written and whether the loop has been left after [fuel] tests of its condition *)
  Fixpoint scan (fuel k : nat) (Start End Step Temp : num) (sol : vec) : list row * bool :=
    match fuel with
    | 0 => ([], false)
    | S fuel' =>
      if leb Temp End then
        let start := if eqb Temp Start then vevTreeMin else sol in
        let s := Minimize k Temp start in
        let rest := scan fuel' (S k) Start End Step (add Temp Step) s in
        ({| row_T := Temp; row_v := EWSBVEV s; row_sol := s; row_V := VEff s Temp; row_start := start |} :: fst rest, snd rest)
      else ([], true)
    end.
  Definition VEVEVO (fuel : nat) (Start End Step : num) : list row * bool := scan fuel 0 Start End Step Start no_solution.

  (** the loop of PlotEWBG_vw.cpp 154-168: the velocities and the results of CalcEta *)
  Variable CalcEta : num -> value.
  Fixpoint scan_vw (fuel : nat) (vw vw_max vw_Stepsize : num) : list (num * value) * bool :=
    match fuel with
    | 0 => ([], false)
    | S fuel' =>
      if leb vw vw_max then
        let rest := scan_vw fuel' (add vw vw_Stepsize) vw_max vw_Stepsize in ((vw, CalcEta vw) :: fst rest, snd rest)
      else ([], true)
    end.
End Scan.
Arguments row_T {num vec value}. Arguments row_v {num vec value}. Arguments row_sol {num vec value}.
Arguments row_V {num vec value}. Arguments row_start {num vec value}.

(** CLIOptions::good of VEVEVO.cpp 162-208, the conditions on the temperatures (184-197); [lt] and [le] are < and <= *)
Definition good_T {num} (lt le : num -> num -> bool) (zero Start End Step : num) : bool :=
  andb (negb (le Step zero)) (andb (negb (lt Start zero)) (negb (lt End Start))).
(** CLIOptions::good of PlotEWBG_vw.cpp 243-293, the conditions on the velocities (265-278) *)
Definition good_vw {num} (lt le eq : num -> num -> bool) (zero one vw_min vw_max vw_Stepsize : num) : bool :=
  andb (negb (orb (orb (le vw_min zero) (lt one vw_min)) (orb (le vw_max zero) (lt one vw_max))))
    (andb (negb (eq vw_Stepsize zero)) (negb (lt vw_max vw_min))).

(** the header of PlotEWBG_vw.cpp 94-99 and of PlotEWBG_nL.cpp 98-103, and the line without a phase transition (170-173; 207-210):
    sep is a tabulator, and an int is written by operator<< as its digits *)
Definition text (s : string) : list ascii := list_ascii_of_string s.
Definition sep : list ascii := [ascii_of_nat 9].
Definition header_vw (linestr : list ascii) (legend : list (list ascii)) : list ascii :=
  linestr ++ sep ++ text "T_c_var" ++ sep ++ text "omega_c_var" ++ sep ++ text "vw_var" ++ sep ++ text "LW_var" ++
  flat_map (fun x => sep ++ x ++ text "_var") legend.
Definition header_nL (linestr : list ascii) : list ascii :=
  linestr ++ sep ++ text "T_c_nLvar" ++ sep ++ text "omega_c_nLvar" ++ sep ++ text "vw_nLvar" ++ sep ++ text "LW_nLvar" ++ sep ++
  text "z" ++ sep ++ text "z/LW" ++ sep ++ text "nL_VIA" ++ sep ++ text "muL_FH" ++ sep ++ text "nL_FH".
Definition no_transition : list ascii := text "-1" ++ text "-1" ++ text "-1" ++ text "-1" ++ text "-1".
(** a row of PlotEWBG_vw.cpp 163-167, the numbers as texts *)
Definition row_vw (linestr TC vc vw LW : list ascii) (eta : list (list ascii)) : list ascii :=
  linestr ++ sep ++ TC ++ sep ++ vc ++ sep ++ vw ++ sep ++ LW ++ flat_map (fun x => sep ++ x) eta.
