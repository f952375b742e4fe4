(** Options of the two transition programs: CLIOptions and convert_input of src/prog/CalcTemps.cpp and src/prog/CalcGW.cpp. *)
From Coq Require Import QArith.
From Verif.Model Require Import Base Strings Models Minim.
Local Open Scope Z_scope.

Inductive program := CalcTemps | CalcGW.

(** a double as std::stod returns it *)
Inductive dnum := Num (q : Q) | Inf | MInf | Nan.
Definition dle (a b : dnum) : bool :=
  match a, b with
  | Nan, _ | _, Nan => false
  | MInf, _ | _, Inf => true
  | Inf, _ | _, MInf => false
  | Num p, Num q => Qle_bool p q
  end.
Definition dlt (a b : dnum) : bool :=
  match a, b with
  | Nan, _ | _, Nan => false
  | _, MInf | Inf, _ => false
  | MInf, _ | _, Inf => true
  | Num p, Num q => Qle_bool p q && negb (Qeq_bool p q)
  end.
Definition deq (a b : dnum) : bool :=
  match a, b with Num p, Num q => Qeq_bool p q | Inf, Inf | MInf, MInf => true | _, _ => false end.
Definition dz (z : Z) : dnum := Num (inject_Z z).

(** struct CLIOptions, CalcTemps.cpp 30-52 and CalcGW.cpp 30-54; file names are left out *)
Record options := mkOptions {
  Model : model_id; firstline : Z; lastline : Z; templow : dnum; temphigh : dnum; vwall : dnum; epsturb : dnum;
  UseGSL : bool; UseCMAES : bool; UseNLopt : bool; MultiStepMode : Z; CheckEWSR : Z; perc_prbl : dnum; compl_prbl : dnum;
  num_check_pts : Z; CheckNLO : Z; WhichTransTemp : Z; UseThreads : bool; MaxPathIntegrations : Z }.

(** what the library was built with: UseGSLDefault, UseLibCMAESDefault, UseNLoptDefault (Minimizer.h 36-58) *)
Record build := mkBuild { haveGSL : bool; haveCMAES : bool; haveNLopt : bool }.

Section Read.
  (** the parser (get_value_as_string; None is parserException) and the two conversions (None is std::invalid_argument or
      std::out_of_range, here InvalidArgument) *)
  Variable get : str -> option str.
  Variable stoi : str -> option Z.
  Variable stod : str -> option dnum.

  (** try { x = get_value<..>(name) } catch (parserException) { keep the default } *)
  Definition opt {A} (name : string) (default : A) (conv : str -> outcome A) : outcome A :=
    match get (s2l name) with None => Ok default | Some v => conv v end.
  Definition req {A} (name : string) (conv : str -> outcome A) : outcome A :=
    match get (s2l name) with None => Throw ParserException | Some v => conv v end.
  Definition as_int (v : str) : outcome Z := match stoi v with Some z => Ok z | None => Throw InvalidArgument end.
  Definition as_double (v : str) : outcome dnum := match stod v with Some d => Ok d | None => Throw InvalidArgument end.
  Definition is (v : str) (s : string) : bool := str_eqb v (s2l s).
  (** CalcTemps.cpp 498-523, CalcGW.cpp 551-576 *)
  Definition read_ewsr (v : str) : outcome Z :=
    Ok (if is v "on" then 1 else if is v "off" then 0 else if is v "keep_bfb" then 2 else if is v "keep_ewsr" then 3 else 1).
  (** CalcTemps.cpp 480-495, CalcGW.cpp 533-548 *)
  Definition read_nlo (v : str) : outcome Z := Ok (if is v "on" then 1 else if is v "off" then 0 else 1).
  (** CalcGW.cpp 493-516 *)
  Definition read_trans (v : str) : outcome Z :=
    Ok (if is v "nucl_approx" then 1 else if is v "nucl" then 2 else if is v "perc" then 3 else if is v "compl" then 4 else 3).
  (** CalcTemps.cpp 422-441, CalcGW.cpp 435-454 *)
  Definition read_mode (v : str) : outcome Z := if is v "default" then Ok (-1) else if is v "auto" then Ok 3 else as_int v.

  (** check_required_parameters (parser.cpp 241-248) for the options declared as required, CalcTemps.cpp 540-548, CalcGW.cpp 610-618 *)
  Definition required_names : list string := ["model"; "input"; "output"; "firstline"; "lastline"]%string.
  Definition check_required : outcome unit :=
    if forallb (fun n => match get (s2l n) with Some _ => true | None => false end) required_names then Ok tt else Throw ParserException.
  (** CLIOptions::CLIOptions, CalcTemps.cpp 367-534 and CalcGW.cpp 392-604; names is ModelNames *)
  Definition read_options (p : program) (b : build) (names : list (str * model_id)) : outcome options :=
    bind check_required (fun _ =>
    bind (req "model" (fun v => Ok (getModel names v))) (fun model =>
    bind (req "input" (fun v => Ok v)) (fun _ =>
    bind (req "output" (fun v => Ok v)) (fun _ =>
    bind (req "firstline" as_int) (fun fl =>
    bind (req "lastline" as_int) (fun ll =>
    bind (opt "thigh" (dz 300) as_double) (fun th =>
    bind (opt "usegsl" (haveGSL b) (fun v => Ok (is v "true"))) (fun gsl =>
    bind (opt "usecmaes" (haveCMAES b) (fun v => Ok (is v "true"))) (fun cmaes =>
    bind (opt "usenlopt" (haveNLopt b) (fun v => Ok (is v "true"))) (fun nlopt =>
    bind (opt "usemultithreading" false (fun v => Ok (is v "true"))) (fun threads =>
    bind (opt "multistepmode" (-1) read_mode) (fun mode =>
    bind (opt "num_pts" 10 as_int) (fun pts =>
    bind (opt "vwall" (Num (95 # 100)) as_double) (fun vw =>
    bind (opt "perc_prbl" (Num (71 # 100)) as_double) (fun pp =>
    bind (opt "compl_prbl" (Num (1 # 100)) as_double) (fun cp =>
    bind (match p with CalcTemps => Ok 3 | CalcGW => opt "trans_temp" 3 read_trans end) (fun tt =>
    bind (match p with CalcTemps => Ok (Num (1 # 10)) | CalcGW => opt "epsturb" (Num (1 # 10)) as_double end) (fun eps =>
    bind (opt "checknlo" 1 read_nlo) (fun nlo =>
    bind (opt "checkewsr" 1 read_ewsr) (fun ewsr =>
    bind (opt "maxpathintegrations" 7 as_int) (fun maxpath =>
    Ok (mkOptions model fl ll (dz 0) th vw eps gsl cmaes nlopt mode ewsr pp cp pts nlo tt threads maxpath)))))))))))))))))))))).
End Read.

(** the checks common to both programs: CalcTemps.cpp 270-298, CalcGW.cpp 290-316 (outer None: no verdict yet) *)
Definition minimizer_check (b : build) (o : options) : outcome unit :=
  if UseGSL o && negb (haveGSL b) then Throw RuntimeError
  else if UseCMAES o && negb (haveCMAES b) then Throw RuntimeError
  else if UseNLopt o && negb (haveNLopt b) then Throw RuntimeError
  else if CalcWhichMinimizer (UseGSL o) (UseCMAES o) (UseNLopt o) =? 0 then Throw RuntimeError
  else Ok tt.
Definition vwall_bad (v : dnum) : bool := negb (deq v (dz (-1))) && negb (deq v (dz (-2))) && (dle v (dz 0) || dlt (dz 1) v).
Definition outside01 (v : dnum) : bool := dlt v (dz 0) || dlt (dz 1) v.
(** CLIOptions::good, CalcTemps.cpp 268-365 and CalcGW.cpp 288-390; the last test of CalcGW (384-388) has no return *)
Definition good (p : program) (b : build) (o : options) : outcome bool :=
  bind (minimizer_check b o) (fun _ => Ok (
    if model_eqb (Model o) NotSet then false
    else if (firstline o =? 0) || (lastline o =? 0) then false
    else if match p with CalcTemps => (firstline o <? 0) || (lastline o <? 0) | CalcGW => false end then false
    else if lastline o <? firstline o then false
    else if match p with CalcTemps => dle (temphigh o) (templow o) | CalcGW => dlt (temphigh o) (templow o) end then false
    else if match p with CalcTemps => false | CalcGW => negb (deq (epsturb o) (dz (-1))) && outside01 (epsturb o) end then false
    else if vwall_bad (vwall o) then false
    else if (3 <? MultiStepMode o) || (MultiStepMode o <? -1) then false
    else if num_check_pts o <? 0 then false
    else if (match p with CalcTemps => 2 | CalcGW => 3 end <? CheckEWSR o) || (CheckEWSR o <? 0) then false
    else if (CheckNLO o <? 0) || (1 <? CheckNLO o) then false
    else if outside01 (perc_prbl o) then false
    else if outside01 (compl_prbl o) then false
    else true)).

(** convert_input, CalcTemps.cpp 623-662, CalcGW.cpp 692-731; argv without the program name *)
Definition convert_input (argv : list str) : list str :=
  match argv with
  | [] => []
  | a :: _ =>
      if StringStartsWith a (s2l "--") || StringStartsWith a (s2l "-") then argv
      else map (fun '(k, v) => s2l k ++ v)
             (combine ["--model="; "--input="; "--output="; "--firstline="; "--lastline="]%string argv)
  end.
