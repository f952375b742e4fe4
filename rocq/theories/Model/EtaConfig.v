(** The interface to the baryogenesis calculation: configuration file, legend,
    setup and the list of results.

    Simplifications: the configuration file is given as the list of its lines;
    numbers are exact reals.  What GSL_integration_mubl::init prepares is a
    record [wall]; its parts that are not modelled elsewhere (splines, masses,
    fluid coefficients, result of the Fromme-Huber equations) are arbitrary. *)
From Coq Require Import Reals.
From Verif.Model Require Import Base Strings Fluid Eta Density.
Open Scope list_scope.

(** isspace in the "C" locale, as used by operator>> for strings *)
Definition is_space (c : ascii) : bool :=
  let n := N_of_ascii c in ((n =? 32) || ((9 <=? n) && (n <=? 13)))%N.

(** while (ss >> tmp) words.push_back(tmp)
    src/baryo_calculation/CalculateEtaInterface.cpp 47-51, 69-73 *)
Definition flush (cur : str) (ws : list str) : list str := match cur with [] => ws | _ => cur :: ws end.
Fixpoint words_from (s cur : str) : list str :=
  match s with
  | [] => flush cur []
  | c :: s => if is_space c then flush cur (words_from s []) else words_from s (cur ++ [c])
  end.
Definition words (s : str) : list str := words_from s [].

(** boost::starts_with *)
Definition starts_with (s p : str) : bool := str_eqb (firstn (length p) s) p.

(** the second word has to be yes or no; CalculateEtaInterface.cpp 52-64, 74-85 *)
Definition yes_or_no (ws : list str) : outcome bool :=
  if Nat.ltb (length ws) 2 then Throw RuntimeError
  else let w := nth 1 ws [] in
       if negb (str_eqb w (s2l "yes")) && negb (str_eqb w (s2l "no")) then Throw RuntimeError
       else Ok (str_eqb w (s2l "yes")).

(** CalculateEtaInterface.cpp 41-87: one line of the file *)
Definition config_line (st : list bool * Z) (line : str) : outcome (list bool * Z) :=
  if starts_with line (s2l "#") || str_eqb line [] then Ok st
  else
    let l := to_lower line in
    bind (if starts_with l (s2l "include")
          then bind (yes_or_no (words l)) (fun b => Ok (fst st ++ [b], snd st)) else Ok st) (fun st =>
    if starts_with l (s2l "massive")
    then bind (yes_or_no (words l)) (fun b => Ok (fst st, if b then 1%Z else snd st)) else Ok st).
Fixpoint config_lines (st : list bool * Z) (lines : list str) : outcome (list bool * Z) :=
  match lines with
  | [] => Ok st
  | l :: lines => bind (config_line st l) (fun st => config_lines st lines)
  end.
(** CalculateEtaInterface.cpp 27-95; [None] = the file cannot be opened *)
Definition ReadConfigFile (file : option (list str)) : outcome (list bool * Z) :=
  match file with
  | None => Throw RuntimeError
  | Some lines => config_lines ([], 0%Z) lines
  end.

(** What init prepares for the calculation. *)
Record wall := Wall {
  wl_zmax : R; wl_zs : list R;            (* getZMAX, grid positions (gen_calc.cpp 39-44) *)
  wl_spline : list R -> R -> R;           (* Boost's cubic spline *)
  wl_fuel : nat; wl_tb : tableau; wl_ctl : control;   (* integrate_adaptive *)
  wl_fluid : fluid; wl_point : R -> wall_point;
  wl_mubl : bool -> outcome R             (* Integrate_mubl_interpolated *)
}.

(** The members of CalculateEtaInterface. *)
Record interface := Interface { i_methods : list bool; i_flag : Z; i_vw : R; i_TC : R; i_wall : wall }.

(** CalculateEtaInterface.cpp 103-122; vw, TC and the container start with the
    initialisers of the header, here arguments *)
Definition construct (vw0 TC0 : R) (wall0 : wall) (config : list bool * Z) : outcome interface :=
  if Nat.eqb (length (fst config)) 5 then Ok (Interface (fst config) (snd config) vw0 TC0 wall0) else Throw RuntimeError.

(** std::vector<bool>::at *)
Definition method_at (i : interface) (k : nat) : outcome bool :=
  match nth_error (i_methods i) k with Some b => Ok b | None => Throw OutOfRange end.

(** CalculateEtaInterface.cpp 155-167 *)
Definition push_if {A} (i : interface) (k : nat) (value : outcome A) (rest : outcome (list A)) : outcome (list A) :=
  bind (method_at i k) (fun b =>
    if b then bind value (fun v => bind rest (fun vs => Ok (v :: vs))) else rest).
Definition legend (i : interface) : outcome (list str) :=
  push_if i 0 (Ok (s2l "eta_TopOnly")) (push_if i 1 (Ok (s2l "eta_TopBot")) (push_if i 2 (Ok (s2l "eta_TopBotTau"))
  (push_if i 3 (Ok (s2l "eta_PlasmaVelocities")) (push_if i 4 (Ok (s2l "eta_PlasmaVelocitiesReplaced")) (Ok []))))).

(** CalculateEtaInterface.cpp 169-212; [prepare] is GSL_integration_mubl::init,
    [is_C2HDM] the test in 202.  The members are written before the test, so
    the second component is the object after the call in every case. *)
Definition setNumerics (prepare : R -> R -> outcome wall) (is_C2HDM : bool) (vw TC : R) (i : interface)
  : outcome unit * interface :=
  let i' := Interface (i_methods i) (i_flag i) vw TC (i_wall i) in
  if is_C2HDM then
    match prepare vw TC with
    | Ok w => (Ok tt, Interface (i_methods i) (i_flag i) vw TC w)
    | Throw e => (Throw e, i')
    | UB => (UB, i')
    | OutOfFuel => (OutOfFuel, i')
    end
  else (Throw RuntimeError, i').

(** One of the three networks: set_up_nL_grid, Calc_eta and Nintegrate_eta;
    tau_mass_flag is 1 (include/BSMPT/baryo_calculation/Fluid_Type/
    gen_func_fluid.h 324) *)
Definition network_eta (i : interface) (net : network) : outcome R :=
  let w := i_wall i in
  asymmetry (wl_spline w) (i_TC i) (i_vw i) (wl_zmax w) (wl_zs w)
    (Calc_nL (wl_fuel w) (wl_tb w) (wl_ctl w) net (wl_fluid w) (i_flag i) 1 (wl_point w) (wl_zmax w)).

(** CalculateEtaInterface.cpp 257-314 *)
Definition CalcEta (i : interface) : outcome (list R) :=
  push_if i 0 (network_eta i top) (push_if i 1 (network_eta i bottom) (push_if i 2 (network_eta i tau)
  (push_if i 3 (wl_mubl (i_wall i) true) (push_if i 4 (wl_mubl (i_wall i) false) (Ok []))))).
