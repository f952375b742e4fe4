(** Documented option values of CalcTemps and CalcGW (help texts in prepare_parser). *)
From Coq Require Import QArith.
From Verif.Model Require Import Base Models Options.
Local Open Scope Z_scope.

(** the minimisers asked for exist in this build and there is at least one *)
Definition minimizers_ok (b : build) (o : options) : Prop :=
  (UseGSL o = true -> haveGSL b = true) /\ (UseCMAES o = true -> haveCMAES b = true) /\ (UseNLopt o = true -> haveNLopt b = true) /\
  (UseGSL o = true \/ UseCMAES o = true \/ UseNLopt o = true).

Definition unit_interval (d : dnum) : Prop := exists q, d = Num q /\ (0 <= q /\ q <= 1)%Q.
Definition wall_velocity (d : dnum) : Prop := exists q, d = Num q /\ (q == -1 \/ q == -2 \/ (0 < q /\ q <= 1))%Q.
Definition efficiency (d : dnum) : Prop := exists q, d = Num q /\ (q == -1 \/ (0 <= q /\ q <= 1))%Q.
(** lines are counted from one *)
Definition line_range (o : options) : Prop := 1 <= firstline o <= lastline o.
(** the search interval for temperatures, in which templow is fixed to zero, is not empty *)
Definition temperatures (o : options) : Prop := templow o = dz 0 /\ exists t, temphigh o = Num t /\ (0 < t)%Q.

Definition other_options (p : program) (o : options) : Prop :=
  Model o <> NotSet /\ wall_velocity (vwall o) /\ (p = CalcGW -> efficiency (epsturb o)) /\ -1 <= MultiStepMode o <= 3 /\ 0 <= num_check_pts o /\
  0 <= CheckNLO o <= 1 /\ unit_interval (perc_prbl o) /\ unit_interval (compl_prbl o).

(** documented texts of --checkewsr and the number each stands for *)
Definition ewsr_texts : list (str * Z) := [(s2l "on", 1); (s2l "off", 0); (s2l "keep_bfb", 2); (s2l "keep_ewsr", 3)].

(** positional arguments, in order *)
Definition positional : list str := [s2l "model"; s2l "input"; s2l "output"; s2l "firstline"; s2l "lastline"].
Definition dashed (a : str) : Prop := exists r, a = "-"%char :: r.

(** ** C90 *)
Definition truth (b : bool) : string := if b then "true" else "false".
(** the default texts shown by --help (third argument of add_argument in prepare_parser) *)
Definition documented_defaults (p : program) (b : build) : list (string * string) :=
  [("thigh", "300"); ("multistepmode", "default"); ("num_pts", "10"); ("vwall", "0.95"); ("perc_prbl", "0.71"); ("compl_prbl", "0.01");
   ("checknlo", "on"); ("checkewsr", "on"); ("maxpathintegrations", "7"); ("usegsl", truth (haveGSL b)); ("usecmaes", truth (haveCMAES b));
   ("usenlopt", truth (haveNLopt b)); ("usemultithreading", "false")]%string ++
  match p with CalcTemps => [] | CalcGW => [("trans_temp", "perc"); ("epsturb", "0.1")]%string end.
(** the conversions read the numbers among these texts *)
Definition reads_numbers (stoi : str -> option Z) (stod : str -> option dnum) : Prop :=
  stod (s2l "300") = Some (dz 300) /\ stod (s2l "0.95") = Some (Num (95 # 100)) /\ stod (s2l "0.71") = Some (Num (71 # 100)) /\
  stod (s2l "0.01") = Some (Num (1 # 100)) /\ stod (s2l "0.1") = Some (Num (1 # 10)) /\ stoi (s2l "10") = Some 10 /\ stoi (s2l "7") = Some 7.
(** the same command line with one more option *)
Definition with_option (get : str -> option str) (k v : str) : str -> option str := fun x => if str_eqb x k then Some v else get x.

(** the documented texts of the options with a choice of words *)
Definition nlo_texts : list (str * Z) := [(s2l "on", 1); (s2l "off", 0)].
Definition trans_texts : list (str * Z) := [(s2l "nucl_approx", 1); (s2l "nucl", 2); (s2l "perc", 3); (s2l "compl", 4)].
Definition mode_texts : list (str * Z) := [(s2l "default", -1); (s2l "auto", 3)].
Definition switch_texts : list (str * bool) := [(s2l "true", true); (s2l "false", false)].
Definition documented {A} (texts : list (str * A)) (given : option str) (a : A) : Prop :=
  forall t c, given = Some t -> In (t, c) texts -> a = c.
(** a number given on the command line is the number used *)
Definition number {A} (conv : str -> option A) (given : option str) (a : A) : Prop := forall t, given = Some t -> conv t = Some a.
