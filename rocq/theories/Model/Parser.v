(** The argument parser: src/utility/parser.cpp, include/BSMPT/utility/parser.h. *)
From Verif.Model Require Import Base Strings Logger.

(** mRequiredArguments / mOptionalArguments, parser.h 175-176: maps from the
    lower-cased name to Options.  Only Options::value is kept (description and
    default text only influence the help output). *)
Definition table := list (str * option str).

Fixpoint t_find (k : str) (t : table) : option (option str) :=
  match t with
  | [] => None
  | (k', v) :: t' => if str_eqb k k' then Some v else t_find k t'
  end.

(** unordered_map::emplace: no effect if the key exists. *)
Definition t_emplace (k : str) (t : table) : table :=
  match t_find k t with Some _ => t | None => t ++ [(k, None)] end.

(** pos->second.value = v *)
Fixpoint t_set (k : str) (v : str) (t : table) : table :=
  match t with
  | [] => []
  | (k', w) :: t' => if str_eqb k k' then (k', Some v) :: t' else (k', w) :: t_set k v t'
  end.

Record parser := { required : table; optional : table; help_printed : bool }.
Definition empty_parser : parser :=
  {| required := []; optional := []; help_printed := false |}.

(** parser::add_argument (three overloads), src/utility/parser.cpp 124-185. *)
Definition add_argument (p : parser) (argument : str) (req : bool) : parser :=
  let arg := to_lower argument in
  if req then {| required := t_emplace arg (required p); optional := optional p;
                 help_printed := help_printed p |}
  else {| required := required p; optional := t_emplace arg (optional p);
          help_printed := help_printed p |}.

(** arguments registered by the constructors, src/utility/parser.cpp 30-93. *)
Definition default_ctor_arguments : list str :=
  map s2l ["logginglevel::default"; "logginglevel::debug"; "logginglevel::disabled";
           "logginglevel::ewbgdetailed"; "logginglevel::progdetailed";
           "logginglevel::minimizerdetailed"; "json"]%string.
Definition column_ctor_arguments : list str :=
  map s2l ["logginglevel::default"; "logginglevel::debug"; "logginglevel::disabled";
           "logginglevel::ewbgdetailed"; "logginglevel::progdetailed";
           "logginglevel::minimizerdetailed"; "logginglevel::transitiondetailed";
           "logginglevel::mintracerdetailed"; "logginglevel::bouncedetailed";
           "logginglevel::gwdetailed"; "logginglevel::complete"]%string.

(** parser::get_value_as_string, src/utility/parser.cpp 333-363. *)
Definition get_value (p : parser) (argument : str) : outcome str :=
  let arg := to_lower argument in
  match t_find arg (required p) with
  | Some (Some v) => Ok v
  | Some None => Throw ParserException
  | None =>
      match t_find arg (optional p) with
      | Some (Some v) => Ok v
      | _ => Throw ParserException
      end
  end.

(** get_value seen by SetLogger, which catches parserException *)
Definition get_opt (p : parser) (k : str) : option str :=
  match get_value p k with Ok v => Some v | _ => None end.

Definition help_key : str := s2l "help".

(** one iteration of add_input(const std::vector<KeyValue>&), parser.cpp 399-423. *)
Definition add_one (p : parser) (kv : str * str) : outcome parser :=
  let argument := to_lower (fst kv) in
  if str_eqb argument help_key then
    Ok {| required := required p; optional := optional p; help_printed := true |}
  else match t_find argument (required p) with
       | Some _ => Ok {| required := t_set argument (snd kv) (required p);
                         optional := optional p; help_printed := help_printed p |}
       | None =>
           match t_find argument (optional p) with
           | Some _ => Ok {| required := required p;
                             optional := t_set argument (snd kv) (optional p);
                             help_printed := help_printed p |}
           | None => Throw ParserException
           end
       end.

(** add_input(const std::vector<KeyValue>&), parser.cpp 394-425.  The result
    carries the parser and logger as they are left even when an exception is
    thrown; SetLogger runs only after the whole loop. *)
Fixpoint add_kvs (p : parser) (lg : setup) (input : list (str * str))
  : parser * setup * outcome unit :=
  match input with
  | [] => (p, set_logger_parser (get_opt p) lg, Ok tt)
  | kv :: rest =>
      match add_one p kv with
      | Ok p' => add_kvs p' lg rest
      | Throw e => (p, lg, Throw e)
      | UB => (p, lg, UB)
      | OutOfFuel => (p, lg, OutOfFuel)
      end
  end.

Fixpoint split_all (input : list str) : outcome (list (str * str)) :=
  match input with
  | [] => Ok []
  | a :: r => bind (get_key_value a) (fun kv => bind (split_all r) (fun l => Ok (kv :: l)))
  end.

(** add_json_input, parser.cpp 365-388: [file] is the parsed json object (its
    string members in iteration order), [None] if it cannot be opened; keys
    ending in "_comment" are skipped.  json syntax errors and non-string members
    are not modelled. *)
Definition add_json (file : option (list (str * str))) (p : parser) (lg : setup)
  : parser * setup * outcome unit :=
  match file with
  | None => (p, lg, Throw ParserException)
  | Some kvs =>
      add_kvs p lg (filter (fun kv => negb (StringEndsWith (fst kv) (s2l "_comment"))) kvs)
  end.

Definition add_strings_general (p : parser) (lg : setup) (input : list str) :=
  match split_all input with
  | Ok kvs => add_kvs p lg kvs
  | Throw e => (p, lg, Throw e)
  | UB => (p, lg, UB)
  | OutOfFuel => (p, lg, OutOfFuel)
  end.

(** add_input(const std::vector<std::string>&), parser.cpp 195-224; [json] gives
    the content of a file name (build with nlohmann_json). *)
Definition add_strings (json : str -> option (list (str * str)))
  (p : parser) (lg : setup) (input : list str) : parser * setup * outcome unit :=
  match input with
  | [arg] =>
      match get_key_value arg with
      | Ok (argument, value) =>
          if str_eqb argument help_key then
            ({| required := required p; optional := optional p; help_printed := true |}, lg, Ok tt)
          else if str_eqb argument (s2l "json") then add_json (json value) p lg
          else add_strings_general p lg input
      | Throw e => (p, lg, Throw e)
      | UB => (p, lg, UB)
      | OutOfFuel => (p, lg, OutOfFuel)
      end
  | _ => add_strings_general p lg input
  end.

(** all_required_set, parser.cpp 226-239. *)
Definition all_required_set (p : parser) : bool :=
  forallb (fun kv => match snd kv with Some _ => true | None => false end) (required p).

(** check_required_parameters, parser.cpp 241-248. *)
Definition check_required_parameters (p : parser) : outcome unit :=
  if all_required_set p then Ok tt else Throw ParserException.

(** get_value<bool>, include/BSMPT/utility/parser.h 126-130. *)
Definition get_value_bool (p : parser) (argument : str) : outcome bool :=
  bind (get_value p argument) (fun v => Ok (str_eqb (to_lower v) true_text)).

(** A client history: arguments are declared with add_argument and values are
    supplied with add_input; the run is accepted when no call throws.  This is
    the driver used to state properties over all call histories; it has no
    counterpart in the code. *)
Inductive call := CDeclare (name : str) (req : bool) | CSupply (kvs : list (str * str)).
Fixpoint run_calls (h : list call) (p : parser) (lg : setup) : option (parser * setup) :=
  match h with
  | [] => Some (p, lg)
  | CDeclare n r :: h' => run_calls h' (add_argument p n r) lg
  | CSupply kvs :: h' =>
      match add_kvs p lg kvs with
      | (p', lg', Ok _) => run_calls h' p' lg'
      | _ => None
      end
  end.
