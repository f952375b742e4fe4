(** The logger: include/BSMPT/utility/Logger.h and src/utility/Logger.cpp. *)
From Verif.Model Require Import Base Strings.

(** enum class LoggingLevel, include/BSMPT/utility/Logger.h 27-40. *)
Inductive level :=
| LNone | LDefault | LMinimizerDetailed | LMinTracerDetailed | LTransitionDetailed
| LGWDetailed | LBounceDetailed | LProgDetailed | LEWBGDetailed | LDebug | LComplete.

Definition level_eqb (a b : level) : bool :=
  match a, b with
  | LNone, LNone | LDefault, LDefault | LMinimizerDetailed, LMinimizerDetailed
  | LMinTracerDetailed, LMinTracerDetailed | LTransitionDetailed, LTransitionDetailed
  | LGWDetailed, LGWDetailed | LBounceDetailed, LBounceDetailed
  | LProgDetailed, LProgDetailed | LEWBGDetailed, LEWBGDetailed
  | LDebug, LDebug | LComplete, LComplete => true
  | _, _ => false
  end.

(** mCurrentSetup, a std::map<LoggingLevel,bool>: [None] = key absent. *)
Definition setup := level -> option bool.

(** initial mCurrentSetup, include/BSMPT/utility/Logger.h 91-100. *)
Definition initial_setup : setup := fun l =>
  match l with
  | LDefault => Some true
  | LNone | LComplete => None
  | _ => Some false
  end.

(** map assignment mCurrentSetup[level] = enable, src/utility/Logger.cpp 140-143. *)
Definition set_level (s : setup) (l : level) (b : bool) : setup :=
  fun k => if level_eqb k l then Some b else s k.

(** SetLevel(const std::map<LoggingLevel,bool>&), src/utility/Logger.cpp 124-138;
    the map argument is a list of distinct keys in enum order. *)
Definition set_levels (s : setup) (m : list (level * bool)) : setup :=
  fold_left (fun s' kb => set_level s' (fst kb) (snd kb)) m s.

(** Disable: clear the map, src/utility/Logger.cpp 151-155. *)
Definition disable : setup := fun _ => None.

(** GetLoggingLevelStatus: operator[] inserts a default (false) entry if absent,
    include/BSMPT/utility/Logger.h 137-140. *)
Definition query (s : setup) (l : level) : setup * bool :=
  match s l with
  | Some b => (s, b)
  | None => (set_level s l false, false)
  end.

(** condition of Write, include/BSMPT/utility/Logger.h 66-83. *)
Definition writes (s : setup) (l : level) : bool :=
  match s l with Some true => true | _ => false end.

(** Operations of the static Logger interface (Logger.h 111-142). *)
Inductive log_op :=
| OpSet (l : level) (b : bool)
| OpSetMap (m : list (level * bool))
| OpDisable
| OpQuery (l : level)
| OpWrite (l : level) (msg : str).

(** State: the map and the messages written so far (newest first).  The stream
    redirection (SetOStream) and the fixed text printed by Disable are not
    modelled. *)
Definition log_step (st : setup * list (level * str)) (o : log_op) :=
  let '(s, out) := st in
  match o with
  | OpSet l b => (set_level s l b, out)
  | OpSetMap m => (set_levels s m, out)
  | OpDisable => (disable, out)
  | OpQuery l => (fst (query s l), out)
  | OpWrite l msg => (s, if writes s l then (l, msg) :: out else out)
  end.

Definition log_run (ops : list log_op) : setup * list (level * str) :=
  fold_left log_step ops (initial_setup, []).

(** LoggingPrefixes, src/utility/Logger.cpp 22-32: a std::map, hence iterated in
    alphabetical order of the prefix. *)
Definition LoggingPrefixes : list (str * level) :=
  [ (s2l "--logginglevel::bouncedetailed=", LBounceDetailed);
    (s2l "--logginglevel::complete=", LComplete);
    (s2l "--logginglevel::debug=", LDebug);
    (s2l "--logginglevel::default=", LDefault);
    (s2l "--logginglevel::ewbgdetailed=", LEWBGDetailed);
    (s2l "--logginglevel::gwdetailed=", LGWDetailed);
    (s2l "--logginglevel::minimizerdetailed=", LMinimizerDetailed);
    (s2l "--logginglevel::mintracerdetailed=", LMinTracerDetailed);
    (s2l "--logginglevel::progdetailed=", LProgDetailed);
    (s2l "--logginglevel::transitiondetailed=", LTransitionDetailed) ].

(** key computed from a prefix, src/utility/Logger.cpp 65-67. All prefixes are
    constants with two dashes and one '=', so the substr cannot throw; the total
    version returns the empty key in the impossible case. *)
Definition prefix_key (prefix : str) : str :=
  match find_first_not "-" prefix, find_char "=" prefix with
  | Some b, Some k => firstn (k - b) (skipn b prefix)
  | _, _ => []
  end.

Definition true_text : str := s2l "true".

(** "Catch logginglevel::complete", src/utility/Logger.cpp 74-79 and 108-114. *)
Definition set_complete (s : setup) : setup :=
  set_level (fold_left (fun s' pl => set_level s' (snd pl) true) LoggingPrefixes s)
            LMinimizerDetailed false.

(** one iteration of the loop of SetLogger(const parser&), Logger.cpp 63-84;
    [get] is argparser.get_value with [None] for a parserException. *)
Definition set_logger_step (get : str -> option str) (s : setup) (pl : str * level) : setup :=
  let key := prefix_key (fst pl) in
  match get key with
  | None => s
  | Some value =>
      let s1 := set_level s (snd pl) (str_eqb value true_text) in
      if str_eqb key (s2l "logginglevel::complete") && str_eqb value true_text
      then set_complete s1 else s1
  end.

(** SetLogger(const parser&), src/utility/Logger.cpp 51-85. *)
Definition set_logger_parser (get : str -> option str) (s : setup) : setup :=
  match get (s2l "logginglevel::disabled") with
  | Some _ => disable
  | None => fold_left (set_logger_step get) LoggingPrefixes s
  end.

(** SetLogger(const std::vector<std::string>&), src/utility/Logger.cpp 87-116.
    [pos->second] at line 108 is evaluated also when [pos] is the end iterator:
    undefined behaviour. *)
Fixpoint set_logger_args_loop (s : setup) (args : list str) : outcome setup :=
  match args with
  | [] => Ok s
  | el :: rest =>
      match find (fun pl => StringStartsWith el (fst pl)) LoggingPrefixes with
      | None => UB
      | Some (pre, l) =>
          let v := str_eqb (skipn (length pre) el) true_text in
          let s1 := set_level s l v in
          let s2 := if level_eqb l LComplete && v then set_complete s1 else s1 in
          set_logger_args_loop s2 rest
      end
  end.
Definition set_logger_args (s : setup) (args : list str) : outcome setup :=
  if existsb (str_eqb (s2l "--logginglevel::disabled")) args then Ok disable
  else set_logger_args_loop s args.
