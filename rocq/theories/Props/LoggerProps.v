(** C05-C07: the logger. *)
From Verif.Model Require Import Base Strings Logger Parser.
From Verif.Spec Require Import StringsSpec LoggerSpec.
From Verif.Proofs Require Import StringsProofs LoggerProofs ParserMore.

(** C05 *)
Theorem C05_output_exact :
  forall h,
    (forall l, writes (fst (log_run h)) l = enabled (rev h) l) /\
    rev (snd (log_run h)) = expected_output [] h.
Proof. exact log_run_spec. Qed.
Print Assumptions C05_output_exact.

Theorem C05_query_changes_nothing :
  forall h1 h2 l, snd (log_run (h1 ++ OpQuery l :: h2)) = snd (log_run (h1 ++ h2)).
Proof. exact queries_irrelevant. Qed.
Print Assumptions C05_query_changes_nothing.

Example C05_nonvacuous :
  rev (snd (log_run
    [OpWrite LDefault (s2l "a"); OpSet LDebug true; OpWrite LDebug (s2l "b"); OpDisable;
     OpQuery LDebug; OpWrite LDebug (s2l "c"); OpSetMap [(LDebug, true)]; OpWrite LDebug (s2l "d")]))
  = [(LDefault, s2l "a"); (LDebug, s2l "b"); (LDebug, s2l "d")].
Proof. reflexivity. Qed.

(** C06: false in general.  Full statement: whenever the user supplied a value
    for a level, the level ends enabled iff that value is "true".  Witness: the
    real command line --logginglevel::bouncedetailed=false
    --logginglevel::complete=true leaves BounceDetailed enabled. *)
Theorem C06_all_options_honoured_refuted :
  exists args p' lg',
    add_strings (fun _ => None)
      (fold_left (fun p a => add_argument p a false) column_ctor_arguments empty_parser)
      initial_setup args = (p', lg', Ok tt) /\
    get_value p' (s2l "logginglevel::bouncedetailed") = Ok (s2l "false") /\
    writes lg' LBounceDetailed = true.
Proof. exact bounce_overridden. Qed.
Print Assumptions C06_all_options_honoured_refuted.

(** what does hold: every option is honoured except bouncedetailed next to complete=true *)
Theorem C06_options_honoured_partial :
  forall get s l k v,
    get (s2l "logginglevel::disabled") = None ->
    option_of l = Some k -> get k = Some v ->
    (l = LBounceDetailed -> get (s2l "logginglevel::complete") <> Some true_text) ->
    writes (set_logger_parser get s) l = str_eqb v true_text.
Proof. exact set_logger_honoured. Qed.
Print Assumptions C06_options_honoured_partial.

(** levels the user did not mention keep their state unless complete=true was given *)
Theorem C06_unmentioned_levels_kept_partial :
  forall get s l,
    get (s2l "logginglevel::disabled") = None ->
    get (s2l "logginglevel::complete") <> Some true_text ->
    (forall k, option_of l = Some k -> get k = None) ->
    writes (set_logger_parser get s) l = writes s l.
Proof. exact set_logger_kept. Qed.
Print Assumptions C06_unmentioned_levels_kept_partial.

Theorem C06_disabled_silences :
  forall get s l,
    get (s2l "logginglevel::disabled") <> None -> writes (set_logger_parser get s) l = false.
Proof. exact set_logger_disabled. Qed.
Print Assumptions C06_disabled_silences.

Example C06_nonvacuous :
  let get := fun k => if str_eqb k (s2l "logginglevel::complete") then Some true_text
                      else if str_eqb k (s2l "logginglevel::gwdetailed") then Some (s2l "false")
                      else None in
  option_of LGWDetailed = Some (s2l "logginglevel::gwdetailed") /\
  get (s2l "logginglevel::disabled") = None /\
  get (s2l "logginglevel::gwdetailed") = Some (s2l "false") /\
  writes (set_logger_parser get initial_setup) LGWDetailed = false /\
  writes (set_logger_parser get initial_setup) LMinTracerDetailed = true.
Proof. vm_compute. auto 10. Qed.

(** C07: false; a single argument that is no logging option makes the code
    dereference the end iterator. *)
Theorem C07_raw_arguments_safe_refuted :
  exists args, set_logger_args initial_setup args = UB.
Proof. exact raw_args_ub. Qed.
Print Assumptions C07_raw_arguments_safe_refuted.

(** exactly when it goes wrong *)
Theorem C07_raw_arguments_safe_partial :
  forall s args,
    (Forall recognised args \/ In (s2l "--logginglevel::disabled") args) <->
    exists s', set_logger_args s args = Ok s'.
Proof. exact set_logger_args_exact. Qed.
Print Assumptions C07_raw_arguments_safe_partial.

(** understood arguments take effect in order: the last setting of a level counts,
    complete=true switches on everything except the minimiser details *)
Theorem C07_raw_arguments_effect :
  forall h s,
    Forall (fun lv => option_of (fst lv) <> None) h ->
    exists s', set_logger_args s (map raw_arg h) = Ok s' /\
               forall m, writes s' m = raw_enabled (rev h) (writes s m) m.
Proof. exact raw_args_values. Qed.
Print Assumptions C07_raw_arguments_effect.

Example C07_nonvacuous_effect :
  let h := [(LDebug, s2l "true"); (LComplete, s2l "true"); (LGWDetailed, s2l "TRUE")] in
  map raw_arg h = map s2l ["--logginglevel::debug=true"; "--logginglevel::complete=true"; "--logginglevel::gwdetailed=TRUE"]%string /\
  map (raw_enabled (rev h) false) [LDebug; LGWDetailed; LMinimizerDetailed; LBounceDetailed] = [true; false; false; true].
Proof. split; reflexivity. Qed.

Example C07_nonvacuous :
  exists s', set_logger_args initial_setup
    [s2l "--logginglevel::debug=true"; s2l "--logginglevel::default=false"] = Ok s' /\
    writes s' LDebug = true /\ writes s' LDefault = false.
Proof. eexists. vm_compute. auto. Qed.
