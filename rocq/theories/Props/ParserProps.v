(** C01-C04: the command line parser. *)
From Verif.Model Require Import Base Strings Logger Parser.
From Verif.Spec Require Import StringsSpec ParserSpec.
From Verif.Model Require Import Models Options.
From Verif.Proofs Require Import StringsProofs ParserProofs ParserMore OptionsProofs.

(** names are compared letter by letter, ignoring case and nothing else *)
Theorem C01_names_ignore_case : forall a b, same_name a b <-> same_word a b.
Proof. exact to_lower_same_word. Qed.
Print Assumptions C01_names_ignore_case.
Example C01_nonvacuous_case : same_word (s2l "Model-Z") (s2l "mODEL-z") /\ ~ same_word (s2l "a") (s2l "b").
Proof. split; [apply to_lower_same_word; reflexivity|]. rewrite <- to_lower_same_word. discriminate. Qed.

(** C01: the value returned is the one supplied last; otherwise parserException. *)
Theorem C01_last_value_wins :
  forall h lg p lg' name,
    run_calls h empty_parser lg = Some (p, lg') -> consistent h -> to_lower name <> help_key ->
    (forall v, get_value p name = Ok v <-> last_value name (supplied h) v) /\
    (get_value p name = Throw ParserException <-> never_supplied name (supplied h)).
Proof. exact get_value_last. Qed.
Print Assumptions C01_last_value_wins.

Theorem C01_undeclared_throws :
  forall h lg p lg' name,
    run_calls h empty_parser lg = Some (p, lg') -> consistent h ->
    ~ declared_in h name -> get_value p name = Throw ParserException.
Proof. exact get_value_undeclared. Qed.
Print Assumptions C01_undeclared_throws.

(** declaring a further argument changes no answer, provided the name is not
    declared as the other kind *)
Theorem C01_declare_neutral :
  forall h lg p lg' n r name,
    run_calls h empty_parser lg = Some (p, lg') -> consistent (h ++ [CDeclare n r]) ->
    get_value (add_argument p n r) name = get_value p name.
Proof. exact declare_neutral. Qed.
Print Assumptions C01_declare_neutral.

(** the proviso is needed: an optional argument with a value that is declared
    again as required is reported as not given *)
Theorem C01_redeclaration_refuted :
  exists h lg p lg' n v,
    run_calls h empty_parser lg = Some (p, lg') /\ last_value n (supplied h) v /\
    get_value p n = Ok v /\ get_value (add_argument p n true) n = Throw ParserException.
Proof. exact redeclare_shadows. Qed.
Print Assumptions C01_redeclaration_refuted.

Example C01_nonvacuous :
  let h := [CDeclare (s2l "Model") true; CDeclare (s2l "line") false;
            CSupply [(s2l "MODEL", s2l "sm"); (s2l "help", s2l "x"); (s2l "model", s2l "r2hdm")]] in
  exists p lg', run_calls h empty_parser initial_setup = Some (p, lg') /\ consistent h /\
    to_lower (s2l "mOdEl") <> help_key /\
    last_value (s2l "mOdEl") (supplied h) (s2l "r2hdm") /\
    get_value p (s2l "line") = Throw ParserException.
Proof.
  cbv zeta. eexists. eexists. split; [vm_compute; reflexivity|]. split.
  { intros a b Ha Hb. cbn in Ha, Hb. unfold same_name.
    destruct Ha as [Ha|[Ha|[Ha|[]]]]; try discriminate; injection Ha as <-.
    destruct Hb as [Hb|[Hb|[Hb|[]]]]; try discriminate; injection Hb as <-.
    vm_compute; discriminate. }
  split; [vm_compute; discriminate|]. split; [|reflexivity].
  exists [(s2l "MODEL", s2l "sm"); (s2l "help", s2l "x")], (s2l "model"), [].
  split; [reflexivity|]. split; [reflexivity|]. intros ? ? [].
Qed.

(** C02 *)
Theorem C02_throws_iff_unknown :
  forall p lg kvs,
    (exists p' lg', add_kvs p lg kvs = (p', lg', Throw ParserException)) <->
    exists kv, In kv kvs /\ to_lower (fst kv) <> help_key /\ ~ known p (fst kv).
Proof. exact add_kvs_throw_iff. Qed.
Print Assumptions C02_throws_iff_unknown.

Theorem C02_outcome_total :
  forall p lg kvs p' lg' o,
    add_kvs p lg kvs = (p', lg', o) -> o = Ok tt \/ o = Throw ParserException.
Proof. exact add_kvs_outcome. Qed.
Print Assumptions C02_outcome_total.

Theorem C02_prefix_applied :
  forall p lg kvs p' lg',
    add_kvs p lg kvs = (p', lg', Throw ParserException) ->
    exists pre kv post,
      kvs = pre ++ kv :: post /\
      to_lower (fst kv) <> help_key /\ ~ known p (fst kv) /\
      (forall q, In q pre -> to_lower (fst q) = help_key \/ known p (fst q)) /\
      lg' = lg /\
      (forall name, to_lower name <> help_key ->
         (forall v, last_value name pre v -> get_value p' name = Ok v) /\
         (never_supplied name pre -> get_value p' name = get_value p name)).
Proof. exact add_kvs_throw_prefix. Qed.
Print Assumptions C02_prefix_applied.

(** the help text is printed exactly when some key is "help" in any case *)
Theorem C02_help :
  forall kvs p lg p' lg',
    add_kvs p lg kvs = (p', lg', Ok tt) ->
    (help_printed p' = true <->
     help_printed p = true \/ exists k v, In (k, v) kvs /\ same_word k (s2l "help")).
Proof. exact add_kvs_help. Qed.
Print Assumptions C02_help.
Example C02_nonvacuous_help :
  exists p' lg', add_kvs empty_parser initial_setup [(s2l "HELP", s2l "")] = (p', lg', Ok tt) /\ help_printed p' = true.
Proof. eexists. eexists. split; reflexivity. Qed.

Example C02_nonvacuous :
  let p := add_argument (add_argument empty_parser (s2l "a") true) (s2l "b") false in
  let '(p', lg', o) := add_kvs p initial_setup
      [(s2l "A", s2l "1"); (s2l "zz", s2l "2"); (s2l "b", s2l "3")] in
  o = Throw ParserException /\ get_value p' (s2l "a") = Ok (s2l "1") /\
  get_value p' (s2l "b") = Throw ParserException.
Proof. vm_compute. auto. Qed.

(** C03 *)
Theorem C03_required_check_exact :
  forall h lg p lg',
    run_calls h empty_parser lg = Some (p, lg') -> consistent h ->
    (check_required_parameters p = Ok tt <->
     forall n, In (CDeclare n true) h ->
       to_lower n <> help_key /\ exists v, last_value n (supplied h) v) /\
    (check_required_parameters p <> Ok tt -> check_required_parameters p = Throw ParserException).
Proof. exact check_required_iff. Qed.
Print Assumptions C03_required_check_exact.

Example C03_nonvacuous :
  let h := [CDeclare (s2l "Model") true; CDeclare (s2l "line") false] in
  (exists p lg, run_calls (h ++ [CSupply [(s2l "line", s2l "1")]]) empty_parser initial_setup = Some (p, lg)
     /\ check_required_parameters p = Throw ParserException) /\
  (exists p lg, run_calls (h ++ [CSupply [(s2l "mOdel", s2l "1")]]) empty_parser initial_setup = Some (p, lg)
     /\ check_required_parameters p = Ok tt).
Proof. split; eexists; eexists; vm_compute; split; reflexivity. Qed.

(** C04 *)
Theorem C04_key_value_lossless :
  forall dashes k v,
    k <> [] -> hd_error k <> Some "-"%char -> ~ In "="%char k ->
    get_key_value (cli_arg dashes k "=" v) = Ok (k, v).
Proof. exact get_key_value_eq. Qed.
Print Assumptions C04_key_value_lossless.

(** the blank-separated form, which also needs a value without '=' *)
Theorem C04_blank_separator :
  forall dashes k v,
    k <> [] -> hd_error k <> Some "-"%char ->
    ~ In "="%char k -> ~ In " "%char k -> ~ In "="%char v ->
    get_key_value (cli_arg dashes k " " v) = Ok (k, v).
Proof. exact get_key_value_blank. Qed.
Print Assumptions C04_blank_separator.

(** no separator: accepted, the value is the whole argument *)
Theorem C04_no_separator_accepted :
  forall dashes x k,
    x <> "-"%char -> ~ In "="%char (x :: k) -> ~ In " "%char (x :: k) ->
    get_key_value (repeat "-"%char dashes ++ x :: k) =
      Ok (x :: k, repeat "-"%char dashes ++ x :: k).
Proof. exact get_key_value_nosep. Qed.
Print Assumptions C04_no_separator_accepted.

(** the only arguments that fail are those made of dashes, and they escape as
    std::out_of_range, not as the parser's own exception *)
Theorem C04_failure_exact :
  forall s, get_key_value s = Throw OutOfRange <-> s = repeat "-"%char (length s).
Proof. exact get_key_value_throws. Qed.
Print Assumptions C04_failure_exact.

(** whole command line: string form and pair form agree *)
Theorem C04_command_line :
  forall json p lg kvs,
    Forall (fun kv => fst kv <> [] /\ hd_error (fst kv) <> Some "-"%char /\ ~ In "="%char (fst kv)) kvs ->
    (length kvs = 1 -> forall kv, In kv kvs -> fst kv <> help_key /\ fst kv <> s2l "json") ->
    add_strings json p lg (map (fun kv => cli_arg 2 (fst kv) "=" (snd kv)) kvs) = add_kvs p lg kvs.
Proof. exact add_strings_cli. Qed.
Print Assumptions C04_command_line.

Example C04_nonvacuous :
  get_key_value (s2l "--input=a=b -c") = Ok (s2l "input", s2l "a=b -c") /\
  get_key_value (s2l "--verbose") = Ok (s2l "verbose", s2l "--verbose") /\
  get_key_value (s2l "--") = Throw OutOfRange.
Proof. vm_compute. auto. Qed.

(** C77: options from a json file *)
(** --json=FILE as the only argument has the same effect as supplying the pairs of
    the file, comments left out *)
Theorem C77_json_file_partial :
  forall json p lg f m r,
    json f = Some m -> without_comments m r ->
    add_strings json p lg [cli_arg 2 (s2l "json") "=" f] = add_kvs p lg r.
Proof. exact add_json_file. Qed.
Print Assumptions C77_json_file_partial.
Theorem C77_comments_removable : forall m, exists r, without_comments m r.
Proof. exact without_comments_total. Qed.
Print Assumptions C77_comments_removable.
Theorem C77_unreadable_file :
  forall json p lg f,
    json f = None ->
    add_strings json p lg [cli_arg 2 (s2l "json") "=" f] = (p, lg, Throw ParserException).
Proof. exact add_json_missing. Qed.
Print Assumptions C77_unreadable_file.
(** together with any other argument the file is never looked at, and neither when
    the option is not written in lower case *)
Theorem C77_file_ignored :
  forall json json' p lg,
    (forall a b rest, add_strings json p lg (a :: b :: rest) = add_strings json' p lg (a :: b :: rest)) /\
    (forall k v, same_word k (s2l "json") -> k <> s2l "json" ->
       add_strings json p lg [cli_arg 2 k "=" v] = add_strings json' p lg [cli_arg 2 k "=" v]).
Proof. intros json json' p lg. split; [exact (json_ignored_otherwise json json' p lg)|exact (json_case json json' p lg)]. Qed.
Print Assumptions C77_file_ignored.
(** so the full statement (a json option always brings in its file) is false: here the call
    is accepted, but the model named in the file is not set *)
Theorem C77_json_file_refuted :
  exists (json : str -> option (list (str * str))) p lg args v,
    json (s2l "f") = Some [(s2l "model", v)] /\
    args = [cli_arg 2 (s2l "json") "=" (s2l "f"); cli_arg 2 (s2l "input") "=" (s2l "x")] /\
    snd (add_strings json p lg args) = Ok tt /\
    get_value (fst (fst (add_strings json p lg args))) (s2l "model") = Throw ParserException /\
    snd (add_strings json p lg [cli_arg 2 (s2l "json") "=" (s2l "f")]) = Ok tt /\
    get_value (fst (fst (add_strings json p lg [cli_arg 2 (s2l "json") "=" (s2l "f")]))) (s2l "model") = Ok v.
Proof. exact json_not_alone. Qed.
Print Assumptions C77_json_file_refuted.
Example C77_nonvacuous :
  without_comments [(s2l "model_comment", s2l "x"); (s2l "model", s2l "sm"); (s2l "comment", s2l "y")]
                   [(s2l "model", s2l "sm"); (s2l "comment", s2l "y")].
Proof. apply without_comments_filter. reflexivity. Qed.

(** C78: boolean options *)
(** the parser's own reading: true in any case is true, everything else false,
    errors are passed on *)
Theorem C78_bool_value_partial :
  forall p name,
    (forall v, get_value p name = Ok v -> same_word v (s2l "true") -> get_value_bool p name = Ok true) /\
    (forall v, get_value p name = Ok v -> ~ same_word v (s2l "true") -> get_value_bool p name = Ok false) /\
    (forall e, get_value p name = Throw e -> get_value_bool p name = Throw e).
Proof. exact get_value_bool_spec. Qed.
Print Assumptions C78_bool_value_partial.
(** CalcTemps and CalcGW: exactly the text true *)
Theorem C78_transition_programs_partial :
  forall get stoi stod p b names o,
    read_options get stoi stod p b names = Ok o ->
    (forall v, get (s2l "usegsl") = Some v -> UseGSL o = true <-> v = s2l "true") /\
    (forall v, get (s2l "usecmaes") = Some v -> UseCMAES o = true <-> v = s2l "true") /\
    (forall v, get (s2l "usenlopt") = Some v -> UseNLopt o = true <-> v = s2l "true") /\
    (get (s2l "usegsl") = None -> UseGSL o = haveGSL b) /\
    (get (s2l "usecmaes") = None -> UseCMAES o = haveCMAES b) /\
    (get (s2l "usenlopt") = None -> UseNLopt o = haveNLopt b).
Proof. exact read_minimizers. Qed.
Print Assumptions C78_transition_programs_partial.
(** hence --usegsl=True means on for the one group of programs and off for the other *)
Theorem C78_bool_value_refuted :
  forall prog, exists p stoi stod b o,
    get_value p (s2l "useGSL") = Ok (s2l "True") /\ get_value_bool p (s2l "useGSL") = Ok true /\
    read_options (get_opt p) stoi stod prog b ModelNames = Ok o /\ UseGSL o = false /\ haveGSL b = true.
Proof. exact bool_differs. Qed.
Print Assumptions C78_bool_value_refuted.
Example C78_nonvacuous :
  let p := fst (fst (add_kvs (add_argument empty_parser (s2l "useGSL") false) initial_setup [(s2l "usegsl", s2l "tRue")])) in
  get_value p (s2l "usegsl") = Ok (s2l "tRue") /\ same_word (s2l "tRue") (s2l "true") /\
  get_value_bool p (s2l "usegsl") = Ok true /\ get_value_bool p (s2l "usecmaes") = Throw ParserException.
Proof. split; [reflexivity|]. split; [apply to_lower_same_word; reflexivity|]. split; reflexivity. Qed.
