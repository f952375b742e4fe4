(** Case-insensitivity, help flag, json input, boolean options, raw logger arguments. *)
From Verif.Model Require Import Base Strings Logger Parser.
From Verif.Spec Require Import StringsSpec ParserSpec LoggerSpec.
From Verif.Proofs Require Import StringsProofs LoggerProofs ParserProofs.
Open Scope list_scope.

Definition all_ascii : list ascii := map ascii_of_N (map N.of_nat (seq 0 256)).
Lemma all_ascii_in a : In a all_ascii.
Proof.
  unfold all_ascii. rewrite <- (ascii_N_embedding a). apply in_map.
  rewrite <- (N2Nat.id (N_of_ascii a)). apply in_map, in_seq.
  pose proof (N_ascii_bounded a). lia.
Qed.

Definition pairs := combine upper_alphabet lower_alphabet.
Definition same_letterb (a b : ascii) : bool :=
  Ascii.eqb a b ||
  existsb (fun p => (Ascii.eqb a (fst p) && Ascii.eqb b (snd p)) || (Ascii.eqb a (snd p) && Ascii.eqb b (fst p))) pairs.
Lemma same_letterb_ok a b : same_letterb a b = true <-> same_letter a b.
Proof.
  unfold same_letterb, same_letter. rewrite orb_true_iff, existsb_exists, Ascii.eqb_eq.
  split.
  - intros [->|((u & l) & Hin & H)]; [now left|]. right. exists u, l. split; [exact Hin|].
    cbn [fst snd] in H. rewrite orb_true_iff, !andb_true_iff, !Ascii.eqb_eq in H. exact H.
  - intros [->|(u & l & Hin & H)]; [now left|]. right. exists (u, l). split; [exact Hin|].
    cbn [fst snd]. rewrite orb_true_iff, !andb_true_iff, !Ascii.eqb_eq. exact H.
Qed.

Lemma lower_same_letter a b : lower_ascii a = lower_ascii b <-> same_letter a b.
Proof.
  rewrite <- same_letterb_ok.
  assert (H : forallb (fun a => forallb (fun b =>
            Bool.eqb (Ascii.eqb (lower_ascii a) (lower_ascii b)) (same_letterb a b)) all_ascii) all_ascii = true)
    by (vm_compute; reflexivity).
  rewrite forallb_forall in H. specialize (H a (all_ascii_in a)). cbv beta in H.
  rewrite forallb_forall in H. specialize (H b (all_ascii_in b)). cbv beta in H.
  apply eqb_prop in H. rewrite <- H. symmetry. apply Ascii.eqb_eq.
Qed.

Lemma to_lower_same_word a : forall b, to_lower a = to_lower b <-> same_word a b.
Proof.
  unfold same_word. induction a as [|x a IH]; intros [|y b]; unfold to_lower in *; cbn [map].
  - split; [constructor|reflexivity].
  - split; [discriminate|intro H; inversion H].
  - split; [discriminate|intro H; inversion H].
  - split.
    + intro H. constructor; [apply lower_same_letter; congruence|apply IH; congruence].
    + intro H. inversion H as [|? ? ? ? H1 H2]; subst. f_equal; [now apply lower_same_letter|now apply IH].
Qed.

Lemma help_key_word s : to_lower s = help_key <-> same_word s (s2l "help").
Proof. rewrite <- to_lower_same_word. reflexivity. Qed.

(** * help *)
Lemma add_one_help p kv p' :
  add_one p kv = Ok p' ->
  (help_printed p' = true <-> help_printed p = true \/ same_word (fst kv) (s2l "help")).
Proof.
  rewrite <- help_key_word. unfold add_one.
  destruct (str_eqb_spec (to_lower (fst kv)) help_key) as [E|E].
  - intro H; injection H as <-. cbn [help_printed]. tauto.
  - destruct (t_find _ (required p)); [intro H; injection H as <-; cbn [help_printed]; tauto|].
    destruct (t_find _ (optional p)); [intro H; injection H as <-; cbn [help_printed]; tauto|discriminate].
Qed.

Lemma add_kvs_help kvs : forall p lg p' lg',
  add_kvs p lg kvs = (p', lg', Ok tt) ->
  (help_printed p' = true <->
   help_printed p = true \/ exists k v, In (k, v) kvs /\ same_word k (s2l "help")).
Proof.
  induction kvs as [|[k v] kvs IH]; intros p lg p' lg' H; cbn [add_kvs] in H.
  - assert (E : p = p') by congruence. subst p'.
    split; [tauto|]. intros [?|(k & v & [] & _)]; assumption.
  - destruct (add_one p (k, v)) as [q| | |] eqn:E; try discriminate.
    rewrite (IH _ _ _ _ H), (add_one_help _ _ _ E). cbn [fst]. split.
    + intros [[?|?]|(k' & v' & Hin & W)]; [now left| |].
      * right. exists k, v. split; [now left|assumption].
      * right. exists k', v'. split; [now right|assumption].
    + intros [?|(k' & v' & [Hin|Hin] & W)]; [tauto| |].
      * injection Hin as <- <-. tauto.
      * right. exists k', v'. tauto.
Qed.

(** * json input *)
Lemma without_comments_filter m r :
  without_comments m r <->
  r = filter (fun kv => negb (StringEndsWith (fst kv) (s2l "_comment"))) m.
Proof.
  split.
  - induction 1 as [|k v m r _ IH|k v m r Hk _ IH]; cbn [filter fst]; [reflexivity| |].
    + replace (StringEndsWith (k ++ s2l "_comment") (s2l "_comment")) with true; [exact IH|].
      symmetry. apply ends_with_spec. now exists k.
    + replace (StringEndsWith k (s2l "_comment")) with false; [cbn [negb]; now rewrite IH|].
      symmetry. apply not_true_is_false. intro E. apply ends_with_spec in E as [k' E]. exact (Hk k' E).
  - revert r; induction m as [|[k v] m IH]; intros r ->; cbn [filter fst]; [constructor|].
    destruct (StringEndsWith k (s2l "_comment")) eqn:E; cbn [negb].
    + apply ends_with_spec in E as [k' ->]. constructor. now apply IH.
    + constructor; [|now apply IH]. intros k' ->.
      assert (T : StringEndsWith (k' ++ s2l "_comment") (s2l "_comment") = true) by (apply ends_with_spec; now exists k').
      congruence.
Qed.

Lemma json_key v : get_key_value (cli_arg 2 (s2l "json") "=" v) = Ok (s2l "json", v).
Proof.
  apply get_key_value_eq; [discriminate|discriminate|].
  intro H. cbn in H. repeat (destruct H as [H|H]; [discriminate|]). exact H.
Qed.

Lemma add_json_file json p lg f m r :
  json f = Some m -> without_comments m r ->
  add_strings json p lg [cli_arg 2 (s2l "json") "=" f] = add_kvs p lg r.
Proof.
  intros Hf Hw. unfold add_strings. rewrite json_key.
  replace (str_eqb (s2l "json") help_key) with false by reflexivity.
  rewrite str_eqb_refl. unfold add_json. rewrite Hf.
  apply without_comments_filter in Hw. now rewrite Hw.
Qed.

Lemma add_json_missing json p lg f :
  json f = None ->
  add_strings json p lg [cli_arg 2 (s2l "json") "=" f] = (p, lg, Throw ParserException).
Proof.
  intros Hf. unfold add_strings. rewrite json_key.
  replace (str_eqb (s2l "json") help_key) with false by reflexivity.
  rewrite str_eqb_refl. unfold add_json. now rewrite Hf.
Qed.

Lemma without_comments_total m : exists r, without_comments m r.
Proof. eexists. apply without_comments_filter. reflexivity. Qed.

(** json next to other options, or written JSON, is not read as a file *)
Lemma json_ignored_otherwise json json' p lg a b rest :
  add_strings json p lg (a :: b :: rest) = add_strings json' p lg (a :: b :: rest).
Proof. reflexivity. Qed.

Lemma json_case json json' p lg k v :
  same_word k (s2l "json") -> k <> s2l "json" ->
  add_strings json p lg [cli_arg 2 k "=" v] = add_strings json' p lg [cli_arg 2 k "=" v].
Proof.
  intros Hw Hn.
  assert (Hk : k <> [] /\ hd_error k <> Some "-"%char /\ ~ In "="%char k).
  { clear Hn. unfold same_word in Hw. cbn in Hw.
    assert (F : Forall (fun x => x <> "-"%char /\ x <> "="%char) k).
    { revert Hw. generalize (s2l "json"). intros w Hw. 
      assert (Q : Forall (fun y => In y (s2l "json")) ["j"; "s"; "o"; "n"]%char) by (repeat constructor; cbn; tauto).
      revert Hw Q. generalize ["j"; "s"; "o"; "n"]%char. intros l Hw. induction Hw as [|x y k l Hxy Hw IH]; intro Q; [constructor|].
      inversion Q as [|? ? Hy Q']; subst. constructor; [|now apply IH].
      apply lower_same_letter in Hxy. cbn in Hy.
      split; intros ->; repeat (destruct Hy as [<-|Hy]; [vm_compute in Hxy; discriminate|]); exact Hy. }
    inversion Hw as [|x y k' l Hxy Hw']; subst. split; [discriminate|]. split.
    - intro E. cbn in E. injection E as ->. inversion F; tauto.
    - intro E. rewrite Forall_forall in F. apply F in E. tauto. }
  destruct Hk as (K1 & K2 & K3).
  unfold add_strings. rewrite (get_key_value_eq 2 k v K1 K2 K3).
  destruct (str_eqb_spec k help_key) as [->|]; [reflexivity|].
  destruct (str_eqb_spec k (s2l "json")); [contradiction|reflexivity].
Qed.

Lemma json_not_alone :
  exists (json : str -> option (list (str * str))) p lg args v,
    json (s2l "f") = Some [(s2l "model", v)] /\
    args = [cli_arg 2 (s2l "json") "=" (s2l "f"); cli_arg 2 (s2l "input") "=" (s2l "x")] /\
    snd (add_strings json p lg args) = Ok tt /\
    get_value (fst (fst (add_strings json p lg args))) (s2l "model") = Throw ParserException /\
    snd (add_strings json p lg [cli_arg 2 (s2l "json") "=" (s2l "f")]) = Ok tt /\
    get_value (fst (fst (add_strings json p lg [cli_arg 2 (s2l "json") "=" (s2l "f")]))) (s2l "model") = Ok v.
Proof.
  exists (fun f => if str_eqb f (s2l "f") then Some [(s2l "model", s2l "sm")] else None).
  exists (fold_left (fun p a => add_argument p a false)
            (map s2l ["json"; "model"; "input"]%string) empty_parser), initial_setup.
  eexists. exists (s2l "sm"). split; [reflexivity|]. split; [reflexivity|].
  vm_compute. auto.
Qed.

(** * boolean options *)
Lemma get_value_bool_spec p name :
  (forall v, get_value p name = Ok v -> same_word v (s2l "true") -> get_value_bool p name = Ok true) /\
  (forall v, get_value p name = Ok v -> ~ same_word v (s2l "true") -> get_value_bool p name = Ok false) /\
  (forall e, get_value p name = Throw e -> get_value_bool p name = Throw e).
Proof.
  unfold get_value_bool. split; [|split].
  - intros v E W. rewrite E. cbn [bind]. apply to_lower_same_word in W. rewrite W. reflexivity.
  - intros v E W. rewrite E. cbn [bind].
    destruct (str_eqb_spec (to_lower v) true_text) as [T|T]; [|reflexivity].
    exfalso. apply W. apply to_lower_same_word. rewrite T. reflexivity.
  - intros e E. now rewrite E.
Qed.

(** * raw logger arguments *)
Lemma find_raw l k v :
  option_of l = Some k ->
  exists pre, find (fun pl => StringStartsWith (raw_arg (l, v)) (fst pl)) LoggingPrefixes = Some (pre, l) /\
              skipn (length pre) (raw_arg (l, v)) = v.
Proof.
  intro H. exists (s2l "--" ++ k ++ s2l "="). unfold raw_arg. cbn [fst snd]. rewrite H. split.
  - assert (U : forall p, StringStartsWith (s2l "--" ++ k ++ s2l "=" ++ v) p = true <-> is_prefix p (s2l "--" ++ k ++ s2l "=" ++ v))
      by (intro; apply starts_with_spec).
    assert (N : forall p, match_at p (s2l "--" ++ k ++ s2l "=" ++ v) = StringStartsWith (s2l "--" ++ k ++ s2l "=" ++ v) p).
    { intro p. apply eq_true_iff_eq. rewrite U. apply match_at_spec. }
    unfold LoggingPrefixes. cbn [find fst]. rewrite <- !N.
    destruct l; cbn [option_of] in H; try discriminate; injection H as <-; reflexivity.
  - rewrite !app_assoc. apply skipn_app_exact. now rewrite <- app_assoc.
Qed.

Lemma raw_not_disabled l k v : option_of l = Some k -> raw_arg (l, v) <> s2l "--logginglevel::disabled".
Proof.
  intro H. unfold raw_arg. cbn [fst snd]. rewrite H. 
  destruct l; cbn [option_of] in H; try discriminate; injection H as <-; discriminate.
Qed.

Lemma raw_step s l v k m :
  option_of l = Some k ->
  writes (let b := str_eqb v true_text in
          let s1 := set_level s l b in
          if level_eqb l LComplete && b then set_complete s1 else s1) m =
  raw_enabled [(l, v)] (writes s m) m.
Proof.
  intro H. cbv zeta. change true_text with (s2l "true"). cbn [raw_enabled].
  destruct (level_eqb l LComplete && str_eqb v (s2l "true")) eqn:E.
  - rewrite <- andb_assoc, E. apply andb_prop in E as [E1 E2].
    destruct l; try discriminate. unfold set_complete, LoggingPrefixes. cbn [fold_left fst snd].
    rewrite !writes_set. destruct m; reflexivity.
  - rewrite <- andb_assoc, E, writes_set. rewrite andb_false_r. cbn [andb]. reflexivity.
Qed.

Lemma raw_enabled_app a b i m : raw_enabled (a ++ b) i m = raw_enabled a (raw_enabled b i m) m.
Proof.
  induction a as [|[l v] a IH]; cbn [app raw_enabled]; [reflexivity|]. now rewrite IH.
Qed.

Lemma raw_args_values h : forall s,
  Forall (fun lv => option_of (fst lv) <> None) h ->
  exists s', set_logger_args s (map raw_arg h) = Ok s' /\
             forall m, writes s' m = raw_enabled (rev h) (writes s m) m.
Proof.
  intros s HF. unfold set_logger_args.
  replace (existsb (str_eqb (s2l "--logginglevel::disabled")) (map raw_arg h)) with false.
  2:{ symmetry. apply not_true_is_false. intro E. apply existsb_exists in E as (x & Hx & E).
      apply in_map_iff in Hx as ([l v] & <- & Hin). rewrite Forall_forall in HF. apply HF in Hin. cbn [fst] in Hin.
      destruct (option_of l) as [k|] eqn:K; [|congruence].
      destruct (str_eqb_spec (s2l "--logginglevel::disabled") (raw_arg (l, v))) as [E'|]; [|discriminate].
      symmetry in E'. exact (raw_not_disabled l k v K E'). }
  revert s; induction HF as [|[l v] h Hl HF IH]; intro s; cbn [map set_logger_args_loop].
  - exists s. split; [reflexivity|]. reflexivity.
  - cbn [fst] in Hl. destruct (option_of l) as [k|] eqn:K; [|congruence].
    destruct (find_raw l k v K) as (pre & -> & ->).
    destruct (IH (let b := str_eqb v true_text in
          let s1 := set_level s l b in
          if level_eqb l LComplete && b then set_complete s1 else s1)) as (s' & E & W).
    cbv zeta in E |- *. rewrite E. exists s'. split; [reflexivity|]. intro m. rewrite W.
    cbn [rev]. rewrite raw_enabled_app. f_equal. apply (raw_step s l v k m K).
Qed.
