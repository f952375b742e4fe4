From Verif.Model Require Import Base Strings Logger Parser.
From Verif.Spec Require Import StringsSpec LoggerSpec.
From Verif.Proofs Require Import StringsProofs.

Lemma level_eqb_spec a b : reflect (a = b) (level_eqb a b).
Proof. destruct a, b; cbn; constructor; congruence. Qed.

Lemma level_eqb_refl a : level_eqb a a = true.
Proof. destruct a; reflexivity. Qed.

Lemma writes_set s l b k : writes (set_level s l b) k = if level_eqb k l then b else writes s k.
Proof. unfold writes, set_level. destruct (level_eqb k l); [destruct b|]; reflexivity. Qed.

Lemma writes_sets m : forall s k,
  writes (set_levels s m) k =
  match fold_left (fun acc kb => if level_eqb k (fst kb) then Some (snd kb) else acc) m None with
  | Some b => b | None => writes s k end.
Proof.
  induction m as [|kb m IH] using rev_ind; intros s k; [reflexivity|].
  unfold set_levels in *. rewrite !fold_left_app. cbn [fold_left].
  rewrite writes_set. destruct (level_eqb k (fst kb)); [reflexivity|apply IH].
Qed.

Lemma writes_query s l k : writes (fst (query s l)) k = writes s k.
Proof.
  unfold query. destruct (s l) eqn:E; [reflexivity|]. cbn [fst]. rewrite writes_set.
  destruct (level_eqb_spec k l) as [->|]; [|reflexivity]. unfold writes. now rewrite E.
Qed.

Lemma log_step_writes s out o k :
  writes (fst (log_step (s, out) o)) k =
  match effect o k with Some b => b | None => writes s k end.
Proof.
  destruct o as [l b|m| |l|l msg]; cbn [log_step fst effect].
  - rewrite writes_set. destruct (level_eqb k l); reflexivity.
  - apply writes_sets.
  - reflexivity.
  - apply writes_query.
  - reflexivity.
Qed.

Lemma log_run_from h : forall before s out,
  (forall k, writes s k = enabled before k) ->
  (forall k, writes (fst (fold_left log_step h (s, out))) k = enabled (rev h ++ before) k) /\
  rev (snd (fold_left log_step h (s, out))) = rev out ++ expected_output before h.
Proof.
  induction h as [|o h IH]; intros before s out Hs; cbn [fold_left expected_output].
  - cbn. rewrite app_nil_r. auto.
  - destruct (log_step (s, out) o) as [s1 out1] eqn:E.
    assert (Hs1 : forall k, writes s1 k = enabled (o :: before) k).
    { intro k. pose proof (log_step_writes s out o k) as W. rewrite E in W. cbn [fst] in W.
      rewrite W. cbn [enabled]. destruct (effect o k); auto. }
    destruct (IH (o :: before) s1 out1 Hs1) as [A B]. split.
    + intro k. rewrite A. cbn [rev]. rewrite <- app_assoc. reflexivity.
    + rewrite B. rewrite app_assoc. f_equal.
      destruct o as [l b|m| |l|l msg]; cbn in E; try (injection E as _ <-; now rewrite app_nil_r).
      injection E as _ <-. rewrite Hs. destruct (enabled before l); cbn; [reflexivity|now rewrite app_nil_r].
Qed.

Lemma writes_initial k : writes initial_setup k = level_eqb k LDefault.
Proof. destruct k; reflexivity. Qed.

Lemma log_run_spec h :
  (forall l, writes (fst (log_run h)) l = enabled (rev h) l) /\
  rev (snd (log_run h)) = expected_output [] h.
Proof.
  destruct (log_run_from h [] initial_setup [] writes_initial) as [A B].
  split; [|exact B]. intro l. unfold log_run. rewrite (A l), app_nil_r. reflexivity.
Qed.

Lemma queries_irrelevant h1 h2 l :
  snd (log_run (h1 ++ OpQuery l :: h2)) = snd (log_run (h1 ++ h2)).
Proof.
  assert (X : forall h1 h2, rev (snd (log_run (h1 ++ h2))) =
      expected_output [] h1 ++ expected_output (rev h1) h2).
  { clear. intros h1 h2. rewrite (proj2 (log_run_spec _)).
    assert (G : forall h b, expected_output b (h ++ h2) = expected_output b h ++ expected_output (rev h ++ b) h2).
    { induction h as [|o h IH]; intro b; [reflexivity|]. cbn [expected_output app rev].
      rewrite IH, <- app_assoc, <- app_assoc. reflexivity. }
    rewrite G, app_nil_r. reflexivity. }
  assert (Y : forall h a b, (forall k, enabled a k = enabled b k) -> expected_output a h = expected_output b h).
  { clear. induction h as [|o h IH]; intros a b E; [reflexivity|]. cbn [expected_output].
    rewrite (IH (o :: a) (o :: b)); [|intro k; cbn [enabled]; destruct (effect o k); auto].
    destruct o; try reflexivity. now rewrite E. }
  rewrite <- (rev_involutive (snd (log_run (h1 ++ OpQuery l :: h2)))),
          <- (rev_involutive (snd (log_run (h1 ++ h2)))). f_equal.
  rewrite !X. f_equal. cbn [expected_output app]. apply Y. reflexivity.
Qed.

(** * SetLogger from parsed options *)

Section SetLogger.
Variable get : str -> option str.
Let ckey : str := s2l "logginglevel::complete".

Lemma step_other s pre lv l :
  str_eqb (prefix_key pre) ckey = false -> level_eqb l lv = false ->
  writes (set_logger_step get s (pre, lv)) l = writes s l.
Proof.
  intros Hk Hl. unfold set_logger_step. cbn [fst snd]. fold ckey. rewrite Hk. cbn [andb].
  destruct (get (prefix_key pre)); [|reflexivity]. now rewrite writes_set, Hl.
Qed.

Lemma step_same s pre l :
  str_eqb (prefix_key pre) ckey = false ->
  writes (set_logger_step get s (pre, l)) l =
  match get (prefix_key pre) with Some v => str_eqb v true_text | None => writes s l end.
Proof.
  intros Hk. unfold set_logger_step. cbn [fst snd]. fold ckey. rewrite Hk. cbn [andb].
  destruct (get (prefix_key pre)); [|reflexivity]. now rewrite writes_set, level_eqb_refl.
Qed.

Lemma step_complete s pre l :
  prefix_key pre = ckey ->
  writes (set_logger_step get s (pre, LComplete)) l =
  match get ckey with
  | None => writes s l
  | Some v => if str_eqb v true_text
              then match l with LNone => writes s l | LMinimizerDetailed => false | _ => true end
              else if level_eqb l LComplete then false else writes s l
  end.
Proof.
  intros Hk. unfold set_logger_step. cbn [fst snd]. fold ckey. rewrite Hk, str_eqb_refl. cbn [andb].
  destruct (get ckey) as [v|]; [|reflexivity].
  destruct (str_eqb v true_text).
  - unfold set_complete, LoggingPrefixes. cbn [fold_left fst snd]. rewrite !writes_set.
    destruct l; reflexivity.
  - now rewrite writes_set.
Qed.

Lemma set_logger_writes s l :
  get (s2l "logginglevel::disabled") = None ->
  writes (set_logger_parser get s) l =
  let complete := match get ckey with Some v => str_eqb v true_text | None => false end in
  match l with
  | LNone => writes s l
  | LComplete => match get ckey with Some v => str_eqb v true_text | None => writes s l end
  | LBounceDetailed =>
      if complete then true
      else match get (s2l "logginglevel::bouncedetailed") with
           | Some v => str_eqb v true_text | None => writes s l end
  | _ => match option_of l with
         | None => writes s l
         | Some k => match get k with
                     | Some v => str_eqb v true_text
                     | None => if complete then negb (level_eqb l LMinimizerDetailed) else writes s l
                     end
         end
  end.
Proof.
  intros Hd. unfold set_logger_parser. rewrite Hd.
  unfold LoggingPrefixes. cbn [fold_left].
  destruct l; repeat first [rewrite step_other by reflexivity | rewrite step_same by reflexivity];
  rewrite ?step_complete by reflexivity;
  repeat first [rewrite step_other by reflexivity | rewrite step_same by reflexivity];
  try reflexivity; cbn [option_of level_eqb negb];
  repeat match goal with
  | |- context [prefix_key ?p] => let k := eval vm_compute in (prefix_key p) in change (prefix_key p) with k
  | |- context [s2l ?p] => let k := eval vm_compute in (s2l p) in change (s2l p) with k
  end;
  destruct (get ckey) as [vc|]; try reflexivity;
  try (destruct (str_eqb vc true_text); reflexivity).
Qed.

End SetLogger.

Lemma set_logger_eq get s :
  get (s2l "logginglevel::disabled") = None ->
  get (s2l "logginglevel::complete") <> Some true_text ->
  forall l, writes (set_logger_parser get s) l =
            match option_of l with
            | None => writes s l
            | Some k => match get k with
                        | Some v => str_eqb v true_text
                        | None => writes s l
                        end
            end.
Proof.
  intros Hd Hc l. rewrite (set_logger_writes get s l Hd). cbv zeta.
  assert (E : match get (s2l "logginglevel::complete") with
              | Some v => str_eqb v true_text | None => false end = false).
  { destruct (get (s2l "logginglevel::complete")) as [v|]; [|reflexivity].
    destruct (str_eqb_spec v true_text) as [->|]; [congruence|reflexivity]. }
  rewrite E. destruct l; reflexivity.
Qed.

Lemma set_logger_complete get s :
  get (s2l "logginglevel::disabled") = None ->
  get (s2l "logginglevel::complete") = Some true_text ->
  forall l, writes (set_logger_parser get s) l =
            match l with
            | LBounceDetailed | LComplete => true
            | LNone => writes s l
            | _ => match option_of l with
                   | None => writes s l
                   | Some k => match get k with
                               | Some v => str_eqb v true_text
                               | None => negb (level_eqb l LMinimizerDetailed)
                               end
                   end
            end.
Proof.
  intros Hd Hc l. rewrite (set_logger_writes get s l Hd). cbv zeta. rewrite Hc.
  destruct l; reflexivity.
Qed.

(** every option the user supplies is honoured, except bouncedetailed next to complete *)
Lemma set_logger_honoured get s l k v :
  get (s2l "logginglevel::disabled") = None ->
  option_of l = Some k -> get k = Some v ->
  (l = LBounceDetailed -> get (s2l "logginglevel::complete") <> Some true_text) ->
  writes (set_logger_parser get s) l = str_eqb v true_text.
Proof.
  intros Hd Ho Hg Hb.
  destruct (get (s2l "logginglevel::complete")) as [vc|] eqn:Ec.
  - destruct (str_eqb_spec vc true_text) as [->|Hn].
    + rewrite (set_logger_complete get s Hd Ec l).
      destruct l; try discriminate; try (rewrite Ho, Hg; reflexivity).
      * exfalso. apply Hb; reflexivity.
      * assert (Hk : get k = Some true_text) by (cbn [option_of] in Ho; congruence).
        rewrite Hg in Hk. replace v with true_text by congruence. now rewrite str_eqb_refl.
    + rewrite (set_logger_eq get s Hd) by (rewrite Ec; congruence). now rewrite Ho, Hg.
  - rewrite (set_logger_eq get s Hd) by (rewrite Ec; congruence). now rewrite Ho, Hg.
Qed.

Lemma set_logger_disabled get s l :
  get (s2l "logginglevel::disabled") <> None -> writes (set_logger_parser get s) l = false.
Proof.
  intro H. unfold set_logger_parser. destruct (get _); [reflexivity|congruence].
Qed.

(** * SetLogger from raw arguments *)
Lemma set_logger_args_ok s args :
  Forall recognised args -> exists s', set_logger_args s args = Ok s'.
Proof.
  intro HF. unfold set_logger_args. destruct (existsb _ args); [eauto|].
  revert s; induction HF as [|el args (pre & l & v & Hin & ->) HF IH]; intro s; cbn [set_logger_args_loop]; [eauto|].
  destruct (find _ LoggingPrefixes) as [[pre' l']|] eqn:E; [apply IH|].
  exfalso. apply (find_none _ _ E) in Hin. cbn [fst] in Hin.
  assert (T : StringStartsWith (pre ++ v) pre = true) by (apply starts_with_spec; exists v; reflexivity).
  congruence.
Qed.

Lemma set_logger_args_ub s args el :
  In el args -> ~ recognised el -> ~ In (s2l "--logginglevel::disabled") args ->
  set_logger_args s args = UB.
Proof.
  intros Hin Hr Hd. unfold set_logger_args.
  replace (existsb (str_eqb (s2l "--logginglevel::disabled")) args) with false.
  - clear Hd. revert s; induction args as [|a args IH]; intro s; [destruct Hin|].
    cbn [set_logger_args_loop]. destruct (find _ LoggingPrefixes) as [[pre l]|] eqn:E; [|reflexivity].
    destruct Hin as [->|Hin]; [|apply IH; auto].
    exfalso. apply Hr. apply find_some in E as [Hi Hs]. cbn [fst] in Hs.
    apply starts_with_spec in Hs as [v ->]. exists pre, l, v. auto.
  - symmetry. apply not_true_is_false. intro H. apply existsb_exists in H as (x & Hx & E).
    destruct (str_eqb_spec (s2l "--logginglevel::disabled") x) as [<-|]; [auto|discriminate].
Qed.

Lemma set_logger_kept get s l :
  get (s2l "logginglevel::disabled") = None ->
  get (s2l "logginglevel::complete") <> Some true_text ->
  (forall k, option_of l = Some k -> get k = None) ->
  writes (set_logger_parser get s) l = writes s l.
Proof.
  intros Hd Hc Hk. rewrite (set_logger_eq get s Hd Hc).
  destruct (option_of l) as [k|]; [|reflexivity]. now rewrite (Hk k eq_refl).
Qed.

Lemma bounce_overridden :
  exists args p' lg',
    add_strings (fun _ => None)
      (fold_left (fun p a => add_argument p a false) column_ctor_arguments empty_parser)
      initial_setup args = (p', lg', Ok tt) /\
    get_value p' (s2l "logginglevel::bouncedetailed") = Ok (s2l "false") /\
    writes lg' LBounceDetailed = true.
Proof.
  exists [s2l "--logginglevel::bouncedetailed=false"; s2l "--logginglevel::complete=true"].
  set (r := add_strings _ _ _ _). exists (fst (fst r)), (snd (fst r)).
  split; [|split].
  - replace (Ok tt) with (snd r) by reflexivity. destruct r as [[? ?] ?]; reflexivity.
  - reflexivity.
  - reflexivity.
Qed.

Lemma recognised_false : ~ recognised (s2l "--foo").
Proof.
  intros (pre & l & v & Hin & E). cbn in Hin.
  repeat (destruct Hin as [Hin|Hin]; [injection Hin as <- <-; discriminate|]). destruct Hin.
Qed.

Lemma raw_args_ub : exists args, set_logger_args initial_setup args = UB.
Proof. exists [s2l "--foo"]. reflexivity. Qed.

Lemma recognised_dec el : recognised el \/ ~ recognised el.
Proof.
  destruct (find (fun pl => StringStartsWith el (fst pl)) LoggingPrefixes) as [[pre l]|] eqn:E.
  - left. apply find_some in E as [Hi Hs]. cbn [fst] in Hs. apply starts_with_spec in Hs as [v ->].
    exists pre, l, v; auto.
  - right. intros (pre & l & v & Hin & ->). apply (find_none _ _ E) in Hin. cbn [fst] in Hin.
    assert (T : StringStartsWith (pre ++ v) pre = true) by (apply starts_with_spec; exists v; reflexivity).
    congruence.
Qed.

Lemma set_logger_args_exact s args :
  (Forall recognised args \/ In (s2l "--logginglevel::disabled") args) <->
  exists s', set_logger_args s args = Ok s'.
Proof.
  split.
  - intros [H|H]; [apply set_logger_args_ok; exact H|].
    unfold set_logger_args. replace (existsb _ args) with true; [eauto|].
    symmetry. apply existsb_exists. exists (s2l "--logginglevel::disabled").
    split; [exact H|apply str_eqb_refl].
  - intros [s' H].
    destruct (in_dec (list_eq_dec ascii_dec) (s2l "--logginglevel::disabled") args) as [Hd|Hd]; [auto|].
    left. apply Forall_forall. intros el Hin.
    destruct (recognised_dec el) as [Hr|Hr]; [exact Hr|].
    rewrite (set_logger_args_ub s args el Hin Hr Hd) in H. discriminate.
Qed.
