(** Proofs for the interface to the baryogenesis calculation. *)
From Coq Require Import Reals Lra.
From Verif.Model Require Import Base Strings Fluid Eta Density EtaConfig.
From Verif.Spec Require Import EtaConfigSpec.
Open Scope list_scope.

Lemma space_blank : forall c, is_space c = true <-> blank c.
Proof.
  intro c. unfold blank. split.
  - destruct c as [[] [] [] [] [] [] [] []]; vm_compute; intro H; try discriminate H; tauto.
  - cbn [In]. intros H. repeat (destruct H as [<-|H]; [reflexivity|]). destruct H.
Qed.
Lemma nospace : forall c, ~ blank c -> is_space c = false.
Proof. intros c H. destruct (is_space c) eqn:E; [|reflexivity]. exfalso. apply H. apply space_blank. exact E. Qed.

Lemma words_word : forall w s cur, Forall (fun c => ~ blank c) w -> words_from (w ++ s) cur = words_from s (cur ++ w).
Proof.
  intros w s. induction w as [|c w IH]; intros cur H; [rewrite app_nil_r; reflexivity|].
  inversion H; subst. cbn [app words_from]. rewrite nospace by assumption. rewrite IH by assumption. rewrite <- app_assoc. reflexivity.
Qed.
Lemma words_gap : forall g s, Forall blank g -> words_from (g ++ s) [] = words_from s [].
Proof.
  intros g s H. induction H as [|c g B H IH]; [reflexivity|]. cbn [app words_from]. apply space_blank in B. rewrite B. cbn [flush]. exact IH.
Qed.
Lemma words_gap_cur : forall g s cur, Forall blank g -> g <> [] -> words_from (g ++ s) cur = flush cur (words_from s []).
Proof.
  intros g s cur H N. destruct H as [|c g B H]; [congruence|]. cbn [app words_from]. apply space_blank in B. rewrite B. rewrite words_gap by exact H. reflexivity.
Qed.
Definition ends (tail : str) : Prop := tail = [] \/ exists c t, tail = c :: t /\ blank c.
Lemma words_tail : forall tail cur, ends tail -> exists ws, words_from tail cur = flush cur ws.
Proof.
  intros tail cur [-> | [c [t [-> B]]]]; [exists []; reflexivity|]. apply space_blank in B. cbn [words_from]. rewrite B. eexists. reflexivity.
Qed.

Lemma span_word : forall s : str, exists w t, s = w ++ t /\ Forall (fun c => ~ blank c) w /\ ends t.
Proof.
  induction s as [|c s [w [t [E [W T]]]]].
  - exists [], []. split; [reflexivity|]. split; [constructor|left; reflexivity].
  - destruct (is_space c) eqn:S.
    + exists [], (c :: s). split; [reflexivity|]. split; [constructor|]. right. exists c, s. split; [reflexivity|]. apply space_blank. exact S.
    + exists (c :: w), t. split; [rewrite E; reflexivity|]. split; [|exact T]. constructor; [|exact W]. intro B. apply space_blank in B. congruence.
Qed.
Lemma span_gap : forall s : str, exists g t, s = g ++ t /\ Forall blank g /\ (t = [] \/ exists c t', t = c :: t' /\ ~ blank c).
Proof.
  induction s as [|c s [g [t [E [G T]]]]].
  - exists [], []. split; [reflexivity|]. split; [constructor|left; reflexivity].
  - destruct (is_space c) eqn:S.
    + exists (c :: g), t. split; [rewrite E; reflexivity|]. split; [constructor; [apply space_blank; exact S|exact G]|exact T].
    + exists [], (c :: s). split; [reflexivity|]. split; [constructor|]. right. exists c, s. split; [reflexivity|]. intro B. apply space_blank in B. congruence.
Qed.

Lemma starts_spec : forall s p, starts_with s p = true <-> exists t, s = p ++ t.
Proof.
  intros s p. unfold starts_with. destruct (str_eqb_spec (firstn (length p) s) p) as [E|E]; split; intro H; try discriminate; try reflexivity.
  - exists (skipn (length p) s). rewrite <- E at 1. symmetry. apply firstn_skipn.
  - destruct H as [t ->]. exfalso. apply E. rewrite firstn_app, Nat.sub_diag, firstn_all, firstn_O, app_nil_r. reflexivity.
Qed.

Definition keyword (key : str) : Prop := key <> [] /\ Forall (fun c => ~ blank c) key.
Definition answer (b : bool) : str := s2l (if b then "yes" else "no").
Lemma keyword_include : keyword (s2l "include").
Proof. split; [discriminate|]. repeat (constructor; [intro B; apply space_blank in B; discriminate B|]). constructor. Qed.
Lemma keyword_massive : keyword (s2l "massive").
Proof. split; [discriminate|]. repeat (constructor; [intro B; apply space_blank in B; discriminate B|]). constructor. Qed.
Lemma answer_word : forall b, answer b <> [] /\ Forall (fun c => ~ blank c) (answer b).
Proof. intros []; (split; [discriminate|]; repeat (constructor; [intro B; apply space_blank in B; discriminate B|]); constructor). Qed.

Lemma setting_words : forall key b line, keyword key -> setting key b line ->
  exists w ws, words (to_lower line) = w :: answer b :: ws /\ starts_with (to_lower line) key = true.
Proof.
  intros key b line [KN KW] [rest [gap [tail [E [R [G [GN T]]]]]]].
  destruct (answer_word b) as [AN AW]. fold (answer b) in E.
  destruct (words_tail tail ([] ++ answer b) T) as [ws W].
  exists (key ++ rest), ws. split.
  - unfold words. rewrite E. rewrite words_word by exact KW. rewrite words_word by exact R. rewrite words_gap_cur by assumption.
    rewrite words_word by exact AW. rewrite W. cbn [app]. destruct key as [|k key]; [congruence|]. cbn [app flush]. destruct (answer b) eqn:AB; [congruence|]. reflexivity.
  - apply starts_spec. eexists. exact E.
Qed.
Lemma yes_or_no_answer : forall w b ws, yes_or_no (w :: answer b :: ws) = Ok b.
Proof. intros w [] ws; reflexivity. Qed.

Lemma words_setting : forall key b line, keyword key -> starts_with (to_lower line) key = true ->
  yes_or_no (words (to_lower line)) = Ok b -> setting key b line.
Proof.
  intros key b line [KN KW] S Y. apply starts_spec in S. destruct S as [s E].
  destruct (span_word s) as [rest [t [ES [R T]]]]. destruct (span_gap t) as [gap [u [ET [G U]]]].
  assert (W : words (to_lower line) = flush (key ++ rest) (words_from u []) \/ gap = [] /\ t = []).
  { destruct gap as [|g gap].
    - destruct T as [T|[c [t' [T B]]]]; [right; split; [reflexivity|exact T]|]. exfalso. cbn [app] in ET. destruct U as [U|[c' [u' [U NB]]]]; [congruence|].
      assert (c = c') by congruence. subst. contradiction.
    - left. unfold words. rewrite E, ES, ET. rewrite words_word by exact KW. rewrite words_word by exact R. rewrite words_gap_cur by (try exact G; discriminate). reflexivity. }
  assert (KR : forall ws, flush (key ++ rest) ws = (key ++ rest) :: ws) by (intro; destruct key; [congruence|reflexivity]).
  destruct W as [W|[G0 T0]].
  2: { exfalso. rewrite T0 in ES. unfold words in Y. rewrite E, ES in Y.
       rewrite words_word in Y by exact KW. rewrite words_word in Y by exact R. cbn [words_from] in Y.
       cbn [app] in Y. rewrite KR in Y. unfold yes_or_no in Y. cbn [length Nat.ltb Nat.leb] in Y. discriminate Y. }
  rewrite W, KR in Y. destruct (span_word u) as [v [tail [EU [V TL]]]].
  destruct U as [U|[c [u' [U NB]]]].
  { subst u. cbn [words_from flush] in Y. unfold yes_or_no in Y. cbn in Y. discriminate Y. }
  assert (VN : v <> []).
  { intro X. subst v. cbn [app] in EU. destruct TL as [TL|[c' [t' [TL B]]]]; [congruence|]. assert (c = c') by congruence. subst. contradiction. }
  rewrite EU in Y. rewrite words_word in Y by exact V. cbn [app] in Y. destruct (words_tail tail v TL) as [ws WT]. rewrite WT in Y.
  destruct v as [|v0 v]; [congruence|]. cbn [flush] in Y. unfold yes_or_no in Y. cbn [length Nat.ltb Nat.leb nth] in Y.
  assert (V' : v0 :: v = answer b).
  { destruct (str_eqb_spec (v0 :: v) (s2l "yes")) as [Q|Q]; destruct (str_eqb_spec (v0 :: v) (s2l "no")) as [Q'|Q']; cbn [negb andb] in Y; try discriminate Y;
      apply (f_equal (fun o => match o with Ok x => x | _ => b end)) in Y; subst b; try exact Q; exact Q'. }
  exists rest, gap, tail. split; [rewrite E, ES, ET, EU, V'; unfold answer; reflexivity|].
  split; [exact R|]. split; [exact G|]. split; [|exact TL].
  intro X. subst gap. cbn [app] in ET. subst t. destruct T as [T|[c' [t' [T B]]]]; [congruence|]. assert (c = c') by congruence. subst. contradiction.
Qed.

Lemma include_not_massive : forall l, starts_with l (s2l "include") = true -> starts_with l (s2l "massive") = false.
Proof.
  intros l H. apply starts_spec in H. destruct H as [t ->]. reflexivity.
Qed.
Lemma comment_not_keyword : forall line, starts_with line (s2l "#") || str_eqb line [] = true ->
  starts_with (to_lower line) (s2l "include") = false /\ starts_with (to_lower line) (s2l "massive") = false.
Proof.
  intros line H. apply orb_prop in H. destruct H as [H|H].
  - apply starts_spec in H. destruct H as [t ->]. split; reflexivity.
  - destruct (str_eqb_spec line []); [subst; split; reflexivity|discriminate].
Qed.

Definition apply_item (st : list bool * Z) (i : item) : list bool * Z :=
  match i with
  | Include b => (fst st ++ [b], snd st)
  | Massive b => (fst st, if b then 1%Z else snd st)
  | Text => st
  end.

Lemma line_forward : forall st line i, says line i -> config_line st line = Ok (apply_item st i).
Proof.
  intros st line i H. unfold config_line.
  destruct (starts_with line (s2l "#") || str_eqb line []) eqn:C.
  - destruct (comment_not_keyword line C) as [A B]. destruct i as [b|b|]; cbn [says] in H.
    + destruct (setting_words _ b line keyword_include H) as [w [ws [_ S]]]. congruence.
    + destruct (setting_words _ b line keyword_massive H) as [w [ws [_ S]]]. congruence.
    + reflexivity.
  - destruct i as [b|b|]; cbn [says apply_item] in *.
    + destruct (setting_words _ b line keyword_include H) as [w [ws [W S]]]. rewrite S, (include_not_massive _ S), W. rewrite yes_or_no_answer. reflexivity.
    + destruct (setting_words _ b line keyword_massive H) as [w [ws [W S]]].
      destruct (starts_with (to_lower line) (s2l "include")) eqn:I; [rewrite (include_not_massive _ I) in S; discriminate|].
      rewrite S, W. cbn [bind]. rewrite yes_or_no_answer. reflexivity.
    + destruct H as [HI HM].
      destruct (starts_with (to_lower line) (s2l "include")) eqn:I; [apply starts_spec in I; destruct I as [t I]; exfalso; exact (HI t I)|].
      destruct (starts_with (to_lower line) (s2l "massive")) eqn:M; [apply starts_spec in M; destruct M as [t M]; exfalso; exact (HM t M)|]. reflexivity.
Qed.
Lemma text_line : forall line, starts_with (to_lower line) (s2l "include") = false -> starts_with (to_lower line) (s2l "massive") = false -> says line Text.
Proof.
  intros line A B. split; intros t E.
  - assert (X : starts_with (to_lower line) (s2l "include") = true) by (apply starts_spec; exists t; exact E). congruence.
  - assert (X : starts_with (to_lower line) (s2l "massive") = true) by (apply starts_spec; exists t; exact E). congruence.
Qed.
Lemma yes_or_no_cases : forall ws, (exists b, yes_or_no ws = Ok b) \/ yes_or_no ws = Throw RuntimeError.
Proof. intro ws. unfold yes_or_no. destruct (Nat.ltb (length ws) 2); [right; reflexivity|]. destruct (_ && _); [right; reflexivity|left; eexists; reflexivity]. Qed.
Lemma line_backward : forall st line, (exists i, says line i) \/ config_line st line = Throw RuntimeError.
Proof.
  intros st line. destruct (starts_with (to_lower line) (s2l "include")) eqn:I.
  - destruct (yes_or_no_cases (words (to_lower line))) as [[b Y]|Y].
    + left. exists (Include b). apply (words_setting _ b line keyword_include I Y).
    + right. unfold config_line. destruct (starts_with line (s2l "#") || str_eqb line []) eqn:C; [destruct (comment_not_keyword line C); congruence|]. rewrite I, Y. reflexivity.
  - destruct (starts_with (to_lower line) (s2l "massive")) eqn:M.
    + destruct (yes_or_no_cases (words (to_lower line))) as [[b Y]|Y].
      * left. exists (Massive b). apply (words_setting _ b line keyword_massive M Y).
      * right. unfold config_line. destruct (starts_with line (s2l "#") || str_eqb line []) eqn:C; [destruct (comment_not_keyword line C); congruence|]. rewrite I. cbn [bind]. rewrite M, Y. reflexivity.
    + left. exists Text. apply text_line; assumption.
Qed.

Fixpoint massive_flag (start : Z) (items : list item) : Z :=
  match items with [] => start | Massive true :: l => massive_flag 1 l | _ :: l => massive_flag start l end.
Lemma massive_flag_1 : forall items, massive_flag 1 items = 1%Z.
Proof. induction items as [|[b|[]|] items IH]; try exact IH; reflexivity. Qed.
Lemma massive_flag_spec : forall items, massive_flag 0 items = if existsb (fun i => match i with Massive true => true | _ => false end) items then 1%Z else 0%Z.
Proof. induction items as [|[b|[]|] items IH]; cbn [massive_flag existsb orb]; try exact IH; [reflexivity|apply massive_flag_1]. Qed.

Lemma lines_forward : forall lines items, Forall2 says lines items -> forall st,
  config_lines st lines = Ok (fst st ++ included items, massive_flag (snd st) items).
Proof.
  intros lines items H. induction H as [|line i lines items L H IH]; intro st; cbn [config_lines included massive_flag].
  - rewrite app_nil_r. destruct st; reflexivity.
  - rewrite (line_forward st line i L). cbn [bind]. rewrite IH. destruct i as [b|[]|]; cbn [apply_item fst snd]; rewrite <- ?app_assoc; reflexivity.
Qed.
Lemma lines_backward : forall lines st, (exists items, Forall2 says lines items) \/ config_lines st lines = Throw RuntimeError.
Proof.
  induction lines as [|line lines IH]; intro st; [left; exists []; constructor|]. cbn [config_lines].
  destruct (line_backward st line) as [[i L]|E]; [|right; rewrite E; reflexivity].
  rewrite (line_forward st line i L). cbn [bind]. destruct (IH (apply_item st i)) as [[items F]|E]; [|right; exact E].
  left. exists (i :: items). constructor; assumption.
Qed.

Lemma read_config : forall lines r, ReadConfigFile (Some lines) = Ok r <->
  exists items, Forall2 says lines items /\ fst r = included items /\
    snd r = (if existsb (fun i => match i with Massive true => true | _ => false end) items then 1%Z else 0%Z).
Proof.
  intros lines r. unfold ReadConfigFile. split.
  - intro E. destruct (lines_backward lines ([], 0%Z)) as [[items F]|X]; [|congruence]. exists items. split; [exact F|].
    rewrite (lines_forward lines items F) in E. apply (f_equal (fun o => match o with Ok x => x | _ => r end)) in E. subst r. cbn [fst snd app].
    split; [reflexivity|apply massive_flag_spec].
  - intros [items [F [A B]]]. rewrite (lines_forward lines items F). cbn [fst snd app]. rewrite massive_flag_spec, <- A, <- B. destruct r; reflexivity.
Qed.
Lemma read_config_throws : forall lines, (forall r, ReadConfigFile (Some lines) <> Ok r) -> ReadConfigFile (Some lines) = Throw RuntimeError.
Proof.
  intros lines H. unfold ReadConfigFile in *. destruct (lines_backward lines ([], 0%Z)) as [[items F]|X]; [|exact X].
  exfalso. apply (H _ (lines_forward lines items F ([], 0%Z))).
Qed.

(** the list of results *)
Lemma methods5 : forall i, length (i_methods i) = 5%nat -> exists a b c d e, i_methods i = [a; b; c; d; e].
Proof.
  intros i H. destruct (i_methods i) as [|a [|b [|c [|d [|e [|]]]]]]; try discriminate H. exists a, b, c, d, e. reflexivity.
Qed.
Lemma legend_ok : forall i, length (i_methods i) = 5%nat -> legend i = Ok (chosen (i_methods i) schemes).
Proof.
  intros i H. destruct (methods5 i H) as [a [b [c [d [e E]]]]]. unfold legend, push_if, method_at. rewrite E. cbn [nth_error bind].
  destruct a, b, c, d, e; reflexivity.
Qed.
Definition all_results (i : interface) : list (outcome R) :=
  [network_eta i top; network_eta i bottom; network_eta i tau; wl_mubl (i_wall i) true; wl_mubl (i_wall i) false].
Fixpoint sequence {A} (l : list (outcome A)) : outcome (list A) :=
  match l with [] => Ok [] | x :: l => bind x (fun v => bind (sequence l) (fun vs => Ok (v :: vs))) end.
Lemma calc_sequence : forall i, length (i_methods i) = 5%nat -> CalcEta i = sequence (chosen (i_methods i) (all_results i)).
Proof.
  intros i H. destruct (methods5 i H) as [a [b [c [d [e E]]]]]. unfold CalcEta, push_if, method_at, all_results. rewrite E. cbn [nth_error bind].
  destruct a, b, c, d, e; reflexivity.
Qed.
Lemma sequence_ok : forall A (l : list (outcome A)) vs, sequence l = Ok vs -> Forall2 (fun o v => o = Ok v) l vs.
Proof.
  intros A l. induction l as [|x l IH]; intros vs H; cbn [sequence] in H.
  - apply (f_equal (fun o => match o with Ok x => x | _ => [] end)) in H. subst vs. constructor.
  - destruct x as [v| | |]; cbn [bind] in H; try discriminate H. destruct (sequence l) as [us| | |]; cbn [bind] in H; try discriminate H.
    apply (f_equal (fun o => match o with Ok x => x | _ => [] end)) in H. subst vs. constructor; [reflexivity|apply IH; reflexivity].
Qed.
Lemma sequence_all : forall A (l : list (outcome A)), (forall o, In o l -> exists v, o = Ok v) -> exists vs, sequence l = Ok vs.
Proof.
  intros A l. induction l as [|x l IH]; intro H; [exists []; reflexivity|]. cbn [sequence].
  destruct (H x (or_introl eq_refl)) as [v ->]. destruct IH as [vs E]; [intros o I; apply H; right; exact I|]. rewrite E. eexists. reflexivity.
Qed.
Lemma chosen_length : forall A B flags (l : list A) (m : list B), length l = length m -> length (chosen flags l) = length (chosen flags m).
Proof.
  intros A B flags. induction flags as [|b flags IH]; intros l m H; [reflexivity|].
  destruct l, m; try discriminate H; [reflexivity|]. cbn [chosen]. injection H as H. destruct b; cbn [length]; rewrite (IH l m H); reflexivity.
Qed.
Lemma F2_length : forall A B (P : A -> B -> Prop) l m, Forall2 P l m -> length l = length m.
Proof. intros A B P l m H. induction H; cbn [length]; congruence. Qed.
Lemma calc_legend : forall i names etas, length (i_methods i) = 5%nat -> legend i = Ok names -> CalcEta i = Ok etas ->
  length names = length etas /\ forall k name eta, nth_error names k = Some name -> nth_error etas k = Some eta ->
  exists j, nth_error (i_methods i) j = Some true /\ nth_error schemes j = Some name /\ nth_error (all_results i) j = Some (Ok eta).
Proof.
  intros i names etas H L C. rewrite (legend_ok i H) in L. rewrite (calc_sequence i H) in C. apply sequence_ok in C.
  apply (f_equal (fun o => match o with Ok x => x | _ => [] end)) in L. subst names.
  assert (LEN : length (chosen (i_methods i) schemes) = length (chosen (i_methods i) (all_results i))) by (apply chosen_length; reflexivity).
  split; [rewrite LEN; exact (F2_length _ _ _ _ _ C)|].
  assert (GEN : forall flags (l : list str) (m : list (outcome R)) es, length l = length m -> Forall2 (fun o v => o = Ok v) (chosen flags m) es ->
    forall k name eta, nth_error (chosen flags l) k = Some name -> nth_error es k = Some eta ->
    exists j, nth_error flags j = Some true /\ nth_error l j = Some name /\ nth_error m j = Some (Ok eta)).
  { clear. induction flags as [|b flags IH]; intros l m es LM F k name eta N E; [destruct k; discriminate N|].
    destruct l as [|x l], m as [|y m]; try discriminate LM; [destruct k; discriminate N|]. injection LM as LM. cbn [chosen] in *. destruct b.
    - inversion F as [|? v ? vs Y F']; subst. destruct k as [|k].
      + exists 0%nat. cbn in *. split; [reflexivity|]. split; congruence.
      + destruct (IH l m vs LM F' k name eta N E) as [j J]. exists (S j). exact J.
    - destruct (IH l m es LM F k name eta N E) as [j J]. exists (S j). exact J. }
  intros k name eta. apply (GEN (i_methods i) schemes (all_results i) etas); [reflexivity|exact C].
Qed.

(** the massless bottom quark *)
Lemma flag_throws : forall flag m, flag <> 1%Z -> flag <> 2%Z -> flag_mass flag m = Throw RuntimeError.
Proof. intros flag m A B. unfold flag_mass. apply Z.eqb_neq in A, B. rewrite A, B. reflexivity. Qed.
Lemma integrate_throws : forall fuel tb ctl f x t t_end h, tb_stages tb <> [] -> t <> t_end -> (forall t x, f t x = Throw RuntimeError) ->
  forall r, integrate fuel tb ctl f x t t_end h <> Ok r.
Proof.
  intros fuel tb ctl f x t t_end h S N F r. destruct fuel as [|fuel]; [discriminate|]. cbn [integrate].
  destruct (Req_EM_T t t_end); [contradiction|]. destruct (tb_stages tb) as [|[c row] rows]; [congruence|]. cbn [stages]. rewrite F. discriminate.
Qed.
Lemma values_throws : forall nL zs z, In z zs -> (forall v, nL z <> Ok v) -> forall vs, values nL zs <> Ok vs.
Proof.
  intros nL zs. induction zs as [|y zs IH]; intros z I H vs E; [destruct I|]. cbn [values] in E.
  destruct (nL y) as [v| | |] eqn:Y; try discriminate E. cbn [bind] in E. destruct I as [->|I]; [exact (H v Y)|].
  destruct (values nL zs) as [us| | |] eqn:V; try discriminate E. exact (IH z I H us eq_refl).
Qed.
Lemma network_throws : forall i net, net = bottom \/ net = tau -> i_flag i <> 1%Z -> i_flag i <> 2%Z ->
  tb_stages (wl_tb (i_wall i)) <> [] -> (exists z, In z (wl_zs (i_wall i)) /\ z <> wl_zmax (i_wall i)) ->
  forall v, network_eta i net <> Ok v.
Proof.
  intros i net N A B S [z [I NZ]] v E. unfold network_eta, asymmetry in E.
  match type of E with bind (values ?f ?zs) _ = _ => pose proof (values_throws f zs z I) as V; destruct (values f zs) as [vs| | |] eqn:EV; try discriminate E end.
  refine (V _ vs eq_refl). clear E V EV. intros u U. unfold Calc_nL in U.
  match type of U with bind (integrate ?fu ?t ?c ?f ?x ?a ?b ?h) _ = _ => pose proof (integrate_throws fu t c f x a b h S) as X; destruct (integrate fu t c f x a b h) as [r| | |]; try discriminate U end.
  apply (X (fun E => NZ (eq_sym E))) with (r := r); [|reflexivity]. intros t x. destruct N as [-> | ->]; cbn [network_rhs]; [unfold bot_rhs|unfold tau_rhs]; rewrite flag_throws by assumption; reflexivity.
Qed.
