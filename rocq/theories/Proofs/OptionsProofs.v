From Coq Require Import QArith Lqa.
From Verif.Model Require Import Base Strings Models Minim Options.
From Verif.Model Require Logger Parser.
From Verif.Spec Require Import OptionsSpec.
Local Open Scope Z_scope.

Lemma dle_num p q : dle (Num p) (Num q) = true <-> (p <= q)%Q.
Proof. cbn. apply Qle_bool_iff. Qed.
Lemma dlt_num p q : dlt (Num p) (Num q) = true <-> (p < q)%Q.
Proof.
  cbn. rewrite andb_true_iff, negb_true_iff, Qle_bool_iff. split.
  - intros (A & B). apply Qle_lteq in A. destruct A as [A|A]; [exact A|]. apply Qeq_bool_iff in A. congruence.
  - intro A. split; [lra|]. destruct (Qeq_bool p q) eqn:E; [|reflexivity]. apply Qeq_bool_iff in E. lra.
Qed.
Lemma deq_num p q : deq (Num p) (Num q) = true <-> (p == q)%Q.
Proof. cbn. apply Qeq_bool_iff. Qed.
Lemma dlt_num_f p q : dlt (Num p) (Num q) = false <-> (q <= p)%Q.
Proof.
  pose proof (dlt_num p q) as H. destruct (dlt (Num p) (Num q)); split; intro A; try discriminate; try reflexivity.
  - destruct H as (H & _). specialize (H eq_refl). lra.
  - destruct H as (_ & H). destruct (Qlt_le_dec p q) as [L|L]; [apply H in L; discriminate|exact L].
Qed.
Lemma dle_num_f p q : dle (Num p) (Num q) = false <-> (q < p)%Q.
Proof.
  pose proof (dle_num p q) as H. destruct (dle (Num p) (Num q)); split; intro A; try discriminate; try reflexivity.
  - destruct H as (H & _). specialize (H eq_refl). lra.
  - destruct H as (_ & H). destruct (Qlt_le_dec q p) as [L|L]; [exact L|apply H in L; discriminate].
Qed.
Lemma deq_num_f p q : deq (Num p) (Num q) = false <-> ~ (p == q)%Q.
Proof. rewrite <- deq_num. destruct (deq (Num p) (Num q)); split; congruence. Qed.

Lemma min_ok b o : minimizer_check b o = Ok tt <-> minimizers_ok b o.
Proof.
  unfold minimizer_check, minimizers_ok, CalcWhichMinimizer.
  destruct (UseGSL o), (UseCMAES o), (UseNLopt o), (haveGSL b), (haveCMAES b), (haveNLopt b); cbn; split; intro H; try discriminate; try reflexivity;
    try (repeat split; auto; fail); destruct H as (A & B & C & [D|[D|D]]); try discriminate; try (specialize (A eq_refl); discriminate); try (specialize (B eq_refl); discriminate); try (specialize (C eq_refl); discriminate).
Qed.
Lemma model_set m : model_eqb m NotSet = false <-> m <> NotSet.
Proof. destruct m; cbn; split; congruence. Qed.
Lemma in01 q : outside01 (Num q) = false <-> (0 <= q /\ q <= 1)%Q.
Proof. unfold outside01, dz. rewrite orb_false_iff, !dlt_num_f. reflexivity. Qed.
Lemma wall_ok q : vwall_bad (Num q) = false <-> (q == -1 \/ q == -2 \/ (0 < q /\ q <= 1))%Q.
Proof.
  unfold vwall_bad, dz. change (inject_Z (-1)) with (-1)%Q. change (inject_Z (-2)) with (-2)%Q. change (inject_Z 0) with 0%Q. change (inject_Z 1) with 1%Q.
  destruct (deq (Num q) (Num (-1))) eqn:A; [apply deq_num in A; cbn; tauto|]. apply deq_num_f in A.
  destruct (deq (Num q) (Num (-2))) eqn:B; [apply deq_num in B; cbn; tauto|]. apply deq_num_f in B.
  cbn [negb andb]. rewrite orb_false_iff, dle_num_f, dlt_num_f. tauto.
Qed.
Lemma eff_ok q : (negb (deq (Num q) (dz (-1))) && outside01 (Num q) = false) <-> (q == -1 \/ (0 <= q /\ q <= 1))%Q.
Proof.
  unfold dz. change (inject_Z (-1)) with (-1)%Q. destruct (deq (Num q) (Num (-1))) eqn:A; [apply deq_num in A; cbn; tauto|]. apply deq_num_f in A.
  cbn [negb andb]. rewrite in01. tauto.
Qed.

Lemma accepts p b o : minimizers_ok b o -> line_range o -> temperatures o -> other_options p o -> 0 <= CheckEWSR o <= (match p with CalcTemps => 2 | CalcGW => 3 end) ->
  good p b o = Ok true.
Proof.
  intros M (L1 & L2) (T0 & t & Et & Ht) (Hm & (v & Ev & Hv) & He & Hmode & Hp & Hn & (q1 & E1 & H1) & (q2 & E2 & H2)) Hs.
  unfold good. rewrite (proj2 (min_ok b o) M). cbn [bind]. rewrite (proj2 (model_set _) Hm), Ev, E1, E2, T0, Et.
  rewrite (proj2 (wall_ok v) Hv), (proj2 (in01 q1) H1), (proj2 (in01 q2) H2).
  rewrite (proj2 (Z.eqb_neq (firstline o) 0)), (proj2 (Z.eqb_neq (lastline o) 0)), (proj2 (Z.ltb_ge (lastline o) (firstline o))) by lia.
  rewrite (proj2 (Z.ltb_ge 3 (MultiStepMode o))), (proj2 (Z.ltb_ge (MultiStepMode o) (-1))), (proj2 (Z.ltb_ge (num_check_pts o) 0)), (proj2 (Z.ltb_ge (CheckEWSR o) 0)),
    (proj2 (Z.ltb_ge (CheckNLO o) 0)), (proj2 (Z.ltb_ge 1 (CheckNLO o))) by lia.
  destruct p; cbn [orb].
  - rewrite (proj2 (Z.ltb_ge (firstline o) 0)), (proj2 (Z.ltb_ge (lastline o) 0)), (proj2 (Z.ltb_ge 2 (CheckEWSR o))) by lia. cbn [orb]. unfold dz.
    rewrite (proj2 (dle_num_f t (inject_Z 0))) by exact Ht. reflexivity.
  - rewrite (proj2 (Z.ltb_ge 3 (CheckEWSR o))) by lia. unfold dz at 1. rewrite (proj2 (dlt_num_f t (inject_Z 0))) by (change (inject_Z 0) with 0%Q; lra).
    destruct (He eq_refl) as (e & Ee & He'). rewrite Ee, (proj2 (eff_ok e) He'). reflexivity.
Qed.

(** what acceptance says when no number is NaN or infinite *)
Definition plain (o : options) : Prop :=
  exists t v e p1 p2, templow o = dz 0 /\ temphigh o = Num t /\ vwall o = Num v /\ epsturb o = Num e /\ perc_prbl o = Num p1 /\ compl_prbl o = Num p2.
Lemma accepted p b o : plain o -> good p b o = Ok true ->
  minimizers_ok b o /\ other_options p o /\ 0 <= CheckEWSR o <= (match p with CalcTemps => 2 | CalcGW => 3 end) /\ firstline o <= lastline o /\ firstline o <> 0 /\ lastline o <> 0 /\
  (p = CalcTemps -> line_range o /\ temperatures o) /\ exists t, temphigh o = Num t /\ (0 <= t)%Q.
Proof.
  intros (t & v & e & p1 & p2 & E0 & Et & Ev & Ee & E1 & E2). unfold good.
  destruct (minimizer_check b o) as [[]| | |] eqn:M; cbn [bind]; try discriminate. apply min_ok in M. intro G. assert (G' := f_equal (fun x => match x with Ok r => r | _ => false end) G). cbn in G'. clear G. revert G'.
  rewrite Ev, E1, E2, E0, Et.
  destruct (model_eqb (Model o) NotSet) eqn:Hm; [discriminate|]. apply model_set in Hm.
  destruct ((firstline o =? 0) || (lastline o =? 0)) eqn:H1; [discriminate|]. apply orb_false_iff in H1. destruct H1 as (H1 & H1').
  destruct (match p with CalcTemps => (firstline o <? 0) || (lastline o <? 0) | CalcGW => false end) eqn:H2; [discriminate|].
  destruct (lastline o <? firstline o) eqn:H3; [discriminate|].
  destruct (match p with CalcTemps => dle (Num t) (dz 0) | CalcGW => dlt (Num t) (dz 0) end) eqn:H4; [discriminate|].
  destruct (match p with CalcTemps => false | CalcGW => negb (deq (epsturb o) (dz (-1))) && outside01 (epsturb o) end) eqn:H5; [discriminate|].
  destruct (vwall_bad (Num v)) eqn:H6; [discriminate|]. apply wall_ok in H6.
  destruct ((3 <? MultiStepMode o) || (MultiStepMode o <? -1)) eqn:H7; [discriminate|]. apply orb_false_iff in H7. destruct H7 as (H7 & H7').
  destruct (num_check_pts o <? 0) eqn:H8; [discriminate|].
  destruct ((match p with CalcTemps => 2 | CalcGW => 3 end <? CheckEWSR o) || (CheckEWSR o <? 0)) eqn:H9; [discriminate|]. apply orb_false_iff in H9. destruct H9 as (H9 & H9').
  destruct ((CheckNLO o <? 0) || (1 <? CheckNLO o)) eqn:H10; [discriminate|]. apply orb_false_iff in H10. destruct H10 as (H10 & H10').
  destruct (outside01 (Num p1)) eqn:H11; [discriminate|]. apply in01 in H11. destruct (outside01 (Num p2)) eqn:H12; [discriminate|]. apply in01 in H12. intros _.
  apply Z.eqb_neq in H1, H1'. apply Z.ltb_ge in H3, H7, H7', H8, H9, H9', H10, H10'.
  split; [exact M|]. split.
  { unfold other_options. split; [exact Hm|]. split; [exists v; auto|]. split.
    - intros ->. rewrite Ee in H5. apply eff_ok in H5. exists e. auto.
    - repeat split; try lia; [exists p1|exists p2]; auto. }
  split; [lia|]. split; [exact H3|]. split; [exact H1|]. split; [exact H1'|]. split.
  - intros ->. apply orb_false_iff in H2. destruct H2 as (A & B). apply Z.ltb_ge in A, B. unfold dz in H4. apply dle_num_f in H4. change (inject_Z 0) with 0%Q in H4.
    split; [unfold line_range; lia|]. split; [exact E0|]. exists t. auto.
  - exists t. split; [reflexivity|]. destruct p; unfold dz in H4; change (inject_Z 0) with 0%Q in H4; [apply dle_num_f in H4; lra|apply dlt_num_f in H4; exact H4].
Qed.

Lemma rejects p b o t : templow o = dz 0 -> temphigh o = Num t -> (t < 0)%Q -> good p b o <> Ok true.
Proof.
  intros E0 Et Ht. unfold good. destruct (minimizer_check b o) as [[]| | |]; cbn [bind]; try discriminate. rewrite E0, Et.
  destruct (model_eqb (Model o) NotSet); [discriminate|]. destruct ((firstline o =? 0) || (lastline o =? 0)); [discriminate|].
  destruct p.
  - destruct ((firstline o <? 0) || (lastline o <? 0)); [discriminate|]. destruct (lastline o <? firstline o); [discriminate|].
    unfold dz at 1. rewrite (proj2 (dle_num t (inject_Z 0))) by (change (inject_Z 0) with 0%Q; lra). discriminate.
  - destruct (lastline o <? firstline o); [discriminate|]. unfold dz at 1. rewrite (proj2 (dlt_num t (inject_Z 0))) by exact Ht. discriminate.
Qed.

(** the number read for each documented text *)
Lemma bind_ok {A B} (x : outcome A) (f : A -> outcome B) r : bind x f = Ok r -> exists a, x = Ok a /\ f a = Ok r.
Proof. destruct x; cbn; try discriminate. eauto. Qed.
Lemma read_code get stoi stod p b names o text code : read_options get stoi stod p b names = Ok o -> get (s2l "checkewsr") = Some text -> In (text, code) ewsr_texts ->
  CheckEWSR o = code.
Proof.
  unfold read_options. intros H Hg Hin.
  repeat match type of H with bind _ _ = _ => apply bind_ok in H; let a := fresh "a" in let E := fresh "E" in destruct H as (a & E & H) end.
  injection H as <-. cbn [CheckEWSR]. unfold opt in E18. rewrite Hg in E18. unfold read_ewsr in E18. injection E18 as <-.
  cbn in Hin. destruct Hin as [Q|[Q|[Q|[Q|[]]]]]; injection Q as <- <-; reflexivity.
Qed.

(** positional arguments *)
Lemma key_value_named k v : In k positional -> get_key_value (s2l "--" ++ k ++ s2l "=" ++ v) = Ok (k, v).
Proof.
  intro H. unfold positional in H. cbn [In] in H. unfold get_key_value, substr.
  destruct H as [<-|[<-|[<-|[<-|[<-|[]]]]]]; reflexivity.
Qed.
Lemma starts_dash_cons c a : StringStartsWith (c :: a) (s2l "-") = ascii_eqb "-" c.
Proof.
  unfold StringStartsWith. change (s2l "-") with ["-"%char]. cbn [length Nat.leb andb find_str match_at]. destruct (ascii_eqb "-" c); [reflexivity|].
  cbn [andb]. destruct (find_str ["-"%char] a); reflexivity.
Qed.
Lemma starts_dash a : StringStartsWith a (s2l "-") = true <-> dashed a.
Proof.
  unfold dashed. destruct a as [|c a].
  - cbn. split; [discriminate|]. intros (r & E). discriminate.
  - rewrite starts_dash_cons. unfold ascii_eqb. rewrite Ascii.eqb_eq. split; [intros <-; eauto|]. intros (r & Q). injection Q as Q _. now symmetry.
Qed.
Lemma double_dash a : StringStartsWith a (s2l "--") = true -> StringStartsWith a (s2l "-") = true.
Proof.
  destruct a as [|c a]; [discriminate|]. rewrite starts_dash_cons. unfold StringStartsWith. change (s2l "--") with ["-"%char; "-"%char].
  rewrite andb_true_iff. intros (_ & H). cbn [find_str match_at] in H. destruct (ascii_eqb "-" c); [reflexivity|]. cbn [andb] in H.
  destruct (find_str ["-"%char; "-"%char] a); discriminate.
Qed.
Lemma convert_dashed a r : dashed a -> convert_input (a :: r) = a :: r.
Proof. intro H. unfold convert_input. apply starts_dash in H. rewrite H, orb_true_r. reflexivity. Qed.
Lemma convert_plain a r : ~ dashed a ->
  convert_input (a :: r) = map (fun '(k, v) => s2l "--" ++ k ++ s2l "=" ++ v) (combine positional (a :: r)).
Proof.
  intro H. unfold convert_input. destruct (StringStartsWith a (s2l "-")) eqn:E; [apply starts_dash in E; contradiction|].
  destruct (StringStartsWith a (s2l "--")) eqn:F; [apply double_dash in F; congruence|]. cbn [orb].
  destruct r as [|r1 [|r2 [|r3 [|r4 r]]]]; reflexivity.
Qed.

(** the minimiser switches *)
Lemma read_minimizers get stoi stod p b names o :
  read_options get stoi stod p b names = Ok o ->
  (forall v, get (s2l "usegsl") = Some v -> UseGSL o = true <-> v = s2l "true") /\
  (forall v, get (s2l "usecmaes") = Some v -> UseCMAES o = true <-> v = s2l "true") /\
  (forall v, get (s2l "usenlopt") = Some v -> UseNLopt o = true <-> v = s2l "true") /\
  (get (s2l "usegsl") = None -> UseGSL o = haveGSL b) /\
  (get (s2l "usecmaes") = None -> UseCMAES o = haveCMAES b) /\
  (get (s2l "usenlopt") = None -> UseNLopt o = haveNLopt b).
Proof.
  unfold read_options. intros H.
  repeat match type of H with bind _ _ = _ => apply bind_ok in H; let a := fresh "a" in let E := fresh "E" in destruct H as (a & E & H) end.
  injection H as <-. cbn [UseGSL UseCMAES UseNLopt]. unfold opt in E6, E7, E8.
  assert (T : forall v, is v "true" = true <-> v = s2l "true")
    by (intro v; unfold is; destruct (str_eqb_spec v (s2l "true")); split; congruence).
  split; [intros v G; rewrite G in E6; injection E6 as <-; apply T|].
  split; [intros v G; rewrite G in E7; injection E7 as <-; apply T|].
  split; [intros v G; rewrite G in E8; injection E8 as <-; apply T|].
  split; [intros G; rewrite G in E6; injection E6 as <-; reflexivity|].
  split; [intros G; rewrite G in E7; injection E7 as <-; reflexivity|].
  intros G; rewrite G in E8; injection E8 as <-; reflexivity.
Qed.

Lemma bool_differs : forall prog, exists p stoi stod b o,
  Parser.get_value p (s2l "useGSL") = Ok (s2l "True") /\ Parser.get_value_bool p (s2l "useGSL") = Ok true /\
  read_options (Parser.get_opt p) stoi stod prog b ModelNames = Ok o /\ UseGSL o = false /\ haveGSL b = true.
Proof.
  intro prog.
  exists (fst (fst (Parser.add_kvs
      (fold_left (fun p a => Parser.add_argument p (s2l a) false)
         ["model"; "input"; "output"; "firstline"; "lastline"; "usegsl"]%string Parser.empty_parser)
      Logger.initial_setup
      (map (fun kv => (s2l (fst kv), s2l (snd kv)))
         [("model", "sm"); ("input", "i"); ("output", "o"); ("firstline", "1"); ("lastline", "1"); ("usegsl", "True")]%string)))).
  exists (fun _ => Some 1), (fun _ => None), (mkBuild true true true). eexists.
  split; [vm_compute; reflexivity|]. split; [vm_compute; reflexivity|].
  split; [destruct prog; vm_compute; reflexivity|]. destruct prog; split; reflexivity.
Qed.

(** ** C90 *)
Lemma bind_ext {A B} (x y : outcome A) (f g : A -> outcome B) : x = y -> (forall a, f a = g a) -> bind x f = bind y g.
Proof. intros -> H. destruct y; cbn; auto. Qed.
Section Default.
  Variable get : str -> option str.
  Variable stoi : str -> option Z.
  Variable stod : str -> option dnum.
  Variables k v : str.
  Let get' := with_option get k v.
  Lemma opt_other {A} name (d : A) conv : s2l name <> k -> opt get' name d conv = opt get name d conv.
  Proof. intro N. unfold opt, get', with_option. destruct (str_eqb_spec (s2l name) k); [contradiction|reflexivity]. Qed.
  Lemma req_other {A} name (conv : str -> outcome A) : s2l name <> k -> req get' name conv = req get name conv.
  Proof. intro N. unfold req, get', with_option. destruct (str_eqb_spec (s2l name) k); [contradiction|reflexivity]. Qed.
  Lemma opt_same {A} name (d : A) conv : s2l name = k -> get k = None -> conv v = Ok d -> opt get' name d conv = opt get name d conv.
  Proof. intros <- N C. unfold opt, get', with_option. destruct (str_eqb_spec (s2l name) (s2l name)); [|contradiction]. now rewrite N. Qed.
  Lemma required_other : ~ In k (map s2l required_names) -> check_required get' = check_required get.
  Proof.
    intro N. unfold check_required. assert (E : forall l, incl l (map s2l required_names) ->
      forall m, map s2l m = l -> forallb (fun n => match get' (s2l n) with Some _ => true | None => false end) m = forallb (fun n => match get (s2l n) with Some _ => true | None => false end) m).
    { intros l IL m. revert l IL. induction m as [|n m IH]; intros l IL E; [reflexivity|]. cbn [forallb]. subst l. cbn [map] in IL. f_equal.
      - unfold get', with_option. destruct (str_eqb_spec (s2l n) k) as [Q|]; [|reflexivity]. exfalso. apply N. rewrite <- Q. apply IL. now left.
      - apply (IH (map s2l m)); [|reflexivity]. intros x Hx. apply IL. now right. }
    now rewrite (E _ (fun x H => H) required_names eq_refl).
  Qed.
End Default.
Lemma default_text get stoi stod p b names name text :
  reads_numbers stoi stod -> In (name, text) (documented_defaults p b) -> get (s2l name) = None ->
  read_options (with_option get (s2l name) (s2l text)) stoi stod p b names = read_options get stoi stod p b names.
Proof.
  intros (N1 & N2 & N3 & N4 & N5 & N6 & N7) I G. unfold documented_defaults in I. apply in_app_or in I.
  assert (B : forall x, is (s2l (truth x)) "true" = x) by (intros []; reflexivity).
  assert (R : forall A (x y : A), x = y -> Ok x = Ok y) by congruence.
  unfold read_options.
  destruct I as [I|I]; [|destruct p; [destruct I|]]; cbn [In] in I;
  repeat (destruct I as [I|I]; [injection I as <- <-;
    repeat (lazymatch goal with
     | |- bind _ _ = bind _ _ => apply bind_ext; [|intro]
     | |- check_required _ = _ => apply required_other; intro H; vm_compute in H; decompose [or] H; discriminate || contradiction
     | |- req _ _ _ = _ => apply req_other; intro H; vm_compute in H; discriminate H
     | |- opt _ _ _ _ = _ => first [apply opt_other; intro H; vm_compute in H; discriminate H
        | apply opt_same; [reflexivity|exact G|]; unfold as_double, as_int; rewrite ?N1, ?N2, ?N3, ?N4, ?N5, ?N6, ?N7, ?B; reflexivity]
     | |- match p with _ => _ end = _ => destruct p
     | |- Ok _ = Ok _ => reflexivity end)|]); destruct I.
Qed.
Lemma in_texts_is {A} (texts : list (str * A)) : forall t c, In (t, c) texts -> exists t', In (t', c) texts /\ t = t'.
Proof. eauto. Qed.
Lemma option_values get stoi stod p b names o : read_options get stoi stod p b names = Ok o ->
  number stoi (get (s2l "firstline")) (firstline o) /\ number stoi (get (s2l "lastline")) (lastline o) /\ templow o = dz 0 /\
  number stod (get (s2l "thigh")) (temphigh o) /\ number stod (get (s2l "vwall")) (vwall o) /\
  number stod (get (s2l "perc_prbl")) (perc_prbl o) /\ number stod (get (s2l "compl_prbl")) (compl_prbl o) /\
  number stoi (get (s2l "num_pts")) (num_check_pts o) /\ number stoi (get (s2l "maxpathintegrations")) (MaxPathIntegrations o) /\
  documented switch_texts (get (s2l "usegsl")) (UseGSL o) /\ documented switch_texts (get (s2l "usecmaes")) (UseCMAES o) /\
  documented switch_texts (get (s2l "usenlopt")) (UseNLopt o) /\ documented switch_texts (get (s2l "usemultithreading")) (UseThreads o) /\
  documented mode_texts (get (s2l "multistepmode")) (MultiStepMode o) /\ documented nlo_texts (get (s2l "checknlo")) (CheckNLO o) /\
  documented ewsr_texts (get (s2l "checkewsr")) (CheckEWSR o) /\
  (forall t, get (s2l "multistepmode") = Some t -> ~ In t (map fst mode_texts) -> stoi t = Some (MultiStepMode o)) /\
  (p = CalcGW -> number stod (get (s2l "epsturb")) (epsturb o) /\ documented trans_texts (get (s2l "trans_temp")) (WhichTransTemp o)) /\
  (forall t, get (s2l "model") = Some t -> Model o = getModel names t) /\
  (forall r, In r positional -> get r <> None).
Proof.
  unfold read_options. intro H. apply bind_ok in H as (u & Ereq & H).
  repeat match type of H with bind _ _ = _ => apply bind_ok in H; let a := fresh "a" in let E := fresh "E" in destruct H as (a & E & H) end.
  injection H as <-. cbn [firstline lastline templow temphigh vwall epsturb UseGSL UseCMAES UseNLopt MultiStepMode CheckEWSR perc_prbl compl_prbl num_check_pts CheckNLO WhichTransTemp UseThreads MaxPathIntegrations Model].
  assert (NUM : forall A (conv : str -> option A) name (d a : A), opt get name d (fun v => match conv v with Some z => Ok z | None => Throw InvalidArgument end) = Ok a -> number conv (get (s2l name)) a).
  { intros A conv name d a' X t G. unfold opt in X. rewrite G in X. destruct (conv t); congruence. }
  assert (RNUM : forall A (conv : str -> option A) name (a : A), req get name (fun v => match conv v with Some z => Ok z | None => Throw InvalidArgument end) = Ok a -> number conv (get (s2l name)) a).
  { intros A conv name a' X t G. unfold req in X. rewrite G in X. destruct (conv t); congruence. }
  assert (DOC : forall A (texts : list (str * A)) conv name (d a : A), opt get name d conv = Ok a -> (forall t c, In (t, c) texts -> conv t = Ok c) -> documented texts (get (s2l name)) a).
  { intros A texts conv name d a' X Y t c G I. unfold opt in X. rewrite G in X. specialize (Y t c I). congruence. }
  assert (SW : forall name d a, opt get name d (fun v => Ok (is v "true")) = Ok a -> documented switch_texts (get (s2l name)) a).
  { intros name d a' X. apply (DOC _ _ _ _ _ _ X). intros t c [Q|[Q|[]]]; injection Q as <- <-; reflexivity. }
  repeat match goal with
  | |- _ /\ _ => split
  | X : req get ?n _ = Ok ?a |- number _ (get (s2l ?n)) ?a => exact (RNUM _ _ _ _ X)
  | X : opt get ?n _ _ = Ok ?a |- number _ (get (s2l ?n)) ?a => exact (NUM _ _ _ _ _ X)
  | X : opt get ?n _ _ = Ok ?a |- documented switch_texts (get (s2l ?n)) ?a => exact (SW _ _ _ X)
  | X : opt get ?n _ _ = Ok ?a |- documented _ (get (s2l ?n)) ?a =>
      apply (DOC _ _ _ _ _ _ X); intros t c Q; cbn in Q; decompose [or] Q; try contradiction; match goal with Q' : (_, _) = (_, _) |- _ => injection Q' as <- <- end; reflexivity
  | |- _ = CalcGW -> _ => intros ->
  end; [reflexivity| | |].
  - intros t G N. match goal with X : opt get "multistepmode" _ _ = Ok _ |- _ => unfold opt in X; rewrite G in X; unfold read_mode, is in X end.
    assert (N1 : t <> s2l "default") by (intros ->; apply N; cbn; auto). assert (N2 : t <> s2l "auto") by (intros ->; apply N; cbn; auto).
    match goal with X : (if str_eqb t _ then _ else _) = _ |- _ => destruct (str_eqb_spec t (s2l "default")); [contradiction|]; destruct (str_eqb_spec t (s2l "auto")); [contradiction|]; unfold as_int in X end.
    destruct (stoi t); congruence.
  - intros t G. match goal with X : req get "model" _ = Ok _ |- _ => unfold req in X; rewrite G in X end. congruence.
  - intros r I G. unfold check_required in Ereq. destruct (forallb _ required_names) eqn:F; [|discriminate]. change positional with (map s2l required_names) in I. apply in_map_iff in I as (n & <- & I). rewrite forallb_forall in F. specialize (F n I). rewrite G in F. discriminate.
Qed.
Lemma missing_required get stoi stod p b names r : In r positional -> get r = None -> read_options get stoi stod p b names = Throw ParserException.
Proof.
  intros I G. unfold read_options, check_required. replace (forallb _ required_names) with false; [reflexivity|]. symmetry.
  apply Bool.not_true_is_false. intro F. change positional with (map s2l required_names) in I. apply in_map_iff in I as (n & <- & I). rewrite forallb_forall in F. specialize (F n I). rewrite G in F. discriminate.
Qed.
(** infinities *)
Lemma finite_only p b o : good p b o = Ok true ->
  (vwall o <> Inf /\ vwall o <> MInf) /\ (perc_prbl o <> Inf /\ perc_prbl o <> MInf) /\ (compl_prbl o <> Inf /\ compl_prbl o <> MInf) /\
  (templow o = dz 0 -> temphigh o <> MInf) /\ (p = CalcGW -> epsturb o <> Inf /\ epsturb o <> MInf).
Proof.
  unfold good. destruct (minimizer_check b o) as [[]| | |]; cbn [bind]; try discriminate. intro H.
  assert (G := f_equal (fun x => match x with Ok r => r | _ => false end) H). cbn beta iota in G. clear H. revert G.
  repeat match goal with |- (if ?c then false else _) = true -> _ => let E := fresh "C" in destruct c eqn:E; [discriminate|] end. intros _.
  assert (V : forall d, vwall_bad d = false -> d <> Inf /\ d <> MInf) by (intros d X; split; intros ->; vm_compute in X; discriminate X).
  assert (U : forall d, outside01 d = false -> d <> Inf /\ d <> MInf) by (intros d X; split; intros ->; vm_compute in X; discriminate X).
  split; [apply V; assumption|]. split; [apply U; assumption|]. split; [apply U; assumption|]. split.
  - intros L0 T. destruct p; match goal with X : _ (temphigh o) (templow o) = false |- _ => rewrite T, L0 in X; discriminate X end.
  - intros ->. match goal with X : negb (deq (epsturb o) _) && _ = false |- _ => split; intro T; rewrite T in X; discriminate X end.
Qed.
