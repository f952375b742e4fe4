From Verif.Model Require Import Base Strings Logger Parser.
From Verif.Spec Require Import StringsSpec ParserSpec.
From Verif.Proofs Require Import StringsProofs.
Open Scope list_scope.
Arguments to_lower : simpl never.
Arguments help_key : simpl never.

Lemma str_eqb_true a b : str_eqb a b = true <-> a = b.
Proof. destruct (str_eqb_spec a b); split; congruence. Qed.
Lemma str_eqb_false a b : str_eqb a b = false <-> a <> b.
Proof. destruct (str_eqb_spec a b); split; congruence. Qed.
Lemma str_eqb_sym a b : str_eqb a b = str_eqb b a.
Proof. destruct (str_eqb_spec a b), (str_eqb_spec b a); congruence. Qed.

(** * tables *)
Lemma t_find_app k t1 t2 :
  t_find k (t1 ++ t2) = match t_find k t1 with Some v => Some v | None => t_find k t2 end.
Proof.
  induction t1 as [|[k' v] t1 IH]; cbn; [reflexivity|].
  destruct (str_eqb k k'); auto.
Qed.

Lemma t_find_emplace k k' t :
  t_find k (t_emplace k' t) =
  match t_find k t with Some v => Some v | None => if str_eqb k k' then Some None else None end.
Proof.
  unfold t_emplace. destruct (t_find k' t) as [o|] eqn:E.
  - destruct (t_find k t) eqn:F; [reflexivity|].
    destruct (str_eqb_spec k k'); [subst; congruence|reflexivity].
  - rewrite t_find_app. cbn. destruct (t_find k t); [reflexivity|].
    destruct (str_eqb k k'); reflexivity.
Qed.

Lemma t_find_set k k' v t :
  t_find k (t_set k' v t) =
  if str_eqb k k' then match t_find k t with Some _ => Some (Some v) | None => None end
  else t_find k t.
Proof.
  induction t as [|[k0 w] t IH]; cbn.
  - destruct (str_eqb k k'); reflexivity.
  - destruct (str_eqb_spec k' k0) as [->|Hn]; cbn.
    + destruct (str_eqb_spec k k0) as [->|Hn2]; reflexivity.
    + rewrite IH. destruct (str_eqb_spec k k0) as [->|Hn2]; [|reflexivity].
      destruct (str_eqb_spec k0 k') as [->|]; [congruence|reflexivity].
Qed.

Lemma t_find_in k t : t_find k t <> None <-> In k (map fst t).
Proof.
  induction t as [|[k0 w] t IH]; cbn.
  - split; [congruence|tauto].
  - destruct (str_eqb_spec k k0) as [->|Hn].
    + split; [auto|congruence].
    + rewrite IH. split; [auto|]. intros [H|H]; [congruence|auto].
Qed.

(** * values *)
Definition look (p : parser) (k : str) : option (option str) :=
  match t_find k (required p) with Some o => Some o | None => t_find k (optional p) end.
Definition val (p : parser) (k : str) : option str :=
  match look p k with Some (Some v) => Some v | _ => None end.

Lemma get_value_val p name :
  get_value p name =
  match val p (to_lower name) with Some v => Ok v | None => Throw ParserException end.
Proof.
  unfold get_value, val, look.
  destruct (t_find (to_lower name) (required p)) as [[v|]|]; try reflexivity.
  destruct (t_find (to_lower name) (optional p)) as [[v|]|]; reflexivity.
Qed.

Lemma look_known p name : look p (to_lower name) <> None <-> known p name.
Proof.
  unfold look, known. rewrite <- !t_find_in.
  destruct (t_find (to_lower name) (required p)) as [o|].
  - split; intros; [left|]; congruence.
  - split; [auto|]. intros [H|H]; [congruence|auto].
Qed.

Definition is_help (k : str) : bool := str_eqb k help_key.
Arguments is_help : simpl never.

Lemma add_one_ok p kv p' :
  add_one p kv = Ok p' ->
  (forall k, look p' k =
             if str_eqb k (to_lower (fst kv)) && negb (is_help k)
             then match look p k with Some _ => Some (Some (snd kv)) | None => None end
             else look p k) /\
  (is_help (to_lower (fst kv)) = true \/ look p (to_lower (fst kv)) <> None).
Proof.
  unfold add_one, look, is_help. set (a := to_lower (fst kv)).
  destruct (str_eqb_spec a help_key) as [Eh|Eh].
  - intro H; injection H as <-. cbn [required optional]. split; [|auto].
    intro k. destruct (str_eqb_spec k a) as [->|]; cbn [andb]; [|reflexivity].
    rewrite (proj2 (str_eqb_true a help_key) Eh). reflexivity.
  - destruct (t_find a (required p)) as [o|] eqn:Fr.
    + intro H; injection H as <-. cbn [required optional]. split; [|right; congruence].
      intro k. rewrite t_find_set. destruct (str_eqb_spec k a) as [->|]; cbn [andb]; [|reflexivity].
      rewrite Fr. rewrite (proj2 (str_eqb_false a help_key) Eh). reflexivity.
    + destruct (t_find a (optional p)) as [o|] eqn:Fo; [|discriminate].
      intro H; injection H as <-. cbn [required optional]. split; [|right; congruence].
      intro k. rewrite t_find_set. destruct (str_eqb_spec k a) as [->|]; cbn [andb]; [|reflexivity].
      rewrite Fr, Fo. rewrite (proj2 (str_eqb_false a help_key) Eh). reflexivity.
Qed.

Lemma add_one_cases p kv :
  (exists p', add_one p kv = Ok p') \/
  (add_one p kv = Throw ParserException /\
   is_help (to_lower (fst kv)) = false /\ look p (to_lower (fst kv)) = None).
Proof.
  unfold add_one, look, is_help. set (a := to_lower (fst kv)).
  destruct (str_eqb a help_key); [eauto|].
  destruct (t_find a (required p)) as [o|]; [eauto|].
  destruct (t_find a (optional p)) as [o|]; [eauto|].
  right; auto.
Qed.

Lemma add_one_val p kv p' k :
  add_one p kv = Ok p' ->
  val p' k = if str_eqb k (to_lower (fst kv)) && negb (is_help k) then Some (snd kv) else val p k.
Proof.
  intro H. destruct (add_one_ok _ _ _ H) as [Hl Hk]. unfold val. rewrite Hl.
  destruct (str_eqb_spec k (to_lower (fst kv))) as [->|]; cbn; [|reflexivity].
  destruct Hk as [Hk|Hk]; [rewrite Hk; reflexivity|].
  destruct (is_help (to_lower (fst kv))); cbn; [reflexivity|].
  destruct (look p (to_lower (fst kv))); [reflexivity|congruence].
Qed.

Lemma add_one_look_none p kv p' k :
  add_one p kv = Ok p' -> (look p' k = None <-> look p k = None).
Proof.
  intro H. destruct (add_one_ok _ _ _ H) as [Hl _]. rewrite Hl.
  destruct (str_eqb k (to_lower (fst kv)) && negb (is_help k)); [|tauto].
  destruct (look p k); split; congruence.
Qed.

(** which tables contain a key is not changed by supplying values *)
Lemma add_one_keys p kv p' :
  add_one p kv = Ok p' ->
  map fst (required p') = map fst (required p) /\ map fst (optional p') = map fst (optional p).
Proof.
  assert (G : forall k v t, map fst (t_set k v t) = map fst t).
  { intros k v t; induction t as [|[k0 w] t IH]; cbn; [reflexivity|].
    destruct (str_eqb k k0); cbn; congruence. }
  unfold add_one. destruct (str_eqb _ help_key).
  - intro H; injection H as <-; auto.
  - destruct (t_find _ (required p)); [intro H; injection H as <-; cbn; auto|].
    destruct (t_find _ (optional p)); [intro H; injection H as <-; cbn; auto|discriminate].
Qed.

(** functional version of the specification's last value *)
Definition lastv (k : str) (kvs : list (str * str)) (init : option str) : option str :=
  fold_left (fun acc kv => if str_eqb k (to_lower (fst kv)) && negb (is_help k)
                           then Some (snd kv) else acc) kvs init.

Lemma add_kvs_ok kvs : forall p lg p' lg',
  add_kvs p lg kvs = (p', lg', Ok tt) ->
  (forall k, val p' k = lastv k kvs (val p k)) /\
  (forall k, look p' k = None <-> look p k = None) /\
  map fst (required p') = map fst (required p) /\ map fst (optional p') = map fst (optional p) /\
  lg' = set_logger_parser (get_opt p') lg.
Proof.
  induction kvs as [|kv kvs IH]; intros p lg p' lg' H; cbn in H.
  - injection H as <- <-. repeat split; auto.
  - destruct (add_one p kv) as [p1|e| |] eqn:E; try discriminate.
    destruct (IH _ _ _ _ H) as (Hv & Hn & Hr & Ho & Hlg).
    destruct (add_one_keys _ _ _ E) as [Kr Ko].
    split; [|split; [|split; [|split]]]; try congruence.
    + intro k. rewrite Hv. unfold lastv. cbn [fold_left]. f_equal.
      apply (add_one_val _ _ _ _ E).
    + intro k. rewrite Hn. apply (add_one_look_none _ _ _ _ E).
Qed.

Lemma add_kvs_result kvs : forall p lg,
  (exists p' lg', add_kvs p lg kvs = (p', lg', Ok tt)) \/
  (exists pre kv post p',
      kvs = pre ++ kv :: post /\
      add_kvs p lg kvs = (p', lg, Throw ParserException) /\
      (forall lg0, add_kvs p lg0 pre = (p', set_logger_parser (get_opt p') lg0, Ok tt)) /\
      is_help (to_lower (fst kv)) = false /\ look p (to_lower (fst kv)) = None).
Proof.
  induction kvs as [|kv kvs IH]; intros p lg.
  - left. cbn. eauto.
  - cbn. destruct (add_one_cases p kv) as [[p1 E]|(E & Hh & Hl)].
    + rewrite E. destruct (IH p1 lg) as [H|(pre & kv' & post & p' & -> & H1 & H2 & H3 & H4)].
      * left; exact H.
      * right. exists (kv :: pre), kv', post, p'. split; [reflexivity|]. split; [exact H1|].
        split; [intro lg0; cbn; rewrite E; apply H2|]. split; [exact H3|].
        now apply (add_one_look_none _ _ _ _ E).
    + right. rewrite E. exists [], kv, kvs, p. cbn. auto.
Qed.

Lemma add_kvs_known kvs : forall p lg,
  (forall kv, In kv kvs -> is_help (to_lower (fst kv)) = true \/ look p (to_lower (fst kv)) <> None) ->
  exists p' lg', add_kvs p lg kvs = (p', lg', Ok tt).
Proof.
  intros p lg H. destruct (add_kvs_result kvs p lg) as [G|(pre & kv & post & p' & -> & _ & _ & Hh & Hl)]; auto.
  exfalso. destruct (H kv ltac:(apply in_or_app; right; left; auto)) as [G|G]; congruence.
Qed.

Lemma add_kvs_ok_known kvs : forall p lg p' lg',
  add_kvs p lg kvs = (p', lg', Ok tt) ->
  forall kv, In kv kvs -> is_help (to_lower (fst kv)) = true \/ look p (to_lower (fst kv)) <> None.
Proof.
  induction kvs as [|kv0 kvs IH]; intros p lg p' lg' H kv Hin; [destruct Hin|].
  cbn in H. destruct (add_one p kv0) as [p1|e| |] eqn:E; try discriminate.
  destruct Hin as [->|Hin].
  - apply (add_one_ok _ _ _ E).
  - destruct (IH _ _ _ _ H kv Hin) as [G|G]; [auto|right].
    intro G2; apply G. now apply (add_one_look_none _ _ _ _ E).
Qed.

(** * lastv and the specification *)
Lemma lastv_app k a b i : lastv k (a ++ b) i = lastv k b (lastv k a i).
Proof. unfold lastv. apply fold_left_app. Qed.

Lemma lastv_never k kvs i :
  (forall k' v', In (k', v') kvs -> to_lower k' <> k) -> lastv k kvs i = i.
Proof.
  revert i; induction kvs as [|[k' v'] kvs IH]; intros i H; cbn; [reflexivity|].
  rewrite (proj2 (str_eqb_false k (to_lower k'))).
  - cbn. apply IH. intros; apply (H k'0 v'0); right; auto.
  - intro E. apply (H k' v'); [left; reflexivity|auto].
Qed.

Lemma lastv_spec name kvs :
  is_help (to_lower name) = false ->
  (forall v, lastv (to_lower name) kvs None = Some v <-> last_value name kvs v) /\
  (lastv (to_lower name) kvs None = None <-> never_supplied name kvs).
Proof.
  intro Hh.
  assert (G : (exists v, lastv (to_lower name) kvs None = Some v /\ last_value name kvs v) \/
              (lastv (to_lower name) kvs None = None /\ never_supplied name kvs)).
  { induction kvs as [|[k w] kvs IH] using rev_ind.
    - right. split; [reflexivity|]. intros k v [].
    - rewrite lastv_app. cbn. rewrite Hh.
      destruct (str_eqb_spec (to_lower name) (to_lower k)) as [E|E]; cbn.
      + left. exists w. split; [reflexivity|]. exists kvs, k, []. split; [reflexivity|].
        split; [symmetry; exact E|]. intros ? ? [].
      + destruct IH as [(v & H1 & pre & k0 & post & -> & H3 & H4)|[H1 H2]].
        * left. exists v. split; [exact H1|]. exists pre, k0, (post ++ [(k, w)]).
          rewrite <- app_assoc. split; [reflexivity|]. split; [exact H3|].
          intros k' v' Hin. apply in_app_or in Hin as [Hin|[Hin|[]]]; [eauto|].
          injection Hin as <- <-. unfold same_name; congruence.
        * right. split; [exact H1|]. intros k' v' Hin.
          apply in_app_or in Hin as [Hin|[Hin|[]]]; [eauto|].
          injection Hin as <- <-. unfold same_name; congruence. }
  assert (U : forall v w, last_value name kvs v -> last_value name kvs w -> v = w).
  { intros v w (pre & k & post & E & S1 & N1) (pre' & k' & post' & E' & S2 & N2).
    rewrite E in E'. clear E G.
    revert pre' E'. induction pre as [|x pre IHp]; intros [|y pre'] E'; cbn in E'.
    - congruence.
    - injection E' as _ E'. exfalso. apply (N1 k' w); [|exact S2].
      rewrite E'. apply in_or_app; right; left; reflexivity.
    - injection E' as _ E'. exfalso. apply (N2 k v); [|exact S1].
      rewrite <- E'. apply in_or_app; right; left; reflexivity.
    - injection E' as _ E'. eauto. }
  assert (D : forall v, last_value name kvs v -> ~ never_supplied name kvs).
  { intros v (pre & k & post & -> & S & _) H. apply (H k v); [|exact S].
    apply in_or_app; right; left; reflexivity. }
  destruct G as [(v & G1 & G2)|[G1 G2]].
  - rewrite G1. split.
    + intro w; split; [intro H; injection H as <-; exact G2|]. intro H. f_equal. eauto.
    + split; [discriminate|]. intro H; exfalso; eapply D; eauto.
  - rewrite G1. split; [|tauto]. intro w; split; [discriminate|].
    intro H; exfalso; eapply D; eauto.
Qed.

(** * histories *)
Record Inv (done : list call) (p : parser) : Prop := {
  inv_req : forall k, In k (map fst (required p)) <-> exists n, In (CDeclare n true) done /\ to_lower n = k;
  inv_opt : forall k, In k (map fst (optional p)) <-> exists n, In (CDeclare n false) done /\ to_lower n = k;
  inv_val : forall k, val p k = lastv k (supplied done) None }.

Lemma supplied_app a b : supplied (a ++ b) = supplied a ++ supplied b.
Proof.
  induction a as [|[n r|kvs] a IH]; cbn; auto. now rewrite IH, app_assoc.
Qed.

Lemma emplace_keys k t x : In x (map fst (t_emplace k t)) <-> x = k \/ In x (map fst t).
Proof.
  rewrite <- !t_find_in, t_find_emplace. destruct (t_find x t) as [o|].
  - split; [right|]; congruence.
  - destruct (str_eqb_spec x k) as [->|Hn]; split; intros; try congruence; auto.
    destruct H; congruence.
Qed.

Lemma val_none_look_none p k : look p k = None -> val p k = None.
Proof. unfold val; intros ->; reflexivity. Qed.

Lemma inv_declare done p n r :
  consistent (done ++ [CDeclare n r]) -> Inv done p ->
  Inv (done ++ [CDeclare n r]) (add_argument p n r).
Proof.
  intros Hc [Hr Ho Hv]. split.
  - intro k. unfold add_argument. destruct r; cbn [required].
    + rewrite emplace_keys, Hr. split.
      * intros [->|(m & Hm & E)].
        -- exists n; split; [apply in_or_app; right; left|]; reflexivity.
        -- exists m; split; [apply in_or_app; left|]; auto.
      * intros (m & Hm & E). apply in_app_or in Hm as [Hm|[Hm|[]]]; [right; eauto|].
        injection Hm as ->; auto.
    + rewrite Hr. split; intros (m & Hm & E).
      * exists m; split; [apply in_or_app; left|]; auto.
      * apply in_app_or in Hm as [Hm|[Hm|[]]]; [eauto|discriminate].
  - intro k. unfold add_argument. destruct r; cbn [optional].
    + rewrite Ho. split; intros (m & Hm & E).
      * exists m; split; [apply in_or_app; left|]; auto.
      * apply in_app_or in Hm as [Hm|[Hm|[]]]; [eauto|discriminate].
    + rewrite emplace_keys, Ho. split.
      * intros [->|(m & Hm & E)].
        -- exists n; split; [apply in_or_app; right; left|]; reflexivity.
        -- exists m; split; [apply in_or_app; left|]; auto.
      * intros (m & Hm & E). apply in_app_or in Hm as [Hm|[Hm|[]]]; [right; eauto|].
        injection Hm as ->; auto.
  - intro k. rewrite supplied_app. cbn [supplied]. rewrite app_nil_r, <- Hv.
    unfold val, look, add_argument. destruct r; cbn [required optional].
    + rewrite t_find_emplace. destruct (t_find k (required p)) as [o|] eqn:Fr; [reflexivity|].
      destruct (str_eqb_spec k (to_lower n)) as [->|Hn]; [|reflexivity].
      destruct (t_find (to_lower n) (optional p)) as [o|] eqn:Fo; [|reflexivity].
      exfalso. assert (Hin : In (to_lower n) (map fst (optional p))) by (apply t_find_in; congruence).
      apply Ho in Hin as (m & Hm & E). apply (Hc n m).
      * apply in_or_app; right; left; reflexivity.
      * apply in_or_app; left; exact Hm.
      * unfold same_name; auto.
    + destruct (t_find k (required p)) as [o|] eqn:Fr; [reflexivity|].
      rewrite t_find_emplace. destruct (t_find k (optional p)) as [o|]; [reflexivity|].
      destruct (str_eqb k (to_lower n)); reflexivity.
Qed.

Lemma inv_supply done p lg kvs p' lg' :
  add_kvs p lg kvs = (p', lg', Ok tt) -> Inv done p -> Inv (done ++ [CSupply kvs]) p'.
Proof.
  intros H [Hr Ho Hv]. destruct (add_kvs_ok _ _ _ _ _ H) as (V & _ & Kr & Ko & _). split.
  - intro k. rewrite Kr, Hr. split; intros (m & Hm & E); exists m; split; auto.
    + apply in_or_app; auto.
    + apply in_app_or in Hm as [Hm|[Hm|[]]]; [auto|discriminate].
  - intro k. rewrite Ko, Ho. split; intros (m & Hm & E); exists m; split; auto.
    + apply in_or_app; auto.
    + apply in_app_or in Hm as [Hm|[Hm|[]]]; [auto|discriminate].
  - intro k. rewrite supplied_app. cbn [supplied]. rewrite app_nil_r, lastv_app, <- Hv. apply V.
Qed.

Lemma run_inv h : forall done p lg p' lg',
  consistent (done ++ h) -> Inv done p -> run_calls h p lg = Some (p', lg') -> Inv (done ++ h) p'.
Proof.
  induction h as [|c h IH]; intros done p lg p' lg' Hc HI H; cbn in H.
  - injection H as <- <-. now rewrite app_nil_r.
  - assert (Hc' : consistent ((done ++ [c]) ++ h)) by (now rewrite <- app_assoc).
    assert (Hcd : consistent (done ++ [c])).
    { intros a b Ha Hb. apply Hc'; apply in_or_app; left; auto. }
    replace (done ++ c :: h) with ((done ++ [c]) ++ h) by now rewrite <- app_assoc.
    destruct c as [n r|kvs].
    + eapply IH; [exact Hc'| |exact H]. now apply inv_declare.
    + destruct (add_kvs p lg kvs) as [[p1 lg1] o] eqn:E. destruct o as [[]| | |]; try discriminate.
      eapply IH; [exact Hc'| |exact H]. eapply inv_supply; eauto.
Qed.

Lemma inv_empty : Inv [] empty_parser.
Proof.
  split; cbn; intros; try reflexivity; split; try tauto; intros (n & [] & _).
Qed.

Lemma run_inv0 h lg p lg' :
  consistent h -> run_calls h empty_parser lg = Some (p, lg') -> Inv h p.
Proof. intros Hc H. apply (run_inv h [] empty_parser lg p lg'); auto using inv_empty. Qed.

Lemma get_value_last h lg p lg' name :
  run_calls h empty_parser lg = Some (p, lg') -> consistent h -> to_lower name <> help_key ->
  (forall v, get_value p name = Ok v <-> last_value name (supplied h) v) /\
  (get_value p name = Throw ParserException <-> never_supplied name (supplied h)).
Proof.
  intros H Hc Hh. pose proof (inv_val _ _ (run_inv0 _ _ _ _ Hc H) (to_lower name)) as V.
  destruct (lastv_spec name (supplied h)) as [S1 S2].
  { now apply str_eqb_false. }
  rewrite get_value_val, V. split.
  - intro v. rewrite <- S1. destruct (lastv _ _ _); split; congruence.
  - rewrite <- S2. destruct (lastv _ _ _); split; congruence.
Qed.

Lemma lastv_help kvs i : lastv help_key kvs i = i.
Proof.
  revert i; induction kvs as [|kv kvs IH]; intro i; cbn [lastv fold_left]; [reflexivity|].
  change (is_help help_key) with true. rewrite andb_false_r. apply IH.
Qed.

Lemma get_value_undeclared h lg p lg' name :
  run_calls h empty_parser lg = Some (p, lg') -> consistent h ->
  ~ declared_in h name -> get_value p name = Throw ParserException.
Proof.
  intros H Hc Hd. destruct (run_inv0 _ _ _ _ Hc H) as [Hr Ho _].
  rewrite get_value_val. unfold val.
  replace (look p (to_lower name)) with (@None (option str)); [reflexivity|].
  symmetry. unfold look.
  destruct (t_find (to_lower name) (required p)) as [o|] eqn:Fr.
  { exfalso. assert (Hin : In (to_lower name) (map fst (required p))) by (apply t_find_in; congruence).
    apply Hr in Hin as (n & Hn & E). apply Hd. exists n, true; auto. }
  destruct (t_find (to_lower name) (optional p)) as [o|] eqn:Fo; [|reflexivity].
  exfalso. assert (Hin : In (to_lower name) (map fst (optional p))) by (apply t_find_in; congruence).
  apply Ho in Hin as (n & Hn & E). apply Hd. exists n, false; auto.
Qed.

Lemma keys_unique_required h lg p lg' :
  run_calls h empty_parser lg = Some (p, lg') -> NoDup (map fst (required p)).
Proof.
  assert (G : forall h p lg p' lg', NoDup (map fst (required p)) ->
              run_calls h p lg = Some (p', lg') -> NoDup (map fst (required p'))).
  { clear. induction h as [|[n r|kvs] h IH]; intros p lg p' lg' Hn H; cbn in H.
    - congruence.
    - eapply IH; [|exact H]. unfold add_argument. destruct r; cbn [required]; [|exact Hn].
      unfold t_emplace. destruct (t_find (to_lower n) (required p)) eqn:E; [exact Hn|].
      rewrite map_app. cbn.
      assert (Hni : ~ In (to_lower n) (map fst (required p))).
      { rewrite <- t_find_in. congruence. }
      clear - Hn Hni. induction (map fst (required p)) as [|x l IHl]; cbn.
      + constructor; [auto|constructor].
      + inversion Hn; subst. constructor.
        * intro Hin. apply in_app_or in Hin as [Hin|[Hin|[]]]; [auto|].
          apply Hni; left; auto.
        * apply IHl; auto. intro; apply Hni; right; auto.
    - destruct (add_kvs p lg kvs) as [[p1 lg1] o] eqn:E. destruct o as [[]| | |]; try discriminate.
      eapply IH; [|exact H]. destruct (add_kvs_ok _ _ _ _ _ E) as (_ & _ & Kr & _). now rewrite Kr. }
  apply G. constructor.
Qed.

Lemma t_find_in_nodup t k o : NoDup (map fst t) -> In (k, o) t -> t_find k t = Some o.
Proof.
  induction t as [|[k' v] t IH]; cbn; intros Hn Hin; [destruct Hin|].
  inversion Hn as [|? ? Hni Hn']; subst. destruct Hin as [Hin|Hin].
  - injection Hin as -> ->. now rewrite str_eqb_refl.
  - destruct (str_eqb_spec k k') as [->|]; [|auto].
    exfalso; apply Hni. change k' with (fst (k', o)). now apply in_map.
Qed.

Lemma check_required_iff h lg p lg' :
  run_calls h empty_parser lg = Some (p, lg') -> consistent h ->
  (check_required_parameters p = Ok tt <->
   forall n, In (CDeclare n true) h ->
     to_lower n <> help_key /\ exists v, last_value n (supplied h) v) /\
  (check_required_parameters p <> Ok tt -> check_required_parameters p = Throw ParserException).
Proof.
  intros H Hc. pose proof (run_inv0 _ _ _ _ Hc H) as [Hr Ho Hv].
  pose proof (keys_unique_required _ _ _ _ H) as Hnd.
  unfold check_required_parameters.
  assert (G : all_required_set p = true <->
    forall n, In (CDeclare n true) h ->
      to_lower n <> help_key /\ exists v, last_value n (supplied h) v).
  { unfold all_required_set. rewrite forallb_forall. split.
    - intros A n Hn.
      assert (Hin : In (to_lower n) (map fst (required p))) by (apply Hr; eauto).
      apply in_map_iff in Hin as ([k o] & E & Hin). cbn in E; subst k.
      specialize (A _ Hin). cbn in A. destruct o as [v|]; [|discriminate].
      assert (V : val p (to_lower n) = Some v).
      { unfold val, look. rewrite (t_find_in_nodup _ _ _ Hnd Hin). reflexivity. }
      rewrite Hv in V.
      destruct (is_help (to_lower n)) eqn:Eh.
      + exfalso. unfold is_help in Eh. apply str_eqb_true in Eh. rewrite Eh, lastv_help in V. discriminate.
      + split; [now apply str_eqb_false|]. exists v. now apply (lastv_spec n (supplied h) Eh).
    - intros A [k o] Hin. cbn.
      assert (Hk : In k (map fst (required p))) by (change k with (fst (k, o)); now apply in_map).
      apply Hr in Hk as (n & Hn & <-). destruct (A n Hn) as (Hh & v & L).
      apply (lastv_spec n (supplied h)) in L; [|now apply str_eqb_false].
      rewrite <- Hv in L. unfold val, look in L.
      rewrite (t_find_in_nodup _ _ _ Hnd Hin) in L. destruct o; [reflexivity|discriminate]. }
  rewrite <- G. destruct (all_required_set p); (split; [split; congruence|congruence]).
Qed.

(** * add_input acceptance *)
Lemma add_kvs_throw_iff p lg kvs :
  (exists p' lg', add_kvs p lg kvs = (p', lg', Throw ParserException)) <->
  exists kv, In kv kvs /\ to_lower (fst kv) <> help_key /\ ~ known p (fst kv).
Proof.
  split.
  - intros (p' & lg' & H).
    destruct (add_kvs_result kvs p lg) as [(p1 & lg1 & G)|(pre & kv & post & p1 & -> & _ & _ & Hh & Hl)].
    + congruence.
    + exists kv. split; [apply in_or_app; right; left; reflexivity|].
      split; [now apply str_eqb_false|]. rewrite <- look_known. congruence.
  - intros (kv & Hin & Hh & Hk).
    destruct (add_kvs_result kvs p lg) as [(p1 & lg1 & G)|(pre & kv' & post & p1 & -> & G & _)].
    + exfalso. destruct (add_kvs_ok_known _ _ _ _ _ G kv Hin) as [F|F].
      * apply str_eqb_true in F; auto.
      * apply look_known in F; auto.
    + eauto.
Qed.

Lemma add_kvs_throw_prefix p lg kvs p' lg' :
  add_kvs p lg kvs = (p', lg', Throw ParserException) ->
  exists pre kv post,
    kvs = pre ++ kv :: post /\
    to_lower (fst kv) <> help_key /\ ~ known p (fst kv) /\
    (forall q, In q pre -> to_lower (fst q) = help_key \/ known p (fst q)) /\
    lg' = lg /\
    (forall name, to_lower name <> help_key ->
       (forall v, last_value name pre v -> get_value p' name = Ok v) /\
       (never_supplied name pre -> get_value p' name = get_value p name)).
Proof.
  intro H.
  destruct (add_kvs_result kvs p lg) as [(p1 & lg1 & G)|(pre & kv & post & p1 & -> & G & Hp & Hh & Hl)];
    [congruence|].
  rewrite H in G. injection G as -> ->.
  exists pre, kv, post. split; [reflexivity|].
  split; [now apply str_eqb_false|]. split; [rewrite <- look_known; congruence|].
  split.
  { intros q Hq. destruct (add_kvs_ok_known _ _ _ _ _ (Hp lg) q Hq) as [F|F].
    - left; now apply str_eqb_true.
    - right; now apply look_known. }
  split; [reflexivity|].
  intros name Hn. destruct (add_kvs_ok _ _ _ _ _ (Hp lg)) as (V & _).
  assert (Hn' : is_help (to_lower name) = false) by now apply str_eqb_false.
  destruct (lastv_spec name pre Hn') as [L1 L2].
  assert (Lgen : forall i, lastv (to_lower name) pre i =
             match lastv (to_lower name) pre None with Some v => Some v | None => i end).
  { clear. intro i. induction pre as [|kv pre IH] using rev_ind; [reflexivity|].
    rewrite !lastv_app. cbn. destruct (_ && _); [reflexivity|exact IH]. }
  split.
  - intros v Hv. apply L1 in Hv. rewrite get_value_val, V, Lgen, Hv. reflexivity.
  - intros Hv. apply L2 in Hv. rewrite !get_value_val, V, Lgen, Hv. reflexivity.
Qed.

Lemma add_kvs_outcome p lg kvs p' lg' o :
  add_kvs p lg kvs = (p', lg', o) -> o = Ok tt \/ o = Throw ParserException.
Proof.
  intro H. destruct (add_kvs_result kvs p lg) as [(p1 & lg1 & G)|(pre & kv & post & p1 & -> & G & _)].
  - rewrite H in G; injection G; auto.
  - rewrite H in G; injection G; auto.
Qed.

(** * command line strings *)
Lemma split_all_cli kvs :
  Forall (fun kv => fst kv <> [] /\ hd_error (fst kv) <> Some "-"%char /\ ~ In "="%char (fst kv)) kvs ->
  split_all (map (fun kv => cli_arg 2 (fst kv) "=" (snd kv)) kvs) = Ok kvs.
Proof.
  induction 1 as [|[k v] kvs (H1 & H2 & H3) HF IH]; [reflexivity|].
  cbn [map split_all fst snd]. rewrite get_key_value_eq by assumption. cbn [bind].
  rewrite IH. reflexivity.
Qed.

Lemma add_strings_cli json p lg kvs :
  Forall (fun kv => fst kv <> [] /\ hd_error (fst kv) <> Some "-"%char /\ ~ In "="%char (fst kv)) kvs ->
  (length kvs = 1 -> forall kv, In kv kvs -> fst kv <> help_key /\ fst kv <> s2l "json") ->
  add_strings json p lg (map (fun kv => cli_arg 2 (fst kv) "=" (snd kv)) kvs) = add_kvs p lg kvs.
Proof.
  intros HF H1. unfold add_strings.
  assert (E : add_strings_general p lg (map (fun kv => cli_arg 2 (fst kv) "=" (snd kv)) kvs) = add_kvs p lg kvs).
  { unfold add_strings_general. rewrite split_all_cli by exact HF. reflexivity. }
  destruct kvs as [|[k v] [|kv2 kvs]]; [exact E| |exact E].
  cbn [map] in E |- *. destruct (H1 eq_refl (k, v)) as [Hh Hj]; [left; reflexivity|].
  cbn [fst snd] in *. inversion HF as [|? ? (A & B & C) _]; subst. cbn [fst] in *.
  rewrite get_key_value_eq by assumption.
  rewrite (proj2 (str_eqb_false k help_key)) by exact Hh.
  rewrite (proj2 (str_eqb_false k (s2l "json"))) by exact Hj. exact E.
Qed.

Lemma declare_neutral h lg p lg' n r name :
  run_calls h empty_parser lg = Some (p, lg') -> consistent (h ++ [CDeclare n r]) ->
  get_value (add_argument p n r) name = get_value p name.
Proof.
  intros H Hc.
  assert (Hc' : consistent h).
  { intros a b Ha Hb. apply Hc; apply in_or_app; left; auto. }
  pose proof (run_inv0 _ _ _ _ Hc' H) as I1.
  pose proof (inv_declare _ _ n r Hc I1) as I2.
  rewrite !get_value_val, (inv_val _ _ I2), (inv_val _ _ I1), supplied_app.
  cbn [supplied]. rewrite app_nil_r. reflexivity.
Qed.

Lemma redeclare_shadows :
  exists h lg p lg' n v,
    run_calls h empty_parser lg = Some (p, lg') /\ last_value n (supplied h) v /\
    get_value p n = Ok v /\ get_value (add_argument p n true) n = Throw ParserException.
Proof.
  exists [CDeclare (s2l "a") false; CSupply [(s2l "a", s2l "1")]], initial_setup.
  eexists. eexists. exists (s2l "a"), (s2l "1").
  split; [vm_compute; reflexivity|]. split; [|split; vm_compute; reflexivity].
  exists [], (s2l "a"), []. split; [reflexivity|]. split; [reflexivity|]. intros ? ? [].
Qed.
