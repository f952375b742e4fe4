From Coq Require Import Permutation.
From Verif.Model Require Import Base Strings Models.
From Verif.Proofs Require Import StringsProofs.
Arguments to_lower : simpl never.

Lemma model_eqb_spec a b : reflect (a = b) (model_eqb a b).
Proof. destruct a, b; cbn; constructor; congruence. Qed.

(** the code only relies on these facts about the table *)
Definition table_ok (names : list (str * model_id)) : Prop :=
  NoDup (map (fun p => to_lower (fst p)) names) /\ NoDup (map snd names).

Lemma table_ok_perm n1 n2 : Permutation n1 n2 -> table_ok n1 -> table_ok n2.
Proof.
  intros P [A B]. split; [apply (Permutation_NoDup (Permutation_map _ P) A)|].
  apply (Permutation_NoDup (Permutation_map _ P) B).
Qed.

Lemma ModelNames_ok : table_ok ModelNames.
Proof.
  split; cbn; repeat constructor; cbn; intro H;
  repeat (destruct H as [H|H]; [discriminate|]); destruct H.
Qed.

Lemma getModel_in names s id :
  table_ok names -> (getModel names s = id /\ id <> NotSet <->
  (id <> NotSet /\ exists k, In (k, id) names /\ to_lower k = to_lower s)).
Proof.
  intros [Hn _]. induction names as [|[k i] names IH]; cbn.
  - split; [intros [<- ?]; congruence|]. intros (_ & k & [] & _).
  - cbn in Hn. inversion Hn as [|? ? Hni Hn']; subst. specialize (IH Hn').
    destruct (str_eqb_spec (to_lower s) (to_lower k)) as [E|E].
    + split.
      * intros [-> Hid]. split; [auto|]. exists k; auto.
      * intros (Hid & k' & [Hk|Hk] & E'); [injection Hk as -> ->; auto|].
        exfalso. apply Hni. rewrite <- E, <- E'. apply (in_map (fun p => to_lower (fst p)) _ (k', id)). exact Hk.
    + rewrite IH. split.
      * intros (Hid & k' & Hk & E'). split; [auto|]. exists k'; auto.
      * intros (Hid & k' & [Hk|Hk] & E'); [injection Hk as -> ->; congruence|].
        split; [auto|]. exists k'; auto.
Qed.

Lemma getModel_case names s t : to_lower s = to_lower t -> getModel names s = getModel names t.
Proof.
  intro E. induction names as [|[k i] names IH]; cbn; [reflexivity|]. rewrite E.
  destruct (str_eqb (to_lower t) (to_lower k)); auto.
Qed.

Lemma getModel_notset names s :
  (forall k, ~ In (k, NotSet) names) ->
  getModel names s = NotSet <-> (forall k id, In (k, id) names -> to_lower k <> to_lower s).
Proof.
  induction names as [|[k i] names IH]; intro Hs; cbn.
  - split; [intros _ k id []|reflexivity].
  - destruct (str_eqb_spec (to_lower s) (to_lower k)) as [E|E].
    + split.
      * intros ->. exfalso. apply (Hs k). left; reflexivity.
      * intro H. exfalso. apply (H k i); [left; reflexivity|auto].
    + rewrite IH by (intros k0 Hk0; apply (Hs k0); right; exact Hk0).
      split; intros H k' id' Hin.
      * destruct Hin as [Hk|Hk]; [injection Hk as <- <-; congruence|eauto].
      * apply (H k' id'); right; exact Hin.
Qed.

Lemma invert_go names : forall acc,
  NoDup (map fst acc ++ map snd names) ->
  InvertModelNames_go acc names = Ok (acc ++ map (fun p => (snd p, fst p)) names).
Proof.
  induction names as [|[s id] names IH]; intros acc Hn; cbn.
  - now rewrite app_nil_r.
  - assert (F : inv_find id acc = None).
    { assert (Hni : ~ In id (map fst acc)).
      { cbn in Hn. intro H. apply NoDup_remove_2 in Hn. apply Hn. apply in_or_app; auto. }
      clear - Hni. induction acc as [|[i t] acc IH]; cbn; [reflexivity|].
      destruct (model_eqb_spec id i) as [->|]; [exfalso; apply Hni; left; reflexivity|].
      apply IH. intro; apply Hni; right; auto. }
    rewrite F. rewrite IH.
    + now rewrite <- app_assoc.
    + rewrite map_app. cbn [map fst]. rewrite <- app_assoc. exact Hn.
Qed.

Lemma inv_find_map names s id :
  NoDup (map snd names) -> In (s, id) names ->
  inv_find id (map (fun p : str * model_id => (snd p, fst p)) names) = Some s.
Proof.
  induction names as [|[k i] names IH]; cbn; intros Hn Hin; [destruct Hin|].
  inversion Hn as [|? ? Hni Hn']; subst. destruct Hin as [Hin|Hin].
  - injection Hin as -> ->. destruct (model_eqb_spec id id); congruence.
  - destruct (model_eqb_spec id i) as [->|]; [|auto].
    exfalso. apply Hni. apply (in_map snd _ (s, i)) in Hin. exact Hin.
Qed.

Lemma inv_find_none names id :
  (forall s, ~ In (s, id) names) ->
  inv_find id (map (fun p : str * model_id => (snd p, fst p)) names) = None.
Proof.
  induction names as [|[k i] names IH]; cbn; intro H; [reflexivity|].
  destruct (model_eqb_spec id i) as [->|]; [exfalso; apply (H k); auto|].
  apply IH. intros s Hs; apply (H s); auto.
Qed.

Lemma to_string_spec names id :
  table_ok names ->
  (forall s, In (s, id) names -> ModelIDToString names id = Ok s) /\
  ((forall s, ~ In (s, id) names) -> ModelIDToString names id = Throw OutOfRange).
Proof.
  intros [_ Hn]. unfold ModelIDToString, InvertModelNames.
  rewrite (invert_go names []) by exact Hn. cbn [bind app]. split.
  - intros s Hs. now rewrite (inv_find_map names s id).
  - intro H. now rewrite inv_find_none.
Qed.

Lemma ModelNames_covers id : id <> NotSet -> id <> Stop -> exists s, In (s, id) ModelNames.
Proof.
  intros A B. destruct id; try congruence; eexists; cbn;
  repeat (first [left; reflexivity|right]).
Qed.

Lemma ModelNames_no s id : In (s, id) ModelNames -> id <> NotSet /\ id <> Stop.
Proof.
  cbn. intro H. repeat (destruct H as [H|H]; [injection H as <- <-; split; discriminate|]). destruct H.
Qed.

Lemma models_roundtrip names id :
  Permutation ModelNames names -> id <> NotSet -> id <> Stop ->
  exists s, ModelIDToString names id = Ok s /\
            (forall t, to_lower t = to_lower s -> getModel names t = id) /\
            FChoose id = Ok id.
Proof.
  intros P A B. pose proof (table_ok_perm _ _ P ModelNames_ok) as T.
  destruct (ModelNames_covers id A B) as [s Hs].
  assert (Hs' : In (s, id) names) by (eapply Permutation_in; eauto).
  exists s. split; [apply (to_string_spec names id T); exact Hs'|]. split.
  - intros t Et. apply (getModel_in names t id T). split; [exact A|]. eauto.
  - destruct id; congruence || reflexivity.
Qed.

Lemma models_injective names i j s t :
  Permutation ModelNames names ->
  ModelIDToString names i = Ok s -> ModelIDToString names j = Ok t ->
  to_lower s = to_lower t -> i = j.
Proof.
  intros P Hi Hj E. pose proof (table_ok_perm _ _ P ModelNames_ok) as T.
  assert (G : forall i s, ModelIDToString names i = Ok s -> i <> NotSet /\ i <> Stop).
  { intros i0 s0 H. destruct (to_string_spec names i0 T) as [_ Hno].
    split; intros ->; rewrite Hno in H; try discriminate; intros x Hx;
    apply (Permutation_in _ (Permutation_sym P)) in Hx; apply ModelNames_no in Hx; tauto. }
  destruct (G i s Hi) as [A B]. destruct (G j t Hj) as [A' B'].
  destruct (models_roundtrip names i P A B) as (s' & S1 & S2 & _).
  destruct (models_roundtrip names j P A' B') as (t' & T1 & T2 & _).
  rewrite Hi in S1. injection S1 as <-. rewrite Hj in T1; injection T1 as <-.
  rewrite <- (S2 t (eq_sym E)). apply T2. reflexivity.
Qed.

Lemma models_other names s :
  Permutation ModelNames names ->
  (forall id t, ModelIDToString names id = Ok t -> to_lower t <> to_lower s) ->
  getModel names s = NotSet /\ FChoose (getModel names s) = Throw RuntimeError.
Proof.
  intros P H. pose proof (table_ok_perm _ _ P ModelNames_ok) as T.
  assert (E : getModel names s = NotSet).
  { apply getModel_notset.
    - intros k Hk. apply (Permutation_in _ (Permutation_sym P)) in Hk. apply ModelNames_no in Hk; tauto.
    - intros k id Hin. apply (H id). apply (to_string_spec names id T). exact Hin. }
  rewrite E. auto.
Qed.

(** ** the inverted table, for any table of names *)
Lemma model_eqb_iff i j : model_eqb i j = true <-> i = j.
Proof. destruct i, j; cbn; split; congruence. Qed.
Lemma inv_find_absent id : forall acc, inv_find id acc = None <-> ~ In id (map fst acc).
Proof.
  induction acc as [|(i, s) acc IH]; cbn [inv_find map fst In]; [tauto|]. destruct (model_eqb id i) eqn:E.
  - apply model_eqb_iff in E. subst. split; [discriminate|tauto].
  - rewrite IH. assert (id <> i) by (intro H; apply model_eqb_iff in H; congruence). firstorder congruence.
Qed.
Lemma inv_find_present id s : forall acc, NoDup (map fst acc) -> (inv_find id acc = Some s <-> In (id, s) acc).
Proof.
  induction acc as [|(i, t) acc IH]; cbn [inv_find map fst In]; intro N; [split; [discriminate|tauto]|].
  apply NoDup_cons_iff in N as (N1 & N2). specialize (IH N2). destruct (model_eqb id i) eqn:E.
  - apply model_eqb_iff in E. subst. split; [intros [= ->]; auto|]. intros [[= ->]|H]; [reflexivity|]. exfalso. apply N1. apply in_map_iff. now exists (i, s).
  - rewrite IH. split; [auto|]. intros [[= -> ->]|H]; [|exact H]. assert (model_eqb id id = true) by now apply model_eqb_iff. congruence.
Qed.
Lemma invert_any : forall names acc, NoDup (map fst acc) ->
  (NoDup (map fst acc ++ map snd names) -> InvertModelNames_go acc names = Ok (acc ++ map (fun x => (snd x, fst x)) names)) /\
  (~ NoDup (map fst acc ++ map snd names) -> InvertModelNames_go acc names = Throw RuntimeError).
Proof.
  induction names as [|(s, id) names IH]; intros acc N; cbn [InvertModelNames_go map fst snd].
  - rewrite !app_nil_r. split; [reflexivity|tauto].
  - destruct (inv_find id acc) as [t|] eqn:F.
    + split; intro H; [exfalso|reflexivity]. apply NoDup_remove_2 in H. apply H. apply in_or_app. left.
      assert (DEC : forall a b : model_id, {a = b} + {a <> b}) by decide equality. destruct (in_dec DEC id (map fst acc)) as [I|I]; [exact I|]. apply inv_find_absent in I. congruence.
    + apply inv_find_absent in F. assert (N' : NoDup (map fst (acc ++ [(id, s)]))).
      { rewrite map_app. cbn [map fst]. apply NoDup_rev in N. rewrite <- (rev_involutive (map fst acc ++ [id])), rev_app_distr. apply NoDup_rev. cbn.
        constructor; [rewrite <- in_rev; exact F|exact N]. }
      destruct (IH (acc ++ [(id, s)]) N') as (A & B). rewrite map_app in A, B. cbn [map fst] in A, B. rewrite <- app_assoc in A, B. cbn [app] in A, B. split; [|exact B]. intro H. rewrite (A H), <- app_assoc. reflexivity.
Qed.
Lemma models_inverse names id :
  (~ NoDup (map snd names) -> ModelIDToString names id = Throw RuntimeError) /\
  (NoDup (map snd names) -> forall s, ModelIDToString names id = Ok s <-> In (s, id) names).
Proof.
  unfold ModelIDToString, InvertModelNames. destruct (invert_any names [] (NoDup_nil _)) as (A & B). cbn [map app] in A, B. split; intro H.
  - now rewrite (B H).
  - intro s. rewrite (A H). cbn [bind]. set (l := map (fun x => (snd x, fst x)) names).
    assert (N : NoDup (map fst l)) by (unfold l; rewrite map_map; cbn [fst]; exact H).
    assert (Q : In (id, s) l <-> In (s, id) names).
    { unfold l. rewrite in_map_iff. split; [intros ((a, b) & [= <- <-] & I); exact I|intro I; now exists (s, id)]. }
    rewrite <- Q, <- (inv_find_present id s l N). destruct (inv_find id l); split; congruence.
Qed.
