From Coq Require Import Sorted Permutation ZifyBool.
From Verif.Model Require Import Base Phase.
From Verif.Spec Require Import PhaseSpec.
Open Scope Z_scope.

Notation ss := (StronglySorted Z.lt).
Definition sorted (p : phase) : Prop := ss (temps p).

(** * sorted lists *)
Lemma ss_inv a l : ss (a :: l) <-> ss l /\ forall x, In x l -> a < x.
Proof.
  split.
  - intro H; inversion H; subst. split; [auto|]. now apply Forall_forall.
  - intros [A B]. constructor; [auto|]. now apply Forall_forall.
Qed.

Lemma ss_app a b : ss (a ++ b) <-> ss a /\ ss b /\ forall x y, In x a -> In y b -> x < y.
Proof.
  induction a as [|x a IH]; cbn [app].
  - split; [intro H; split; [constructor|split; [exact H|intros ? ? []]]|tauto].
  - rewrite !ss_inv, IH. split.
    + intros [(A & B & C) D]. repeat split; auto.
      * intros y Hy. apply D. apply in_or_app; auto.
      * intros u v [->|Hu] Hv; [apply D; apply in_or_app; auto|auto].
    + intros ([A B] & C & D). repeat split; auto.
      * intros u v Hu Hv. apply D; [right|]; auto.
      * intros y Hy. apply in_app_or in Hy as [Hy|Hy]; [auto|apply D; [left|]; auto].
Qed.

Lemma ss_increasing l : ss l <-> increasing l.
Proof.
  split.
  - induction l as [|x l IH]; intro H.
    + intros i j a b _ Ha. destruct i; discriminate.
    + apply ss_inv in H as [Hs Hx]. intros i j a b Hij Ha Hb.
      destruct i as [|i], j as [|j]; try lia; cbn in Ha, Hb.
      * injection Ha as <-. apply Hx. eapply nth_error_In; eauto.
      * apply (IH Hs i j); auto. lia.
  - induction l as [|x l IH]; intro H; [constructor|].
    apply ss_inv. split.
    + apply IH. intros i j a b Hij Ha Hb. apply (H (S i) (S j) a b); auto. lia.
    + intros y Hy. apply In_nth_error in Hy as [n Hn].
      apply (H O (S n) x y); auto. lia.
Qed.

Lemma ss_nodup l : ss l -> NoDup l.
Proof.
  induction l as [|x l IH]; intro H; [constructor|]. apply ss_inv in H as [Hs Hx].
  constructor; [intro Hin; specialize (Hx _ Hin); lia|auto].
Qed.

(** * insert_mid *)
Lemma insert_mid_cons m a b t :
  insert_mid m (a :: b :: t) =
  if (temp a <? temp m) && (temp m <? temp b) then Some (a :: m :: b :: t)
  else match insert_mid m (b :: t) with Some t' => Some (a :: t') | None => None end.
Proof. reflexivity. Qed.

Lemma insert_mid_split m l l' :
  insert_mid m l = Some l' ->
  exists pre a b post, l = pre ++ a :: b :: post /\ l' = pre ++ a :: m :: b :: post /\
    temp a < temp m < temp b.
Proof.
  revert l'; induction l as [|a l IH]; intros l' H; [discriminate|].
  destruct l as [|b t]; [discriminate|]. rewrite insert_mid_cons in H.
  destruct ((temp a <? temp m) && (temp m <? temp b)) eqn:E.
  - injection H as <-. exists [], a, b, t. cbn. repeat split; lia.
  - destruct (insert_mid m (b :: t)) as [t'|] eqn:F; [|discriminate]. injection H as <-.
    destruct (IH t' eq_refl) as (pre & x & y & post & E1 & E2 & E3).
    exists (a :: pre), x, y, post. rewrite E1, E2. auto.
Qed.

Lemma insert_mid_none m a t :
  ss (map temp (a :: t)) -> temp a < temp m -> ~ In (temp m) (map temp t) ->
  insert_mid m (a :: t) = None -> forall x, In x (a :: t) -> temp x < temp m.
Proof.
  revert a; induction t as [|b t IH]; intros a Hs Ha Hn H x Hx.
  - destruct Hx as [<-|[]]; auto.
  - rewrite insert_mid_cons in H.
    destruct ((temp a <? temp m) && (temp m <? temp b)) eqn:E; [discriminate|].
    destruct (insert_mid m (b :: t)) as [t'|] eqn:F; [discriminate|].
    destruct Hx as [<-|Hx]; [auto|]. apply (IH b); auto.
    + cbn [map] in Hs. apply ss_inv in Hs as [Hs _]. exact Hs.
    + cbn in Hn. assert (temp b <> temp m) by tauto. lia.
    + intro; apply Hn; right; auto.
Qed.

Lemma clear_last_temps l : map temp (clear_last l) = map temp l.
Proof.
  induction l as [|a [|b t] IH]; cbn; auto. f_equal. exact IH.
Qed.
Lemma clear_last_tags l : map (fun m => (temp m, tag m)) (clear_last l) = map (fun m => (temp m, tag m)) l.
Proof.
  induction l as [|a [|b t] IH]; cbn; auto. f_equal. exact IH.
Qed.

(** * one Add *)
Definition pairs (p : phase) : list (Z * nat) := map (fun m => (temp m, tag m)) (mins p).

Lemma temps_pairs p : temps p = map fst (pairs p).
Proof. unfold temps, pairs. rewrite map_map. reflexivity. Qed.

Inductive add_case (p : phase) (m : minimum) : phase -> Prop :=
| ac_dup : In (temp m) (temps p) -> add_case p m p
| ac_empty : mins p = [] ->
    add_case p m {| pid := pid p; T_low := T_low p; T_high := T_high p; mins := [m] |}
| ac_low : forall a t, mins p = a :: t -> temp m < temp a -> ~ In (temp m) (temps p) ->
    add_case p m {| pid := pid p; T_low := temp m; T_high := T_high p;
                    mins := set_edge m (-1) :: set_edge a 0 :: t |}
| ac_mid : forall pre a b post, mins p = pre ++ a :: b :: post -> temp a < temp m < temp b ->
    ~ In (temp m) (temps p) ->
    add_case p m {| pid := pid p; T_low := T_low p; T_high := T_high p;
                    mins := pre ++ a :: m :: b :: post |}
| ac_high : mins p <> [] -> (forall x, In x (mins p) -> temp x < temp m) -> ~ In (temp m) (temps p) ->
    add_case p m {| pid := pid p; T_low := T_low p; T_high := temp m;
                    mins := clear_last (mins p) ++ [set_edge m 1] |}.

Lemma Add_case p m : sorted p -> add_case p m (Add p m).
Proof.
  unfold sorted. intro Hs. unfold Add.
  destruct (existsb (fun x => temp m =? temp x) (mins p)) eqn:E.
  - apply ac_dup. apply existsb_exists in E as (x & Hx & E). apply Z.eqb_eq in E.
    rewrite E. now apply in_map.
  - assert (Hn : ~ In (temp m) (temps p)).
    { intro H. apply in_map_iff in H as (x & Ex & Hx).
      assert (T : existsb (fun x => temp m =? temp x) (mins p) = true).
      { apply existsb_exists. exists x. split; [auto|lia]. }
      congruence. }
    destruct (mins p) as [|a t] eqn:Em; [now apply ac_empty|].
    destruct (temp m <? temp a) eqn:El; [apply ac_low; auto; lia|].
    assert (Ha : temp a < temp m).
    { unfold temps in Hn. rewrite Em in Hn. cbn in Hn. lia. }
    destruct (insert_mid m (a :: t)) as [l|] eqn:F.
    + apply insert_mid_split in F as (pre & x & y & post & E1 & -> & E3).
      apply ac_mid; auto. congruence.
    + rewrite <- Em. apply ac_high; auto; [congruence|]. rewrite Em. apply insert_mid_none; auto.
      * unfold temps in Hs. rewrite Em in Hs. exact Hs.
      * intro H; apply Hn. unfold temps. rewrite Em. right; auto.
Qed.

Lemma Add_sorted p m : sorted p -> sorted (Add p m).
Proof.
  intro Hs. pose proof (Add_case p m Hs) as C. unfold sorted, temps in *.
  destruct C as [|Hm|a t Hm Hlt Hn|pre a b post Hm Hlt Hn|Hm Hlt Hn]; cbn [mins]; auto.
  - constructor; constructor.
  - rewrite Hm in Hs. cbn [map] in *. change (temp (set_edge a 0)) with (temp a).
    apply ss_inv. split; [exact Hs|]. change (temp (set_edge m (-1))) with (temp m).
    apply ss_inv in Hs as [_ Ha]. intros x [<-|Hx]; [auto|]. specialize (Ha _ Hx). lia.
  - rewrite Hm in Hs. rewrite map_app in *. cbn [map] in *.
    rewrite ss_app in *. destruct Hs as (A & B & C).
    rewrite !ss_inv in *. destruct B as ((B1 & B2) & B3).
    repeat split; auto.
    + intros x [<-|Hx]; [lia|]. specialize (B2 _ Hx). lia.
    + intros x [<-|Hx]; [lia|auto].
    + intros x y Hx [<-|[<-|Hy]]; auto.
      * apply C; [auto|left; auto].
      * assert (x < temp a) by (apply C; [auto|left; auto]). lia.
      * apply C; [auto|right; auto].
  - rewrite map_app, clear_last_temps. apply ss_app. repeat split; auto.
    + constructor; constructor.
    + intros x y Hx [<-|[]]. apply in_map_iff in Hx as (z & <- & Hz). cbn. auto.
Qed.

Lemma Add_pairs p m q : sorted p ->
  In q (pairs (Add p m)) <-> In q (pairs p) \/ (q = (temp m, tag m) /\ ~ In (temp m) (temps p)).
Proof.
  intro Hs. pose proof (Add_case p m Hs) as C. unfold pairs.
  destruct C as [Hd|Hm|a t Hm Hlt Hn|pre a b post Hm Hlt Hn|Hm Hlt Hn]; cbn [mins].
  - tauto.
  - unfold temps. rewrite Hm. cbn. intuition.
  - rewrite Hm. cbn. intuition.
  - rewrite Hm, !map_app. cbn. rewrite !in_app_iff. cbn. intuition.
  - rewrite map_app, clear_last_tags, in_app_iff. cbn. intuition.
Qed.

Lemma Add_temps p m t : sorted p -> In t (temps (Add p m)) <-> t = temp m \/ In t (temps p).
Proof.
  intro Hs. rewrite !temps_pairs, !in_map_iff. split.
  - intros ([t' g] & <- & H). apply (Add_pairs p m _ Hs) in H as [H|[H _]].
    + right. exists (t', g); auto.
    + left. injection H; auto.
  - intros [->|((t', g) & <- & H)].
    + destruct (in_dec Z.eq_dec (temp m) (temps p)) as [Hi|Hn].
      * rewrite temps_pairs, in_map_iff in Hi. destruct Hi as (q & E & Hq).
        exists q. split; [auto|]. apply Add_pairs; auto.
      * exists (temp m, tag m). split; [auto|]. apply Add_pairs; auto.
    + exists (t', g). split; [auto|]. apply Add_pairs; auto.
Qed.

(** range fields agree with the list *)
Definition ranged (p : phase) : Prop :=
  mins p <> [] /\ is_least (T_low p) (temps p) /\ is_greatest (T_high p) (temps p).

Lemma Add_ranged p m : sorted p -> ranged p -> ranged (Add p m).
Proof.
  intros Hs (Hne & [HLi HL] & [HGi HG]).
  assert (Hne' : mins (Add p m) <> []).
  { pose proof (Add_temps p m (temp m) Hs) as [_ H]. intro E.
    assert (X : In (temp m) (temps (Add p m))) by (apply H; auto).
    unfold temps in X. rewrite E in X. destruct X. }
  split; [exact Hne'|].
  assert (HT : forall t, In t (temps (Add p m)) <-> t = temp m \/ In t (temps p))
    by (intro; now apply Add_temps).
  assert (Low : T_low (Add p m) = Z.min (T_low p) (temp m) /\
                T_high (Add p m) = Z.max (T_high p) (temp m)).
  { pose proof (Add_case p m Hs) as C.
    destruct C as [Hd|Hm|a t Hm Hlt Hn|pre a b post Hm Hlt Hn|Hm Hlt Hn]; cbn [T_low T_high].
    - specialize (HL _ Hd). specialize (HG _ Hd). lia.
    - congruence.
    - assert (Ha : In (temp a) (temps p)) by (unfold temps; rewrite Hm; left; auto).
      assert (Hmin : forall x, In x (temps p) -> temp a <= x).
      { unfold sorted, temps in Hs. rewrite Hm in Hs. cbn [map] in Hs. apply ss_inv in Hs as [_ Hs].
        unfold temps. rewrite Hm. intros x [<-|Hx]; [lia|]. specialize (Hs _ Hx). lia. }
      specialize (HG _ Ha). specialize (HL _ Ha). specialize (Hmin _ HLi). lia.
    - assert (Ha : In (temp a) (temps p)).
      { unfold temps. rewrite Hm, map_app. apply in_or_app. right. left; auto. }
      assert (Hb : In (temp b) (temps p)).
      { unfold temps. rewrite Hm, map_app. apply in_or_app. right. right. left; auto. }
      specialize (HL _ Ha). specialize (HG _ Hb). lia.
    - unfold temps in HLi, HGi. apply in_map_iff in HLi as (x & Ex & Hx).
      apply in_map_iff in HGi as (y & Ey & Hy). pose proof (Hlt _ Hx). pose proof (Hlt _ Hy). lia. }
  destruct Low as [-> ->]. split; split.
  - apply HT. destruct (Z.min_spec (T_low p) (temp m)) as [[_ ->]|[_ ->]]; auto.
  - intros x Hx. apply HT in Hx as [->|Hx]; [lia|]. specialize (HL _ Hx). lia.
  - apply HT. destruct (Z.max_spec (T_high p) (temp m)) as [[_ ->]|[_ ->]]; auto.
  - intros x Hx. apply HT in Hx as [->|Hx]; [lia|]. specialize (HG _ Hx). lia.
Qed.

Lemma fix_range_ranged p : sorted p -> mins p <> [] -> ranged (fix_range p).
Proof.
  intros Hs Hne. unfold fix_range. destruct (mins p) as [|a t] eqn:E; [congruence|].
  unfold ranged, temps. cbn [mins T_low T_high]. split; [discriminate|].
  unfold sorted, temps in Hs. rewrite E in Hs. clear - Hs.
  split; split.
  - left; auto.
  - cbn [map] in *. apply ss_inv in Hs as [_ Hs]. intros x [<-|Hx]; [lia|]. specialize (Hs _ Hx). lia.
  - apply in_map. destruct (exists_last (l := a :: t)) as (l & x & El); [discriminate|].
    rewrite El, last_last. apply in_or_app; right; left; auto.
  - destruct (exists_last (l := a :: t)) as (l & x & El); [discriminate|].
    rewrite El in *. rewrite last_last, map_app in *. cbn [map] in *. apply ss_app in Hs as (_ & _ & Hs).
    intros y Hy. apply in_app_or in Hy as [Hy|[<-|[]]]; [|lia].
    specialize (Hs y (temp x) Hy (or_introl eq_refl)). lia.
Qed.

(** * histories *)
Lemma AddAll_app p a b : AddAll p (a ++ b) = AddAll (AddAll p a) b.
Proof. unfold AddAll. apply fold_left_app. Qed.

Lemma AddAll_sorted ms : forall p, sorted p -> sorted (AddAll p ms).
Proof. induction ms as [|m ms IH]; intros p H; cbn; [exact H|]. apply IH. now apply Add_sorted. Qed.

Lemma AddAll_ranged ms : forall p, sorted p -> ranged p -> ranged (AddAll p ms).
Proof.
  induction ms as [|m ms IH]; intros p H R; cbn; [exact R|].
  apply IH; [now apply Add_sorted|now apply Add_ranged].
Qed.

Lemma AddAll_temps ms : forall p t, sorted p ->
  In t (temps (AddAll p ms)) <-> In t (map temp ms) \/ In t (temps p).
Proof.
  induction ms as [|m ms IH]; intros p t H; cbn [AddAll fold_left map]; [cbn; tauto|].
  fold (AddAll (Add p m) ms). rewrite IH by now apply Add_sorted.
  rewrite Add_temps by auto. cbn. intuition.
Qed.

Lemma AddAll_pid ms : forall p, pid (AddAll p ms) = pid p.
Proof.
  assert (A : forall p m, pid (Add p m) = pid p).
  { intros p m. unfold Add. destruct (existsb _ _); [reflexivity|].
    destruct (mins p) as [|a t]; [reflexivity|]. destruct (_ <? _); [reflexivity|].
    destruct (insert_mid m (a :: t)); reflexivity. }
  induction ms as [|m ms IH]; intro p; cbn; [reflexivity|].
  fold (AddAll (Add p m) ms). rewrite IH. apply A.
Qed.

Lemma sorted_empty : sorted empty_phase.
Proof. constructor. Qed.

Lemma AddAll_first ms : forall p h, sorted p ->
  (forall q, In q (pairs p) <-> exists m, first_at h m /\ q = (temp m, tag m)) ->
  (forall t, In t (temps p) <-> In t (map temp h)) ->
  forall q, In q (pairs (AddAll p ms)) <-> exists m, first_at (h ++ ms) m /\ q = (temp m, tag m).
Proof.
  induction ms as [|m ms IH]; intros p h Hs Hp Ht q; cbn [AddAll fold_left].
  - rewrite app_nil_r. apply Hp.
  - fold (AddAll (Add p m) ms). replace (h ++ m :: ms) with ((h ++ [m]) ++ ms) by now rewrite <- app_assoc.
    apply IH; [now apply Add_sorted| |].
    + intro r. rewrite Add_pairs by auto. rewrite Hp, Ht. split.
      * intros [(x & (pre & post & -> & Hf) & ->)|[-> Hn]].
        -- exists x. split; [|auto]. exists pre, (post ++ [m]). rewrite <- app_assoc. auto.
        -- exists m. split; [|auto]. exists h, []. split; [auto|].
           intros m' Hm' E. apply Hn. rewrite <- E. now apply in_map.
      * intros (x & (pre & post & E & Hf) & ->).
        destruct post as [|y post] using rev_ind.
        -- apply app_inj_tail in E as [-> ->]. right. split; [auto|].
           intro Hin. apply in_map_iff in Hin as (z & Ez & Hz). apply (Hf z Hz Ez).
        -- clear IHpost. left. exists x. split; [|auto].
           rewrite app_comm_cons, app_assoc in E. apply app_inj_tail in E as [E _].
           exists pre, post. auto.
    + intro t. rewrite Add_temps by auto. rewrite Ht, map_app, in_app_iff. cbn. intuition.
Qed.

Lemma make_phase_mins ms : mins (make_phase ms) = mins (AddAll empty_phase ms).
Proof. unfold make_phase, fix_range. destruct (mins (AddAll empty_phase ms)) eqn:E; cbn; congruence. Qed.

Lemma fix_range_temps p : temps (fix_range p) = temps p.
Proof. unfold temps, fix_range. destruct (mins p) eqn:E; cbn [mins]; [now rewrite E|reflexivity]. Qed.
Lemma fix_range_pairs p : pairs (fix_range p) = pairs p.
Proof. unfold pairs, fix_range. destruct (mins p) eqn:E; cbn [mins]; [now rewrite E|reflexivity]. Qed.

Lemma make_phase_sorted ms : sorted (make_phase ms).
Proof. unfold sorted, make_phase. rewrite fix_range_temps. apply AddAll_sorted, sorted_empty. Qed.

Lemma make_phase_ranged ms : ms <> [] -> ranged (make_phase ms).
Proof.
  intro Hne. apply fix_range_ranged; [apply AddAll_sorted, sorted_empty|].
  destruct ms as [|m ms]; [congruence|]. intro E.
  assert (H : In (temp m) (temps (AddAll empty_phase (m :: ms)))).
  { apply AddAll_temps; [apply sorted_empty|]. left; left; auto. }
  unfold temps in H. rewrite E in H. destruct H.
Qed.

(** main statement for C12 *)
Lemma phase_history tracked later :
  tracked <> [] ->
  let p := AddAll (make_phase tracked) later in
  increasing (temps p) /\
  (forall t, In t (temps p) <-> In t (map temp (tracked ++ later))) /\
  (forall t g, In (t, g) (map (fun m => (temp m, tag m)) (mins p)) <->
               exists m, first_at (tracked ++ later) m /\ t = temp m /\ g = tag m) /\
  is_least (T_low p) (map temp (tracked ++ later)) /\
  is_greatest (T_high p) (map temp (tracked ++ later)).
Proof.
  intros Hne p.
  assert (Hs : sorted p) by (apply AddAll_sorted, make_phase_sorted).
  assert (R : ranged p) by (apply AddAll_ranged; [apply make_phase_sorted|now apply make_phase_ranged]).
  assert (HT0 : forall t, In t (temps (make_phase tracked)) <-> In t (map temp tracked)).
  { intro t. unfold make_phase. rewrite fix_range_temps, AddAll_temps by apply sorted_empty. cbn; tauto. }
  assert (HT : forall t, In t (temps p) <-> In t (map temp (tracked ++ later))).
  { intro t. unfold p. rewrite AddAll_temps by apply make_phase_sorted. rewrite HT0, map_app, in_app_iff. tauto. }
  split; [now apply ss_increasing|]. split; [exact HT|]. split; [|split].
  - intros t g. assert (P : forall q, In q (pairs p) <-> exists m, first_at (tracked ++ later) m /\ q = (temp m, tag m)).
    { apply AddAll_first; [apply make_phase_sorted| |exact HT0].
      intro q. unfold make_phase. rewrite fix_range_pairs.
      apply (AddAll_first tracked empty_phase []); [apply sorted_empty| |].
      - intro r. cbn. split; [tauto|]. intros (m & (pre & post & E & _) & _). destruct pre; discriminate.
      - intro t'. cbn. tauto. }
    unfold pairs in P. rewrite P. split; intros (m & F & E).
    + exists m. injection E; auto.
    + exists m. destruct E; subst; auto.
  - destruct R as (_ & [A B] & _). split; [now apply HT|]. intros x Hx. apply B. now apply HT.
  - destruct R as (_ & _ & [A B]). split; [now apply HT|]. intros x Hx. apply B. now apply HT.
Qed.
