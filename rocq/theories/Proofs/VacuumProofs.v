From Coq Require Import Sorted Permutation ZifyBool.
From Verif.Model Require Import Base Phase.
From Verif.Spec Require Import PhaseSpec.
From Verif.Proofs Require Import PhaseProofs.
Open Scope Z_scope.

(** * Phase::Get *)
Lemma closest_spec T l : forall b,
  (closest T b l = b \/ In (closest T b l) l) /\
  forall m, m = b \/ In m l -> Z.abs (T - temp (closest T b l)) <= Z.abs (T - temp m).
Proof.
  induction l as [|x l IH]; intro b; cbn [closest].
  - split; [auto|]. intros m [->|[]]; lia.
  - destruct (IH (if Z.abs (T - temp x) <? Z.abs (T - temp b) then x else b)) as [A B].
    destruct (Z.abs (T - temp x) <? Z.abs (T - temp b)) eqn:E.
    + split; [destruct A as [->|A]; cbn; auto|].
      intros m [->|[->|Hm]].
      * specialize (B x (or_introl eq_refl)). lia.
      * apply B; auto.
      * apply B; auto.
    + split; [destruct A as [->|A]; cbn; auto|].
      intros m [->|[->|Hm]].
      * apply B; auto.
      * specialize (B b (or_introl eq_refl)). lia.
      * apply B; auto.
Qed.

Lemma Get_hit track p T m :
  sorted p -> In m (mins p) -> temp m = T -> Get track p T = Ok (p, m).
Proof.
  intros Hs Hin Ht. unfold Get. destruct (mins p) as [|a t] eqn:E; [destruct Hin|].
  destruct (closest_spec T t a) as [A B]. set (c := closest T a t) in *.
  assert (Hc : In c (a :: t)) by (destruct A as [->|A]; [left|right]; auto).
  assert (Hz : Z.abs (T - temp c) = 0).
  { specialize (B m). rewrite Ht in B. destruct Hin as [<-|Hin]; [specialize (B (or_introl eq_refl))|specialize (B (or_intror Hin))]; lia. }
  rewrite Hz. cbn [Z.eqb]. do 2 f_equal.
  assert (Et : temp c = temp m) by lia.
  unfold sorted, temps in Hs. rewrite E in Hs. apply ss_nodup in Hs. clear - Hs Hc Hin Et.
  induction (a :: t) as [|x l IH]; [destruct Hc|]. cbn in Hs. inversion Hs; subst.
  destruct Hc as [->|Hc], Hin as [->|Hin]; auto.
  - exfalso. apply H1. rewrite Et. now apply in_map.
  - exfalso. apply H1. rewrite <- Et. now apply in_map.
Qed.

Lemma Get_total track p T :
  mins p <> [] -> exists p' m, Get track p T = Ok (p', m).
Proof.
  intro H. unfold Get. destruct (mins p) as [|a t]; [congruence|].
  destruct (_ =? _); [eauto|]. destruct (track _ T); eauto.
Qed.

Lemma Get_invariants track p T p' m :
  sorted p -> ranged p -> Get track p T = Ok (p', m) ->
  sorted p' /\ ranged p' /\ (forall t, In t (temps p) -> In t (temps p')) /\
  (p' = p /\ In m (mins p) /\ (forall x, In x (mins p) -> Z.abs (T - temp m) <= Z.abs (T - temp x)) \/
   exists start, In start (mins p) /\ temp start <> T /\
     (forall x, In x (mins p) -> Z.abs (T - temp start) <= Z.abs (T - temp x)) /\
     (exists l, track start T = l ++ [m]) /\
     (forall t, In t (temps p') <-> In t (temps p) \/ In t (map temp (track start T)))).
Proof.
  intros Hs R H. unfold Get in H. destruct (mins p) as [|a t] eqn:E; [discriminate|].
  destruct (closest_spec T t a) as [A B]. set (c := closest T a t) in *.
  assert (Hc : In c (a :: t)) by (destruct A as [->|A]; [left|right]; auto).
  assert (D : forall x, In x (a :: t) -> Z.abs (T - temp c) <= Z.abs (T - temp x)).
  { intros x [<-|Hx]; apply B; auto. }
  destruct (Z.abs (T - temp c) =? 0) eqn:Ez.
  - injection H as <- <-. split; [exact Hs|]. split; [exact R|]. split; [auto|]. left. rewrite ?E. auto.
  - destruct (track c T) as [|m0 ms] eqn:Et.
    + injection H as <- <-. split; [exact Hs|]. split; [exact R|]. split; [auto|]. left. rewrite ?E. auto.
    + remember (m0 :: ms) as ml eqn:Eml.
      assert (Hp' : p' = AddAll p ml) by (injection H; congruence).
      assert (Hm : m = last ml m0) by (injection H; congruence).
      subst p' m. clear H.
      assert (Hs' : sorted (AddAll p ml)) by now apply AddAll_sorted.
      assert (R' : ranged (AddAll p ml)) by now apply AddAll_ranged.
      split; [exact Hs'|]. split; [exact R'|]. split.
      { intros x Hx. apply AddAll_temps; auto. }
      right. exists c. rewrite Et. split; [rewrite ?E; exact Hc|]. split; [lia|].
      split; [rewrite ?E; exact D|]. split.
      * destruct (exists_last (l := ml)) as (l & x & El); [subst ml; discriminate|].
        exists l. rewrite El, last_last. reflexivity.
      * intro x. rewrite AddAll_temps by exact Hs. tauto.
Qed.

(** * addPhase *)
Record good (p : phase) : Prop := {
  g_sorted : sorted p; g_ranged : ranged p; g_two : (2 <= length (mins p))%nat }.

Lemma Add_length p m : (length (mins p) <= length (mins (Add p m)))%nat.
Proof.
  unfold Add. destruct (existsb _ _); [lia|]. destruct (mins p) as [|a t] eqn:E; [cbn; lia|].
  destruct (_ <? _); [cbn; lia|].
  destruct (insert_mid m (a :: t)) as [l|] eqn:F; cbn [mins].
  - apply insert_mid_split in F as (pre & x & y & post & E1 & -> & _). rewrite E1, !app_length. cbn. lia.
  - rewrite app_length. assert (L : forall l, length (clear_last l) = length l).
    { clear. intro l. pose proof (f_equal (@length Z) (clear_last_temps l)) as L. rewrite !map_length in L. exact L. }
    rewrite L. lia.
Qed.

Lemma AddAll_length ms : forall p, (length (mins p) <= length (mins (AddAll p ms)))%nat.
Proof.
  induction ms as [|m ms IH]; intro p; cbn; [lia|]. fold (AddAll (Add p m) ms).
  pose proof (Add_length p m). specialize (IH (Add p m)). lia.
Qed.

Lemma good_AddAll p ms : good p -> good (AddAll p ms).
Proof.
  intros [A B C]. split; [now apply AddAll_sorted|now apply AddAll_ranged|].
  pose proof (AddAll_length ms p). lia.
Qed.

Lemma extends_refl q : extends q q. Proof. split; auto. Qed.
Lemma extends_trans a b c : extends a b -> extends b c -> extends a c.
Proof. intros [A1 A2] [B1 B2]. split; [congruence|auto]. Qed.
Lemma extends_AddAll q ms : sorted q -> extends q (AddAll q ms).
Proof. intro H. split; [apply AddAll_pid|]. intros t Ht. apply AddAll_temps; auto. Qed.

Lemma compare_loop_spec cmp ps : forall i p ps' p' b,
  (forall q, In q ps -> good q) -> good p ->
  compare_loop cmp i ps p = (ps', p', b) ->
  Forall2 extends ps ps' /\ (forall q, In q ps' -> good q) /\ good p' /\ extends p p' /\
  (b = true -> exists q, In q ps' /\ forall t, In t (temps p') -> In t (temps q)).
Proof.
  induction ps as [|q ps IH]; intros i p ps' p' b Hps Hp H; cbn [compare_loop] in H.
  - injection H as <- <- <-. split; [constructor|]. split; [intros q []|]. split; [exact Hp|].
    split; [apply extends_refl|discriminate].
  - assert (Hq : good q) by (apply Hps; left; auto).
    assert (Hps' : forall x, In x ps -> good x) by (intros; apply Hps; right; auto).
    destruct (_ <=? _).
    + destruct (compare_loop cmp (S i) ps p) as [[r p1] b1] eqn:E. injection H as <- <- <-.
      destruct (IH _ _ _ _ _ Hps' Hp E) as (A & B & C & D & F).
      split; [constructor; [apply extends_refl|exact A]|].
      split; [intros x [<-|Hx]; auto|]. split; [exact C|]. split; [exact D|].
      intro Hb. destruct (F Hb) as (x & Hx & Hxt). exists x. split; [right|]; auto.
    + set (q1 := AddAll q (ext_existing (cmp i q p))) in *.
      set (p1 := AddAll p (ext_new (cmp i q p))) in *.
      assert (Hq1 : good q1) by now apply good_AddAll.
      assert (Hp1 : good p1) by now apply good_AddAll.
      assert (Eq : extends q q1) by (apply extends_AddAll, Hq).
      assert (Ep : extends p p1) by (apply extends_AddAll, Hp).
      destruct (coincide (cmp i q p)).
      * injection H as <- <- <-. assert (E2 : extends q1 (AddAll q1 (mins p1))) by (apply extends_AddAll, Hq1).
        split; [constructor; [eapply extends_trans; eauto|clear; induction ps; constructor; auto using extends_refl]|].
        split; [intros x [<-|Hx]; [now apply good_AddAll|auto]|].
        split; [exact Hp1|]. split; [exact Ep|].
        intros _. exists (AddAll q1 (mins p1)). split; [left; auto|].
        intros t Ht. apply AddAll_temps; [apply Hq1|]. left. exact Ht.
      * destruct (compare_loop cmp (S i) ps p1) as [[r p2] b1] eqn:E. injection H as <- <- <-.
        destruct (IH _ _ _ _ _ Hps' Hp1 E) as (A & B & C & D & F).
        split; [constructor; auto|]. split; [intros x [<-|Hx]; auto|]. split; [exact C|].
        split; [eapply extends_trans; eauto|].
        intro Hb. destruct (F Hb) as (x & Hx & Hxt). exists x. split; [right|]; auto.
Qed.

Lemma mark_last_temps l : map temp (mark_last l) = map temp l.
Proof. induction l as [|a [|b t] IH]; cbn; auto. f_equal. exact IH. Qed.
Lemma mark_edges_temps p : temps (mark_edges p) = temps p.
Proof.
  unfold temps, mark_edges. cbn [mins]. rewrite mark_last_temps. destruct (mins p); reflexivity.
Qed.
Lemma good_mark p : good p -> good (mark_edges p).
Proof.
  intros [A B C]. split.
  - unfold sorted. rewrite mark_edges_temps. exact A.
  - destruct B as (B1 & B2 & B3). unfold ranged. rewrite mark_edges_temps. cbn [T_low T_high mark_edges].
    split; [|split; [exact B2|exact B3]].
    intro E. assert (X : temps (mark_edges p) = []) by (unfold temps; now rewrite E).
    rewrite mark_edges_temps in X. unfold temps in X. apply map_eq_nil in X. congruence.
  - replace (length (mins (mark_edges p))) with (length (mins p)); [exact C|].
    pose proof (f_equal (@length Z) (mark_edges_temps p)) as L. unfold temps in L. rewrite !map_length in L. auto.
Qed.

(** main one-step statement for C17 *)
Lemma addPhase_step retrack cmp ps p ps' p' :
  (forall q, In q ps -> good q) ->
  (exists tracked, p = make_phase tracked) ->
  addPhase retrack cmp ps p = (ps', p') ->
  (forall q, In q ps' -> good q) /\
  (exists kept new, ps' = kept ++ new /\ Forall2 extends ps kept /\ (length new <= 1)%nat) /\
  ((3 <= length (mins p))%nat \/ (length (mins p) = 2%nat /\ retrack p <> []) ->
     exists q, In q ps' /\ forall t, In t (temps p) -> In t (temps q)).
Proof.
  intros Hps (tracked & Hp) H.
  assert (Sp : sorted p) by (subst p; apply make_phase_sorted).
  assert (Rp : (1 < length (mins p))%nat -> ranged p).
  { intro L. subst p. apply make_phase_ranged. intros ->. cbn in L. lia. }
  assert (Keep : Forall2 extends ps ps) by (clear; induction ps; constructor; auto using extends_refl).
  unfold addPhase in H. destruct (length (mins p) <=? 1)%nat eqn:E1.
  { injection H as <- <-. split; [auto|]. split; [exists ps, []; rewrite app_nil_r; cbn; auto|].
    intro C. exfalso. lia. }
  assert (Go : forall p0, good p0 -> extends p p0 ->
    (let '(ps', p', merged) := compare_loop cmp 0 ps p0 in
      if merged then (ps', p') else (ps' ++ [mark_edges p'], mark_edges p')) = (ps', p') ->
    (forall q, In q ps' -> good q) /\
    (exists kept new, ps' = kept ++ new /\ Forall2 extends ps kept /\ (length new <= 1)%nat) /\
    exists q, In q ps' /\ forall t, In t (temps p) -> In t (temps q)).
  { intros p0 G0 X0 H0. destruct (compare_loop cmp 0 ps p0) as [[r p1] b] eqn:E.
    destruct (compare_loop_spec _ _ _ _ _ _ _ Hps G0 E) as (A & B & C & D & F).
    destruct b; injection H0 as <- <-.
    - split; [auto|]. split; [exists r, []; rewrite app_nil_r; cbn; auto|].
      destruct (F eq_refl) as (q & Hq & Hqt). exists q. split; [auto|].
      intros t Ht. apply Hqt, D, X0, Ht.
    - split.
      + intros q Hq. apply in_app_or in Hq as [Hq|[<-|[]]]; [auto|now apply good_mark].
      + split; [exists r, [mark_edges p1]; auto|].
        exists (mark_edges p1). split; [apply in_or_app; right; left; auto|].
        intros t Ht. rewrite mark_edges_temps. apply D, X0, Ht. }
  destruct (length (mins p) =? 2)%nat eqn:E2.
  - destruct (retrack p) as [|m ms] eqn:Er.
    + injection H as <- <-. split; [auto|]. split; [exists ps, []; rewrite app_nil_r; cbn; auto|].
      intros [C|[_ C]]; [lia|congruence].
    + assert (G0 : good (AddAll p (m :: ms))).
      { apply good_AddAll. split; [exact Sp|apply Rp; lia|lia]. }
      destruct (Go _ G0 (extends_AddAll p (m :: ms) Sp) H) as (A & B & C). auto.
  - assert (G0 : good p) by (split; [exact Sp|apply Rp; lia|lia]).
    destruct (Go _ G0 (extends_refl p) H) as (A & B & C). auto.
Qed.

(** * edge labels *)
Lemma clear_last_app l b : clear_last (l ++ [b]) = l ++ [set_edge b 0].
Proof. induction l as [|x l IH]; [reflexivity|]. cbn [app clear_last]. destruct (l ++ [b]) eqn:E; [destruct l; discriminate|]. now rewrite IH. Qed.
Lemma mark_last_app l b : mark_last (l ++ [b]) = l ++ [set_edge b 1].
Proof. induction l as [|x l IH]; [reflexivity|]. cbn [app mark_last]. destruct (l ++ [b]) eqn:E; [destruct l; discriminate|]. now rewrite IH. Qed.

Lemma ends_labelled_Add p m : ends_labelled p -> ends_labelled (Add p m).
Proof.
  intros (a & l & b & E & Ea & Eb). unfold Add. destruct (existsb _ _); [exists a, l, b; auto|].
  rewrite E. destruct (temp m <? temp a).
  - exists (set_edge m (-1)), (set_edge a 0 :: l), b. cbn. auto.
  - destruct (insert_mid m (a :: l ++ [b])) as [r|] eqn:F.
    + apply insert_mid_split in F as (pre & x & y & post & E1 & -> & _). unfold ends_labelled. cbn [mins].
      destruct pre as [|z pre]; cbn in E1; injection E1 as -> E1.
      * destruct (exists_last (l := y :: post)) as (k & w & Ek); [discriminate|].
        cbn [app]. assert (w = b).
        { rewrite Ek in E1. apply (f_equal (fun v => last v b)) in E1. rewrite !last_last in E1. auto. }
        subst w. exists x, (m :: k), b. rewrite Ek. auto.
      * destruct (exists_last (l := y :: post)) as (k & w & Ek); [discriminate|].
        assert (w = b).
        { rewrite Ek in E1. apply (f_equal (fun v => last v b)) in E1.
          rewrite last_last in E1. replace (pre ++ x :: k ++ [w]) with ((pre ++ x :: k) ++ [w]) in E1 by now rewrite <- app_assoc.
          rewrite last_last in E1. auto. }
        subst w. exists z, (pre ++ x :: m :: k), b. rewrite Ek. cbn. rewrite <- app_assoc. auto.
    + exists a, (l ++ [set_edge b 0]), (set_edge m 1). cbn [mins].
      change (a :: l ++ [b]) with ((a :: l) ++ [b]). rewrite clear_last_app. auto.
Qed.
Lemma ends_labelled_AddAll ms : forall p, ends_labelled p -> ends_labelled (AddAll p ms).
Proof. induction ms as [|m ms IH]; intros p H; cbn; [auto|]. apply IH. now apply ends_labelled_Add. Qed.

Lemma ends_labelled_mark p : (2 <= length (mins p))%nat -> ends_labelled (mark_edges p).
Proof.
  intro L. unfold ends_labelled, mark_edges. cbn [mins]. destruct (mins p) as [|a t]; [cbn in L; lia|].
  destruct (exists_last (l := t)) as (k & w & ->); [intros ->; cbn in L; lia|].
  exists (set_edge a (-1)), k, (set_edge w 1).
  change (set_edge a (-1) :: k ++ [w]) with ((set_edge a (-1) :: k) ++ [w]). rewrite mark_last_app. auto.
Qed.

Lemma compare_loop_ends_labelled cmp ps : forall i p ps' p' b,
  (forall q, In q ps -> ends_labelled q) -> compare_loop cmp i ps p = (ps', p', b) ->
  forall q, In q ps' -> ends_labelled q.
Proof.
  induction ps as [|q ps IH]; intros i p ps' p' b Hps H; cbn [compare_loop] in H.
  - injection H as <- <- <-. intros q [].
  - assert (Hq : ends_labelled q) by (apply Hps; left; auto).
    assert (Hps' : forall x, In x ps -> ends_labelled x) by (intros; apply Hps; right; auto).
    destruct (_ <=? _).
    + destruct (compare_loop cmp (S i) ps p) as [[r p1] b1] eqn:E. injection H as <- <- <-.
      intros x [<-|Hx]; [auto|]. eapply IH; eauto.
    + destruct (coincide (cmp i q p)).
      * injection H as <- <- <-. intros x [<-|Hx]; [|auto]. now do 2 apply ends_labelled_AddAll.
      * destruct (compare_loop cmp (S i) ps _) as [[r p1] b1] eqn:E. injection H as <- <- <-.
        intros x [<-|Hx]; [now apply ends_labelled_AddAll|]. eapply IH; eauto.
Qed.

Lemma addPhase_ends_labelled retrack cmp ps p :
  (forall q, In q ps -> good q) -> (forall q, In q ps -> ends_labelled q) ->
  (exists tracked, p = make_phase tracked) ->
  forall q, In q (fst (addPhase retrack cmp ps p)) -> ends_labelled q.
Proof.
  intros Hg Hps Hp. destruct (addPhase retrack cmp ps p) as [ps' p'] eqn:E. cbn [fst].
  destruct (addPhase_step _ _ _ _ _ _ Hg Hp E) as (G & _ & _).
  unfold addPhase in E. destruct (length (mins p) <=? 1)%nat; [injection E as <- <-; auto|].
  assert (Go : forall p0, (let '(ps', p', merged) := compare_loop cmp 0 ps p0 in
      if merged then (ps', p') else (ps' ++ [mark_edges p'], mark_edges p')) = (ps', p') ->
      forall q, In q ps' -> ends_labelled q).
  { intros p0 H0. destruct (compare_loop cmp 0 ps p0) as [[r p1] b] eqn:F.
    pose proof (compare_loop_ends_labelled _ _ _ _ _ _ _ Hps F) as B.
    destruct b; injection H0 as <- <-; [exact B|].
    intros q Hq. pose proof (G q Hq) as [_ _ L]. apply in_app_or in Hq as [Hq|[<-|[]]]; [auto|].
    apply ends_labelled_mark. pose proof (f_equal (@length Z) (mark_edges_temps p1)) as L2.
    unfold temps in L2. rewrite !map_length in L2. lia. }
  destruct (_ =? _)%nat; [destruct (retrack p)|]; try (injection E as <- <-; exact Hps); eapply Go; exact E.
Qed.

Lemma replace_in i q l x : In x (replace_at i q l) -> x = q \/ In x l.
Proof.
  unfold replace_at. intro H. apply in_app_or in H as [H|H].
  - right. rewrite <- (firstn_skipn i l). apply in_or_app; auto.
  - destruct (skipn i l) as [|y r] eqn:E; [destruct H|]. destruct H as [<-|H]; [auto|].
    right. rewrite <- (firstn_skipn i l), E. apply in_or_app; right; right; auto.
Qed.

Lemma reachable_inv ps : reachable ps -> forall q, In q ps -> good q /\ ends_labelled q.
Proof.
  induction 1 as [|ps retrack cmp tracked H IH|ps i q track T q' m H IH Hn Hg].
  - intros q [].
  - intros q Hq. destruct (addPhase retrack cmp ps (make_phase tracked)) as [ps1 p1] eqn:E. cbn [fst] in Hq.
    assert (G : forall q, In q ps -> good q) by (intros; apply IH; auto).
    split.
    + eapply addPhase_step; [exact G| |exact E|exact Hq]; eauto.
    + eapply (addPhase_ends_labelled retrack cmp ps (make_phase tracked)); [exact G| | |rewrite E; exact Hq]; eauto.
      intros; apply IH; auto.
  - intros x Hx. apply replace_in in Hx as [->|Hx]; [|auto].
    apply nth_error_In in Hn. destruct (IH _ Hn) as [G F]. unfold Get in Hg.
    destruct (mins q); [discriminate|]. destruct (_ =? _); [injection Hg as <- <-; auto|].
    destruct (track _ T) as [|m1 ms]; [injection Hg as <- <-; auto|].
    assert (q' = AddAll q (m1 :: ms)) as -> by (injection Hg; congruence).
    split; [now apply good_AddAll|now apply ends_labelled_AddAll].
Qed.

Lemma good_well_formed p : good p <-> well_formed p.
Proof.
  split.
  - intros [A (B1 & B2 & B3) C]. split; [auto|]. split; [now apply ss_increasing|auto].
  - intros (A & B & C & D). split; [now apply ss_increasing| |auto].
    split; [|auto]. intro E. rewrite E in A. cbn in A. lia.
Qed.

(** * edge counts *)
Definition Gsum (es : list minimum) (t : Z) : Z :=
  fold_right Z.add 0 (map (fun e => if t <=? temp e then edge e else 0) es).
Definition Hsum (es : list minimum) (ts : list Z) : Z :=
  fold_right Z.add 0 (map (fun e => if existsb (Z.eqb (temp e)) ts then 0 else edge e) es).

Definition dsc (l : list Z) : Prop := StronglySorted (fun a b => b < a) l.

Lemma insert_desc_in x l t : In t (insert_desc x l) <-> t = x \/ In t l.
Proof.
  induction l as [|y l IH]; cbn [insert_desc]; [cbn; intuition|].
  destruct (x =? y) eqn:E; [|destruct (y <? x)]; cbn [In]; try rewrite IH; intuition; subst; left; lia.
Qed.
Lemma insert_desc_dsc x l : dsc l -> dsc (insert_desc x l).
Proof.
  unfold dsc. induction l as [|y l IH]; intro H; cbn [insert_desc]; [repeat constructor|].
  inversion H as [|? ? Hs Hf]; subst. rewrite Forall_forall in Hf.
  destruct (x =? y) eqn:E; [exact H|]. destruct (y <? x) eqn:E2.
  - constructor; [exact H|]. apply Forall_forall. intros z [<-|Hz]; [lia|]. specialize (Hf _ Hz). lia.
  - constructor; [auto|]. apply Forall_forall. intros z Hz. apply insert_desc_in in Hz as [->|Hz]; [lia|auto].
Qed.
Lemma temp_list_dsc es : dsc (temp_list es).
Proof. unfold temp_list. induction (map temp es); cbn; [constructor|now apply insert_desc_dsc]. Qed.
Lemma temp_list_in es t : In t (temp_list es) <-> In t (map temp es).
Proof. unfold temp_list. induction (map temp es); cbn; [tauto|]. rewrite insert_desc_in, IHl. intuition. Qed.

Lemma running_eq es : forall ts acc, dsc ts ->
  (forall e, In e es -> In (temp e) ts \/ forall t, In t ts -> t < temp e) ->
  acc = Hsum es ts -> running es ts acc = map (fun t => (t, Gsum es t)) ts.
Proof.
  induction ts as [|t ts IH]; intros acc Hd Hc Ha; [reflexivity|]. cbn [running map].
  inversion Hd as [|? ? Hs Hf]; subst. rewrite Forall_forall in Hf.
  assert (E1 : Hsum es (t :: ts) + edge_sum es t = Gsum es t).
  { unfold Hsum, edge_sum, Gsum. revert Hc. clear IH. generalize es. induction es0 as [|e es' IHe]; intro Hc; [reflexivity|].
    cbn [map fold_right existsb]. specialize (IHe (fun e' He => Hc e' (or_intror He))). cbn [existsb] in IHe.
    destruct (Hc e (or_introl eq_refl)) as [[Hi|Hi]|Hi].
    - subst t. rewrite Z.eqb_refl, Z.leb_refl. cbn [orb]. lia.
    - specialize (Hf _ Hi). replace (temp e =? t) with false by lia. replace (t <=? temp e) with false by lia.
      replace (existsb (Z.eqb (temp e)) ts) with true; [cbn [orb]; lia|]. symmetry. apply existsb_exists. exists (temp e). split; [auto|lia].
    - pose proof (Hi t (or_introl eq_refl)). replace (temp e =? t) with false by lia. replace (t <=? temp e) with true by lia.
      replace (existsb (Z.eqb (temp e)) ts) with false; [cbn [orb]; lia|]. symmetry. apply not_true_is_false. intro Hx.
      apply existsb_exists in Hx as (u & Hu & Eu). specialize (Hi u (or_intror Hu)). lia. }
  rewrite E1. f_equal. apply IH; [exact Hs| |].
  - intros e He. destruct (Hc e He) as [[Hi|Hi]|Hi]; [right|left|right].
    + subst t. intros u Hu. apply Hf, Hu.
    + exact Hi.
    + intros u Hu. apply Hi. right; auto.
  - unfold Gsum, Hsum. revert Hc. clear IH E1. generalize es. induction es0 as [|e es' IHe]; intro Hc; [reflexivity|].
    cbn [map fold_right]. specialize (IHe (fun e' He => Hc e' (or_intror He))). rewrite IHe. f_equal.
    destruct (Hc e (or_introl eq_refl)) as [[Hi|Hi]|Hi].
    + subst t. rewrite Z.leb_refl. replace (existsb _ ts) with false; [auto|]. symmetry. apply not_true_is_false. intro Hx.
      apply existsb_exists in Hx as (u & Hu & Eu). specialize (Hf u Hu). lia.
    + specialize (Hf _ Hi). replace (t <=? temp e) with false by lia.
      replace (existsb (Z.eqb (temp e)) ts) with true; [auto|]. symmetry. apply existsb_exists. exists (temp e). split; [auto|lia].
    + pose proof (Hi t (or_introl eq_refl)). replace (t <=? temp e) with true by lia.
      replace (existsb (Z.eqb (temp e)) ts) with false; [auto|]. symmetry. apply not_true_is_false. intro Hx.
      apply existsb_exists in Hx as (u & Hu & Eu). specialize (Hi u (or_intror Hu)). lia.
Qed.

Lemma aliveb_spec t p : aliveb t p = true <-> alive_below t p.
Proof. unfold aliveb, alive_below. lia. Qed.

Lemma edge_counts_eq ps :
  (forall p, In p ps -> good p) -> (forall p, In p ps -> ends_labelled p) ->
  edge_counts ps = map (fun t => (t, Z.of_nat (length (filter (aliveb t) ps)))) (temp_list (edges ps)).
Proof.
  intros Hg Hf. unfold edge_counts. rewrite running_eq.
  - apply map_ext. intro t. f_equal. clear - Hg Hf. induction ps as [|p ps IH]; [reflexivity|].
    cbn [edges flat_map]. fold (edges ps). unfold Gsum. rewrite map_app, fold_right_app.
    assert (Hp : ends_labelled p) by (apply Hf; left; auto). destruct (Hg p (or_introl eq_refl)) as [Sp Rp _].
    destruct Hp as (a & l & b & E & Ea & Eb). rewrite E. change (a :: l ++ [b]) with ((a :: l) ++ [b]). rewrite last_last.
    cbn [map fold_right]. fold (Gsum (edges ps) t). rewrite IH by (intros; first [apply Hg|apply Hf]; right; auto).
    rewrite Ea, Eb. assert (T_low p = temp a /\ T_high p = temp b /\ temp a < temp b) as (El & Eh & Hlt).
    { destruct Rp as (_ & [R1 R2] & [R3 R4]). unfold sorted in Sp. unfold temps in *. rewrite E in *. cbn in Sp. rewrite map_app in *. cbn in *.
      rewrite map_app in *. cbn in *.
      apply ss_inv in Sp as [Sp1 Sp2].
      assert (temp a < temp b) by (apply Sp2, in_or_app; right; left; auto).
      apply ss_app in Sp1 as (_ & _ & Sp3).
      assert (T_low p <= temp a) by (apply R2; auto).
      assert (temp b <= T_high p) by (apply R4; right; apply in_or_app; right; left; auto).
      split; [|split; [|auto]].
      - destruct R1 as [R1|R1]; [auto|]. specialize (Sp2 _ R1). lia.
      - destruct R3 as [R3|R3]; [lia|]. apply in_app_or in R3 as [R3|[R3|[]]]; [|auto]. specialize (Sp3 _ _ R3 (or_introl eq_refl)). lia. }
    cbn [filter]. unfold aliveb at 2. rewrite El, Eh.
    destruct (t <=? temp a) eqn:A1, (t <=? temp b) eqn:A2; cbn [andb length]; try lia.
    + replace (temp a <? t) with false by lia. cbn [andb]. lia.
    + replace (temp a <? t) with true by lia. cbn [andb length]. lia.
    + replace (temp a <? t) with true by lia. cbn [andb length]. lia.
  - apply temp_list_dsc.
  - intros e He. left. apply temp_list_in. now apply in_map.
  - unfold Hsum. assert (A : forall es', (forall e, In e es' -> In (temp e) (temp_list (edges ps))) ->
      0 = fold_right Z.add 0 (map (fun e => if existsb (Z.eqb (temp e)) (temp_list (edges ps)) then 0 else edge e) es')).
    { induction es' as [|e es' IHe]; intro H; [reflexivity|]. cbn [map fold_right]. rewrite <- IHe by (intros; apply H; right; auto).
      replace (existsb _ _) with true; [reflexivity|]. symmetry. apply existsb_exists. exists (temp e). split; [apply H; left; auto|lia]. }
    apply A. intros e He. apply temp_list_in. now apply in_map.
Qed.

Lemma edges_temps ps t : (forall p, In p ps -> good p) ->
  In t (temp_list (edges ps)) <-> exists p, In p ps /\ (t = T_low p \/ t = T_high p).
Proof.
  intro Hg. rewrite temp_list_in. unfold edges. rewrite in_map_iff.
  assert (X : forall p, In p ps -> exists a l, mins p = a :: l /\ temp a = T_low p /\ temp (last (a :: l) a) = T_high p).
  { intros p Hp. destruct (Hg p Hp) as [Sp (Rn & [R1 R2] & [R3 R4]) _]. unfold sorted, temps in *.
    destruct (mins p) as [|a l] eqn:E; [congruence|]. exists a, l. split; [auto|].
    assert (T_low p <= temp a) by (apply R2; left; auto). split.
    - cbn in Sp. apply ss_inv in Sp as [_ S2]. destruct R1 as [R1|R1]; [auto|]. specialize (S2 _ R1). lia.
    - destruct (exists_last (l := a :: l)) as (k & w & Ek); [discriminate|]. rewrite Ek in *. rewrite last_last.
      rewrite map_app in *. cbn in *. apply ss_app in Sp as (_ & _ & S3).
      assert (temp w <= T_high p) by (apply R4, in_or_app; right; left; auto).
      apply in_app_or in R3 as [R3|[R3|[]]]; [|auto]. specialize (S3 _ _ R3 (or_introl eq_refl)). lia. }
  split.
  - intros (e & <- & He). apply in_flat_map in He as (p & Hp & He). exists p. split; [auto|].
    destruct (X p Hp) as (a & l & E & A & B). rewrite E in He. destruct He as [<-|[<-|[]]]; auto.
  - intros (p & Hp & Ht). destruct (X p Hp) as (a & l & E & A & B). destruct Ht as [->| ->].
    + exists a. split; [auto|]. apply in_flat_map. exists p. rewrite E. cbn; auto.
    + exists (last (a :: l) a). split; [auto|]. apply in_flat_map. exists p. rewrite E. split; [auto|right; left; auto].
Qed.

(** * sort and ids *)
Lemma insert_perm p l : Permutation (p :: l) (insert_by_Thigh p l).
Proof.
  induction l as [|q l IH]; cbn; [apply Permutation_refl|].
  destruct (_ <? _); [apply Permutation_refl|].
  eapply Permutation_trans; [apply perm_swap|]. now constructor.
Qed.
Lemma sort_perm l : Permutation l (sort_by_Thigh l).
Proof.
  induction l as [|p l IH]; cbn; [constructor|].
  eapply Permutation_trans; [|apply insert_perm]. now constructor.
Qed.
Definition desc (l : list phase) : Prop := StronglySorted (fun a b => T_high b <= T_high a) l.
Lemma insert_desc_sorted p l : desc l -> desc (insert_by_Thigh p l).
Proof.
  unfold desc. induction l as [|q l IH]; intro H; cbn; [repeat constructor|].
  destruct (T_high q <? T_high p) eqn:E.
  - constructor; [exact H|]. inversion H as [|? ? Hs Hf]; subst.
    constructor; [lia|]. eapply Forall_impl; [|exact Hf]. cbn; intros; lia.
  - inversion H as [|? ? Hs Hf]; subst. constructor; [auto|].
    apply Forall_forall. intros x Hx. apply (Permutation_in _ (Permutation_sym (insert_perm p l))) in Hx.
    destruct Hx as [<-|Hx]; [lia|]. rewrite Forall_forall in Hf. auto.
Qed.
Lemma sort_desc l : desc (sort_by_Thigh l).
Proof. induction l; cbn; [constructor|now apply insert_desc_sorted]. Qed.

Lemma assign_ids_nth l : forall n i p, nth_error (assign_ids_from n l) i = Some p -> pid p = n + Z.of_nat i.
Proof.
  induction l as [|q l IH]; intros n i p H; [destruct i; discriminate|].
  destruct i; cbn in H; [injection H as <-; cbn; lia|]. apply IH in H. lia.
Qed.
Lemma assign_ids_length l : forall n, length (assign_ids_from n l) = length l.
Proof. induction l; intro n; cbn; auto. Qed.

(** * coexisting pairs *)
Definition overlapb (f t : phase) : bool := (T_low f <=? T_high t) && (T_low t <=? T_high f).

Lemma overlapb_spec f t :
  T_low f <= T_high f -> T_low t <= T_high t -> overlapb f t = true <-> overlap f t.
Proof.
  intros Hf Ht. unfold overlapb, overlap. split.
  - intro H. exists (Z.max (T_low f) (T_low t)). lia.
  - intros (T & A & B). lia.
Qed.

(** index view: pairs of positions in lexicographic order *)
Fixpoint pair_list (ps : list phase) : list (phase * phase) :=
  match ps with
  | [] => []
  | f :: r => map (fun t => (f, t)) (filter (overlapb f) r) ++ pair_list r
  end.

Definition of_pair (n : Z) (ft : phase * phase) : coex :=
  {| pair_id := n; false_phase := fst ft; true_phase := snd ft;
     c_low := Z.max (T_low (fst ft)) (T_low (snd ft));
     c_high := Z.min (T_high (fst ft)) (T_high (snd ft)) |}.
Fixpoint number (n : Z) (l : list (phase * phase)) : list coex :=
  match l with [] => [] | x :: r => of_pair n x :: number (n + 1) r end.

Lemma number_app n a b : number n (a ++ b) = number n a ++ number (n + Z.of_nat (length a)) b.
Proof.
  revert n; induction a as [|x a IH]; intro n; cbn [number app length].
  - f_equal. lia.
  - rewrite IH. do 3 f_equal. lia.
Qed.

Lemma coex_inner_eq f rest : forall n,
  coex_inner f rest n =
  (number n (map (fun t => (f, t)) (filter (overlapb f) rest)),
   n + Z.of_nat (length (filter (overlapb f) rest))).
Proof.
  induction rest as [|t r IH]; intro n; cbn [coex_inner filter].
  - cbn. f_equal. lia.
  - fold (overlapb f t). destruct (overlapb f t).
    + rewrite IH. cbn [map number length]. f_equal. lia.
    + apply IH.
Qed.

Lemma coex_outer_eq ps : forall n, coex_outer ps n = number n (pair_list ps).
Proof.
  induction ps as [|f r IH]; intro n; cbn [coex_outer pair_list]; [reflexivity|].
  rewrite coex_inner_eq, IH, number_app. f_equal. f_equal. rewrite map_length. reflexivity.
Qed.

Lemma number_nth l : forall n k c,
  nth_error (number n l) k = Some c <-> exists x, nth_error l k = Some x /\ c = of_pair (n + Z.of_nat k) x.
Proof.
  induction l as [|x l IH]; intros n k c.
  - cbn. destruct k; cbn; split; try discriminate; intros (y & H & _); discriminate.
  - destruct k as [|k]; cbn [number nth_error].
    + replace (n + Z.of_nat 0) with n by lia. split; [intro H; injection H as <-; eauto|].
      intros (y & H & ->). injection H as <-; auto.
    + rewrite IH. replace (n + 1 + Z.of_nat k) with (n + Z.of_nat (S k)) by lia. reflexivity.
Qed.

Lemma pair_list_in ps f t :
  In (f, t) (pair_list ps) <->
  exists i j, (i < j)%nat /\ nth_error ps i = Some f /\ nth_error ps j = Some t /\ overlapb f t = true.
Proof.
  induction ps as [|p ps IH]; cbn [pair_list].
  - split; [intros []|]. intros (i & j & _ & H & _). destruct i; discriminate.
  - rewrite in_app_iff, IH, in_map_iff. split.
    + intros [(x & E & Hx)|(i & j & A & B & C & D)].
      * injection E as <- <-. apply filter_In in Hx as [Hx Ho].
        apply In_nth_error in Hx as [n Hn]. exists O, (S n). cbn. repeat split; auto. lia.
      * exists (S i), (S j). cbn. repeat split; auto. lia.
    + intros (i & j & A & B & C & D). destruct i as [|i].
      * cbn in B. injection B as ->. left. exists t. split; [auto|]. apply filter_In. split; [|auto].
        destruct j as [|j]; [lia|]. cbn in C. eapply nth_error_In; eauto.
      * right. destruct j as [|j]; [lia|]. exists i, j. cbn in B, C. repeat split; auto. lia.
Qed.

Lemma pair_list_nodup ps : NoDup ps -> NoDup (pair_list ps).
Proof.
  induction ps as [|p ps IH]; intro H; cbn; [constructor|]. inversion H as [|? ? Hn Hd]; subst.
  assert (App : forall (A : Type) (a b : list A), NoDup a -> NoDup b -> (forall x, In x a -> ~ In x b) -> NoDup (a ++ b)).
  { clear. induction a as [|x a IH]; intros b Ha Hb Hx; cbn; [auto|]. inversion Ha; subst.
    constructor.
    - intro Hi. apply in_app_or in Hi as [Hi|Hi]; [auto|]. apply (Hx x); [left|]; auto.
    - apply IH; auto. intros y Hy. apply Hx. right; auto. }
  apply App.
  - assert (M : forall l, NoDup l -> NoDup (map (fun t : phase => (p, t)) l)).
    { clear. induction l as [|x l IH]; intro H; cbn; [constructor|]. inversion H; subst.
      constructor; [|auto]. intro Hi. apply in_map_iff in Hi as (y & E & Hy). injection E as ->; auto. }
    apply M. now apply NoDup_filter.
  - auto.
  - intros [f t] Hi Hj. apply in_map_iff in Hi as (x & E & _). injection E as <- <-.
    apply pair_list_in in Hj as (i & j & _ & B & _). apply nth_error_In in B. auto.
Qed.

(** main statement for C15 *)
Lemma coex_exact ps :
  (forall p, In p ps -> T_low p <= T_high p) ->
  (forall c, In c (setCoexPhases ps) ->
     exists i j f t, (i < j)%nat /\ nth_error ps i = Some f /\ nth_error ps j = Some t /\
       false_phase c = f /\ true_phase c = t /\ overlap f t /\
       (forall T, c_low c <= T <= c_high c <->
                  T_low f <= T <= T_high f /\ T_low t <= T <= T_high t)) /\
  (forall i j f t, (i < j)%nat -> nth_error ps i = Some f -> nth_error ps j = Some t -> overlap f t ->
     exists c, In c (setCoexPhases ps) /\ false_phase c = f /\ true_phase c = t) /\
  (NoDup ps -> NoDup (map (fun c => (false_phase c, true_phase c)) (setCoexPhases ps))) /\
  (forall k c, nth_error (setCoexPhases ps) k = Some c -> pair_id c = Z.of_nat k).
Proof.
  intro Hr. unfold setCoexPhases. rewrite coex_outer_eq. split; [|split; [|split]].
  - intros c Hc. apply In_nth_error in Hc as [k Hk]. apply number_nth in Hk as ([f t] & Hn & ->).
    apply nth_error_In in Hn. apply pair_list_in in Hn as (i & j & A & B & C & D).
    exists i, j, f, t. pose proof (Hr _ (nth_error_In _ _ B)). pose proof (Hr _ (nth_error_In _ _ C)).
    repeat split; auto; cbn [of_pair c_low c_high fst snd] in *; try lia.
    apply overlapb_spec; auto.
  - intros i j f t A B C D.
    pose proof (Hr _ (nth_error_In _ _ B)). pose proof (Hr _ (nth_error_In _ _ C)).
    assert (Hin : In (f, t) (pair_list ps)).
    { apply pair_list_in. exists i, j. repeat split; auto. apply overlapb_spec; auto. }
    apply In_nth_error in Hin as [k Hk]. exists (of_pair (0 + Z.of_nat k) (f, t)). split; [|auto].
    apply (nth_error_In _ k). apply number_nth. exists (f, t). auto.
  - intro Hd. assert (E : forall l n, map (fun c => (false_phase c, true_phase c)) (number n l) = l).
    { clear. induction l as [|[f t] l IH]; intro n; cbn; [auto|]. now rewrite IH. }
    rewrite E. now apply pair_list_nodup.
  - intros k c H. apply number_nth in H as (x & _ & ->). reflexivity.
Qed.

(** * setCoexRegion without patching *)
Section Region0.
Variable patch : list phase -> Z -> Z -> phase.
Variable retrack : phase -> list minimum.
Variable cmp : nat -> phase -> phase -> compare_result.
Variable threshold : Z.

Lemma region_loop0 recurse es : forall ng st st' ng',
  region_loop patch retrack cmp true threshold recurse es ng st = Some (st', ng') ->
  r_phases st' = r_phases st /\
  (r_coex st' = true <-> r_coex st = true \/ exists k th n, nth_error es k = Some (th, n) /\ (S k < length es)%nat /\ 1 < n) /\
  (r_status st' = TrNoCoverage <->
     r_status st = TrNoCoverage \/ exists k th n, nth_error es k = Some (th, n) /\ (S k < length es)%nat /\ n <= 0) /\
  (r_status st' = r_status st \/ r_status st' = TrNoCoverage) /\
  (ng' = true <-> ng = true /\ ~ exists k th n, nth_error es k = Some (th, n) /\ (S k < length es)%nat /\ n <= 0).
Proof.
  induction es as [|[th n] es IH]; intros ng st st' ng' H.
  - cbn in H. injection H as <- <-.
    assert (N : forall P : Z -> Prop, ~ exists k th n, nth_error (@nil (Z * Z)) k = Some (th, n) /\ (S k < length (@nil (Z * Z)))%nat /\ P n).
    { intros P (k & th & n & _ & L & _). cbn in L. lia. }
    pose proof (N (fun n => 1 < n)). pose proof (N (fun n => n <= 0)). cbn beta in *. tauto.
  - destruct es as [|[tl n2] rest].
    + cbn in H. injection H as <- <-.
      assert (N : forall P : Z -> Prop, ~ exists k th0 n0, nth_error [(th, n)] k = Some (th0, n0) /\ (S k < length [(th, n)])%nat /\ P n0).
      { intros P (k & th' & n' & _ & L & _). cbn in L. lia. }
      pose proof (N (fun n => 1 < n)). pose proof (N (fun n => n <= 0)). cbn beta in *. tauto.
    + assert (S1 : forall P : Z -> Prop,
        (exists k th0 n0, nth_error ((th, n) :: (tl, n2) :: rest) k = Some (th0, n0) /\ (S k < length ((th, n) :: (tl, n2) :: rest))%nat /\ P n0) <->
        P n \/ exists k th0 n0, nth_error ((tl, n2) :: rest) k = Some (th0, n0) /\ (S k < length ((tl, n2) :: rest))%nat /\ P n0).
      { intro P. split.
        - intros (k & t0 & n0 & A & B & C). destruct k as [|k].
          + cbn in A. injection A as <- <-. auto.
          + right. exists k, t0, n0. cbn [nth_error length] in *. split; [auto|]. split; [lia|auto].
        - intros [A|(k & t0 & n0 & A & B & C)].
          + exists O, th, n. cbn. split; [auto|]. split; [lia|auto].
          + exists (S k), t0, n0. cbn [nth_error length] in *. split; [auto|]. split; [lia|auto]. }
      rewrite (S1 (fun n => 1 < n)), (S1 (fun n => n <= 0)). clear S1.
      set (E1 := exists k th0 n0, nth_error ((tl, n2) :: rest) k = Some (th0, n0) /\ (S k < length ((tl, n2) :: rest))%nat /\ 1 < n0) in *.
      set (E2 := exists k th0 n0, nth_error ((tl, n2) :: rest) k = Some (th0, n0) /\ (S k < length ((tl, n2) :: rest))%nat /\ n0 <= 0) in *.
      cbn [region_loop] in H. fold (region_loop patch retrack cmp true threshold recurse) in H.
      destruct (1 <? n) eqn:A1; [|destruct (n <=? 0) eqn:A2; [destruct (tl + threshold <? th)|]];
        apply IH in H; cbn [r_phases r_coex r_status] in H; fold E1 E2 in H; destruct H as (B1 & B2 & B3 & B4 & B5);
        (split; [exact B1|]; split; [rewrite B2|split; [rewrite B3|split; [|rewrite B5]]]).
      all: try (assert (1 < n) by lia); try (assert (~ 1 < n) by lia); try (assert (n <= 0) by lia); try (assert (~ n <= 0) by lia).
      all: try tauto.
      all: try (split; [intro; auto|intro; auto]; fail).
      all: try (split; intro X; [discriminate (proj1 X)|tauto]).
Qed.
End Region0.

Lemma filter_two (f : phase -> bool) ps : (1 < length (filter f ps))%nat ->
  exists i j p q, (i < j)%nat /\ nth_error ps i = Some p /\ nth_error ps j = Some q /\ f p = true /\ f q = true.
Proof.
  induction ps as [|p ps IH]; cbn [filter]; intro H; [cbn in H; lia|].
  destruct (f p) eqn:E.
  - cbn [length] in H. destruct (filter f ps) as [|q r] eqn:F; [cbn in H; lia|].
    assert (Hq : In q (filter f ps)) by (rewrite F; left; auto).
    apply filter_In in Hq as [Hq Eq]. apply In_nth_error in Hq as [n Hn].
    exists O, (S n), p, q. cbn. repeat split; auto. lia.
  - destruct (IH H) as (i & j & a & b & A & B & C & D). exists (S i), (S j), a, b. cbn. repeat split; try tauto. lia.
Qed.
Lemma filter_two_inv (f : phase -> bool) ps i j p q :
  (i < j)%nat -> nth_error ps i = Some p -> nth_error ps j = Some q -> f p = true -> f q = true ->
  (1 < length (filter f ps))%nat.
Proof.
  revert i j. induction ps as [|a ps IH]; intros i j Hij Hi Hj Fp Fq; [destruct i; discriminate|].
  destruct i as [|i], j as [|j]; try lia.
  - cbn in Hi. injection Hi as ->. cbn [filter]. rewrite Fp. cbn [length].
    cbn in Hj. apply nth_error_In in Hj. assert (In q (filter f ps)) by (apply filter_In; auto).
    destruct (filter f ps); [destruct H|cbn; lia].
  - cbn in Hi, Hj. cbn [filter]. assert (1 < length (filter f ps))%nat by (eapply (IH i j); eauto; lia).
    destruct (f a); cbn [length]; lia.
Qed.

Lemma good_range p : good p -> T_low p < T_high p.
Proof.
  intros [Sp (_ & [R1 R2] & [R3 R4]) L]. unfold sorted, temps in *.
  destruct (mins p) as [|a [|b l]]; cbn in L; try lia.
  cbn in Sp. apply ss_inv in Sp as [_ S2]. specialize (S2 (temp b) (or_introl eq_refl)).
  specialize (R2 (temp a) (or_introl eq_refl)). specialize (R4 (temp b) (or_intror (or_introl eq_refl))). lia.
Qed.

(** a descending list: all entries except the last have a smaller entry *)
Lemma dsc_last ts k t : dsc ts -> nth_error ts k = Some t ->
  ((S k < length ts)%nat <-> exists u, In u ts /\ u < t).
Proof.
  revert k. induction ts as [|x ts IH]; intros k Hd Hk; [destruct k; discriminate|].
  inversion Hd as [|? ? Hs Hf]; subst. rewrite Forall_forall in Hf. destruct k as [|k].
  - cbn in Hk. injection Hk as <-. destruct ts as [|y ts].
    + cbn. split; [lia|]. intros (u & [<-|[]] & H). lia.
    + cbn [length]. split; [intros _; exists y; split; [right; left; auto|apply Hf; left; auto]|lia].
  - cbn in Hk. specialize (IH k Hs Hk). cbn [length]. split.
    + intro L. destruct (proj1 IH) as (u & Hu & Hlt); [lia|]. exists u. split; [right|]; auto.
    + intros (u & [<-|Hu] & Hlt).
      * pose proof (Hf t (nth_error_In _ _ Hk)). lia.
      * enough (S k < length ts)%nat by lia. apply IH. eauto.
Qed.

Lemma region_unpatched patch retrack cmp threshold fuel ps st st' :
  (forall p, In p ps -> good p) -> (forall p, In p ps -> ends_labelled p) ->
  ps <> [] -> r_phases st = ps -> r_status st = TrSuccess -> r_coex st = false ->
  setCoexRegion patch retrack cmp true threshold (S fuel) st = Some st' ->
  r_phases st' = ps /\ (r_coex st' = true <-> two_coexist ps) /\
  (r_status st' = TrNoCoverage <-> exists t, gap_at ps t) /\
  (r_status st' = TrSuccess <-> ~ exists t, gap_at ps t).
Proof.
  intros Hg Hf Hne Eph Est Eco H. cbn [setCoexRegion] in H. rewrite Eph in H.
  destruct ps as [|p0 ps0]; [congruence|]. set (ps := p0 :: ps0) in *. clearbody ps.
  destruct (region_loop _ _ _ _ _ _ _ _ _) as [[st1 ng]|] eqn:E; [|discriminate].
  apply region_loop0 in E as (B1 & B2 & B3 & B4 & B5). rewrite Est, Eco, Eph in *.
  set (ts := temp_list (edges ps)) in *.
  set (cnt := fun t => Z.of_nat (length (filter (aliveb t) ps))) in *.
  assert (EC : edge_counts ps = map (fun t => (t, cnt t)) ts) by (apply edge_counts_eq; auto).
  rewrite EC in *.
  assert (Dts : dsc ts) by apply temp_list_dsc.
  assert (X : forall P : Z -> Prop,
    (exists k th n, nth_error (map (fun t => (t, cnt t)) ts) k = Some (th, n) /\ (S k < length (map (fun t => (t, cnt t)) ts))%nat /\ P n)
    <-> exists t, In t ts /\ (exists u, In u ts /\ u < t) /\ P (cnt t)).
  { intro P. rewrite map_length. split.
    - intros (k & th & n & A & B & C). rewrite nth_error_map in A. destruct (nth_error ts k) as [t|] eqn:Ek; [|discriminate].
      injection A as <- <-. exists t. split; [eapply nth_error_In; eauto|]. split; [|auto]. eapply dsc_last; eauto.
    - intros (t & A & B & C). apply In_nth_error in A as [k Ek]. exists k, t, (cnt t).
      rewrite nth_error_map, Ek. split; [auto|]. split; [|auto]. eapply dsc_last; eauto. }
  pose proof (X (fun n => 1 < n)) as X1. pose proof (X (fun n => n <= 0)) as X2. cbn beta in X1, X2.
  rewrite X1 in B2. rewrite X2 in B3, B5. clear X X1 X2.
  assert (Co : (exists t, In t ts /\ (exists u, In u ts /\ u < t) /\ 1 < cnt t) <-> two_coexist ps).
  { split.
    - intros (t & _ & _ & Hc). unfold cnt in Hc. destruct (filter_two (aliveb t) ps) as (i & j & p & q & A & B & C & D & F); [lia|].
      exists i, j, p, q. apply aliveb_spec in D, F. unfold alive_below in *. repeat split; auto. lia.
    - intros (i & j & p & q & A & B & C & D). exists (Z.min (T_high p) (T_high q)).
      pose proof (nth_error_In _ _ B) as Ip. pose proof (nth_error_In _ _ C) as Iq.
      pose proof (good_range _ (Hg _ Ip)). pose proof (good_range _ (Hg _ Iq)).
      split; [apply edges_temps; [auto|]; destruct (Z.min_spec (T_high p) (T_high q)) as [[_ ->]|[_ ->]]; eauto|].
      split; [exists (T_low p); split; [apply edges_temps; eauto|lia]|].
      assert (1 < length (filter (aliveb (Z.min (T_high p) (T_high q))) ps))%nat; [|unfold cnt; lia].
      apply (filter_two_inv _ ps i j p q A B C); apply aliveb_spec; unfold alive_below; lia. }
  assert (Ga : (exists t, In t ts /\ (exists u, In u ts /\ u < t) /\ cnt t <= 0) <-> exists t, gap_at ps t).
  { split.
    - intros (t & A & (u & Hu & Hlt) & Hc). exists t.
      assert (N : forall p, In p ps -> ~ alive_below t p).
      { intros p Hp Ha. apply aliveb_spec in Ha. unfold cnt in Hc.
        assert (In p (filter (aliveb t) ps)) by (apply filter_In; auto).
        destruct (filter (aliveb t) ps); [destruct H0|cbn [length] in Hc; lia]. }
      apply edges_temps in A as (p & Hp & Ht); [|auto]. pose proof (good_range _ (Hg _ Hp)).
      split; [|split].
      + exists p. split; [auto|]. destruct Ht as [->|Ht]; [auto|]. exfalso. apply (N p Hp). unfold alive_below. lia.
      + apply edges_temps in Hu as (q & Hq & Hu); [|auto]. exists q. split; [auto|].
        pose proof (good_range _ (Hg _ Hq)). lia.
      + exact N.
    - intros (t & (p & Hp & Et) & (q & Hq & Hlt) & N). exists t.
      split; [apply edges_temps; eauto|]. split; [exists (T_low q); split; [apply edges_temps; eauto|auto]|].
      unfold cnt. destruct (filter (aliveb t) ps) as [|r l] eqn:F; [cbn; lia|].
      exfalso. assert (Hr : In r (filter (aliveb t) ps)) by (rewrite F; left; auto).
      apply filter_In in Hr as [Hr Ha]. apply (N r Hr). now apply aliveb_spec. }
  rewrite Co in B2. rewrite Ga in B3, B5.
  destruct (ng && is_NoCoverage (r_status st1)) eqn:Ef.
  - apply andb_true_iff in Ef as [-> Ef]. exfalso.
    assert (r_status st1 = TrNoCoverage) as Es by (destruct (r_status st1); discriminate || reflexivity).
    apply B3 in Es as [Es|Es]; [discriminate|]. apply B5; auto.
  - injection H as <-. split; [exact B1|]. split; [rewrite B2; intuition discriminate|].
    split; [rewrite B3; intuition discriminate|].
    destruct B4 as [B4|B4]; rewrite B4 in *.
    + split; [|auto]. intros _ Hx. pose proof (proj2 B3 (or_intror Hx)) as Hy. discriminate.
    + split; [discriminate|]. intro N. exfalso. destruct (proj1 B3 eq_refl) as [Hx|Hx]; [discriminate|auto].
Qed.

(** * DoGlobMinOverlap *)
Lemma glob_overlap_ub track glob new old :
  DoGlobMinOverlap track glob new old = UB <->
  (1 < length (mins new))%nat /\ (1 < length (mins old))%nat /\
  T_high new < T_high old /\ T_low old < T_low new /\ T_low old <= T_high new /\ T_low new <= T_high old.
Proof.
  unfold DoGlobMinOverlap.
  destruct (1 <? length (mins new))%nat eqn:A; [|cbn; split; [discriminate|]; lia].
  destruct (1 <? length (mins old))%nat eqn:B; [|cbn; split; [discriminate|]; lia]. cbn [andb].
  destruct ((T_low old <=? T_high new) && (T_low new <=? T_high old)) eqn:C; [|split; [discriminate|lia]].
  assert (G : forall hi lo, mins hi <> [] -> mins lo <> [] ->
    bind (Get track hi (T_high lo)) (fun r1 => bind (Get track lo (T_low (fst r1))) (fun r2 => Ok (glob (snd r1) && glob (snd r2)))) <> UB).
  { intros hi lo Hh Hl. destruct (Get_total track hi (T_high lo) Hh) as (h' & m & ->). cbn [bind fst].
    destruct (Get_total track lo (T_low h') Hl) as (l' & m' & ->). cbn. discriminate. }
  assert (Nn : mins new <> []) by (intro E; rewrite E in A; discriminate).
  assert (No : mins old <> []) by (intro E; rewrite E in B; discriminate).
  destruct (T_high old <=? T_high new) eqn:D; [|destruct (T_low new <=? T_low old) eqn:F].
  - split; [intro H; exfalso; revert H; now apply G|lia].
  - split; [intro H; exfalso; revert H; now apply G|lia].
  - cbn. split; [lia|auto].
Qed.

(** * statements over reachable phase lists *)
Lemma reachable_well_formed ps : reachable ps ->
  forall q, In q ps -> well_formed q /\ ends_labelled q.
Proof. intros H q Hq. destruct (reachable_inv ps H q Hq). split; [now apply good_well_formed|auto]. Qed.

Lemma registration_keeps ps retrack cmp tracked :
  reachable ps ->
  exists kept new,
    fst (addPhase retrack cmp ps (make_phase tracked)) = kept ++ new /\
    Forall2 extends ps kept /\ (length new <= 1)%nat.
Proof.
  intro H. destruct (addPhase retrack cmp ps (make_phase tracked)) as [ps1 p1] eqn:E. cbn [fst].
  eapply addPhase_step; [intros; now apply (reachable_inv ps H)| |exact E]; eauto.
Qed.

Lemma registration_records ps retrack cmp tracked :
  reachable ps -> (3 <= length (mins (make_phase tracked)))%nat ->
  exists q, In q (fst (addPhase retrack cmp ps (make_phase tracked))) /\
    forall m, In m tracked -> In (temp m) (temps q).
Proof.
  intros H L. destruct (addPhase retrack cmp ps (make_phase tracked)) as [ps1 p1] eqn:E. cbn [fst].
  destruct (addPhase_step retrack cmp ps (make_phase tracked) ps1 p1) as (_ & _ & C); eauto.
  { intros; now apply (reachable_inv ps H). }
  destruct C as (q & Hq & Ht); [auto|]. exists q. split; [auto|]. intros m Hm. apply Ht.
  unfold make_phase. rewrite fix_range_temps, AddAll_temps by apply sorted_empty. left. now apply in_map.
Qed.

Lemma final_order ps :
  let l := assign_ids (sort_by_Thigh ps) in
  (forall i p, nth_error l i = Some p -> pid p = Z.of_nat i) /\
  Permutation (map (fun p => (T_low p, T_high p, mins p)) ps) (map (fun p => (T_low p, T_high p, mins p)) l) /\
  (forall i j p q, (i <= j)%nat -> nth_error l i = Some p -> nth_error l j = Some q -> T_high q <= T_high p).
Proof.
  cbn zeta. unfold assign_ids. split; [|split].
  - intros i p H. apply assign_ids_nth in H. lia.
  - assert (E : forall l n, map (fun p => (T_low p, T_high p, mins p)) (assign_ids_from n l) = map (fun p => (T_low p, T_high p, mins p)) l).
    { clear. induction l as [|p l IH]; intro n; cbn; [auto|]. now rewrite IH. }
    rewrite E. apply Permutation_map, sort_perm.
  - assert (E : forall l n i p, nth_error (assign_ids_from n l) i = Some p -> exists p0, nth_error l i = Some p0 /\ T_high p = T_high p0).
    { clear. induction l as [|p l IH]; intros n i q H; [destruct i; discriminate|].
      destruct i; cbn in *; [injection H as <-; eauto|eauto]. }
    intros i j p q L Hp Hq. destruct (E _ _ _ _ Hp) as (p0 & Hp0 & ->). destruct (E _ _ _ _ Hq) as (q0 & Hq0 & ->).
    pose proof (sort_desc ps) as D. unfold desc in D. clear Hp Hq. revert i j L Hp0 Hq0.
    induction D as [|a l D IH Hf]; intros i j L Hp0 Hq0; [destruct i; discriminate|].
    destruct i as [|i], j as [|j]; cbn in *; try lia.
    + injection Hp0 as ->. injection Hq0 as ->. lia.
    + injection Hp0 as ->. rewrite Forall_forall in Hf. apply Hf. eapply nth_error_In; eauto.
    + apply (IH i j); auto. lia.
Qed.

Lemma coex_reachable ps :
  reachable ps ->
  let l := assign_ids (sort_by_Thigh ps) in
  (forall c, In c (setCoexPhases l) ->
     exists i j f t, (i < j)%nat /\ nth_error l i = Some f /\ nth_error l j = Some t /\
       false_phase c = f /\ true_phase c = t /\ overlap f t /\ T_high t <= T_high f /\
       pid (false_phase c) < pid (true_phase c) /\
       (forall T, c_low c <= T <= c_high c <->
                  T_low f <= T <= T_high f /\ T_low t <= T <= T_high t)) /\
  (forall i j f t, (i < j)%nat -> nth_error l i = Some f -> nth_error l j = Some t -> overlap f t ->
     exists c, In c (setCoexPhases l) /\ false_phase c = f /\ true_phase c = t) /\
  NoDup (map (fun c => (pid (false_phase c), pid (true_phase c))) (setCoexPhases l)) /\
  (forall k c, nth_error (setCoexPhases l) k = Some c -> pair_id c = Z.of_nat k).
Proof.
  intro H. cbn zeta. set (l := assign_ids (sort_by_Thigh ps)).
  destruct (final_order ps) as (Fi & Fp & Fo). fold l in Fi, Fp, Fo.
  assert (R : forall p, In p l -> T_low p <= T_high p).
  { intros p Hp. assert (Hx : In (T_low p, T_high p, mins p) (map (fun p => (T_low p, T_high p, mins p)) l)).
    { apply (in_map (fun p => (T_low p, T_high p, mins p))); auto. }
    apply (Permutation_in _ (Permutation_sym Fp)) in Hx. apply in_map_iff in Hx as (q & E & Hq). injection E as E1 E2 E3.
    pose proof (good_range q (proj1 (reachable_inv ps H q Hq))). lia. }
  destruct (coex_exact l R) as (A & B & C & D). split; [|split; [exact B|split; [|exact D]]].
  - intros c Hc. destruct (A c Hc) as (i & j & f & t & L & Hf & Ht & Ef & Et & O & I).
    exists i, j, f, t. subst. assert (T_high (true_phase c) <= T_high (false_phase c)) by (apply (Fo i j); auto; lia).
    pose proof (Fi _ _ Hf). pose proof (Fi _ _ Ht). repeat (split; [solve [auto|lia]|]). exact I.
  - assert (Nd : NoDup l).
    { apply NoDup_nth_error. intros i j Li E. destruct (nth_error l i) as [p|] eqn:Ei.
      - symmetry in E. pose proof (Fi _ _ Ei). pose proof (Fi _ _ E). lia.
      - apply nth_error_None in Ei. lia. }
    specialize (C Nd).
    assert (Inj : forall x y, In x l -> In y l -> pid x = pid y -> x = y).
    { intros x y Hx Hy E. apply In_nth_error in Hx as [i Hi], Hy as [j Hj].
      pose proof (Fi _ _ Hi). pose proof (Fi _ _ Hj). assert (i = j) by lia. subst. congruence. }
    assert (Mem : forall c, In c (setCoexPhases l) -> In (false_phase c) l /\ In (true_phase c) l).
    { intros c Hc. destruct (A c Hc) as (i & j & f & t & L & Hf & Ht & <- & <- & _). split; eapply nth_error_In; eauto. }
    clear - C Inj Mem. induction (setCoexPhases l) as [|c cs IH]; cbn in *; [constructor|].
    inversion C as [|? ? C1 C2]; subst. constructor; [|apply IH; auto; intros; apply Mem; auto].
    intro Hi. apply C1. apply in_map_iff in Hi as (d & E & Hd). injection E as E1 E2. apply in_map_iff. exists d.
    split; [|auto]. destruct (Mem c (or_introl eq_refl)), (Mem d (or_intror Hd)).
    f_equal; apply Inj; auto.
Qed.

Lemma counts_reachable ps : reachable ps ->
  (forall t n, In (t, n) (edge_counts ps) <->
     (exists p, In p ps /\ (t = T_low p \/ t = T_high p)) /\
     n = Z.of_nat (length (filter (aliveb t) ps))) /\
  StronglySorted (fun a b => fst b < fst a) (edge_counts ps).
Proof.
  intro H. assert (Hg : forall p, In p ps -> good p) by (intros; now apply (reachable_inv ps H)).
  assert (Hf : forall p, In p ps -> ends_labelled p) by (intros; now apply (reachable_inv ps H)).
  rewrite edge_counts_eq by auto. split.
  - intros t n. rewrite in_map_iff. split.
    + intros (u & E & Hu). injection E as <- <-. split; [now apply edges_temps|auto].
    + intros (Ht & ->). exists t. split; [auto|]. now apply edges_temps.
  - pose proof (temp_list_dsc (edges ps)) as D. induction D as [|a l D IH Hl]; cbn; [constructor|].
    constructor; [exact IH|]. apply Forall_forall. intros [u n] Hu. apply in_map_iff in Hu as (v & E & Hv).
    injection E as <- <-. cbn. rewrite Forall_forall in Hl. auto.
Qed.

Lemma region_reachable patch retrack cmp threshold fuel ps st' :
  reachable ps -> ps <> [] ->
  setCoexRegion patch retrack cmp true threshold (S fuel)
    {| r_phases := ps; r_status := TrSuccess; r_coex := false |} = Some st' ->
  r_phases st' = ps /\ (r_coex st' = true <-> two_coexist ps) /\
  (r_status st' = TrNoCoverage <-> exists t, gap_at ps t) /\
  (r_status st' = TrSuccess <-> ~ exists t, gap_at ps t).
Proof.
  intros H Hne E. eapply region_unpatched; [| | | | | |exact E]; auto; intros; now apply (reachable_inv ps H).
Qed.

Lemma region_unpatched_total patch retrack cmp threshold fuel st :
  exists st', setCoexRegion patch retrack cmp true threshold (S fuel) st = Some st'.
Proof.
  cbn [setCoexRegion]. destruct (r_phases st) as [|p l]; [eauto|].
  assert (T : forall rc es ng s, exists r, region_loop patch retrack cmp true threshold rc es ng s = Some r).
  { intros rc es. induction es as [|[th n] [|[tl n2] rest] IH]; intros ng s; cbn [region_loop]; eauto.
    fold (region_loop patch retrack cmp true threshold rc).
    destruct (1 <? n); [apply IH|]. destruct (n <=? 0); [|apply IH]. destruct (_ <? th); apply IH. }
  destruct (T (setCoexRegion patch retrack cmp true threshold fuel) (edge_counts (p :: l)) true st) as [[s ng] ->].
  destruct (ng && _); eauto.
Qed.

Lemma get_stored track tracked later m :
  let p := AddAll (make_phase tracked) later in
  In m (mins p) -> Get track p (temp m) = Ok (p, m).
Proof. cbn zeta. intro H. apply Get_hit; auto. apply AddAll_sorted, make_phase_sorted. Qed.

Lemma history_good tracked later : tracked <> [] ->
  sorted (AddAll (make_phase tracked) later) /\ ranged (AddAll (make_phase tracked) later).
Proof.
  intro H. split; [apply AddAll_sorted, make_phase_sorted|].
  apply AddAll_ranged; [apply make_phase_sorted|now apply make_phase_ranged].
Qed.

Lemma get_only_adds track tracked later T p' m :
  tracked <> [] ->
  let p := AddAll (make_phase tracked) later in
  Get track p T = Ok (p', m) ->
  increasing (temps p') /\ is_least (T_low p') (temps p') /\ is_greatest (T_high p') (temps p') /\
  (p' = p /\ In m (mins p) /\ (forall x, In x (mins p) -> Z.abs (T - temp m) <= Z.abs (T - temp x)) \/
   exists start, In start (mins p) /\ temp start <> T /\
     (forall x, In x (mins p) -> Z.abs (T - temp start) <= Z.abs (T - temp x)) /\
     (exists l, track start T = l ++ [m]) /\
     (forall t, In t (temps p') <-> In t (temps p) \/ In t (map temp (track start T)))).
Proof.
  cbn zeta. intros Hne H. destruct (history_good tracked later Hne) as [Sp Rp].
  destruct (Get_invariants track _ T p' m Sp Rp H) as (A & (B0 & B1 & B2) & _ & C).
  split; [now apply ss_increasing|]. split; [auto|]. split; [auto|]. exact C.
Qed.

Lemma get_never_fails track tracked later T :
  tracked <> [] -> exists p' m, Get track (AddAll (make_phase tracked) later) T = Ok (p', m).
Proof. intro H. apply Get_total. apply history_good; auto. Qed.

Lemma region_status patch retrack cmp threshold fuel ps :
  reachable ps -> ps <> [] ->
  exists st',
  setCoexRegion patch retrack cmp true threshold (S fuel)
    {| r_phases := ps; r_status := TrSuccess; r_coex := false |} = Some st' /\
  r_phases st' = ps /\ (r_coex st' = true <-> two_coexist ps) /\
  (r_status st' = TrNoCoverage <-> exists t, gap_at ps t) /\
  (r_status st' = TrSuccess <-> ~ exists t, gap_at ps t).
Proof.
  intros H Hne. destruct (region_unpatched_total patch retrack cmp threshold fuel
    {| r_phases := ps; r_status := TrSuccess; r_coex := false |}) as [st' E].
  exists st'. split; [exact E|]. eapply region_reachable; eauto.
Qed.

Lemma glob_overlap_exact track glob new old :
  well_formed new -> well_formed old ->
  (DoGlobMinOverlap track glob new old = UB <-> T_low old < T_low new /\ T_high new < T_high old).
Proof.
  intros Hn Ho. apply good_well_formed in Hn, Ho. rewrite glob_overlap_ub.
  pose proof (good_range _ Hn). pose proof (good_range _ Ho). destruct Hn as [_ _ Ln], Ho as [_ _ Lo]. lia.
Qed.

Lemma glob_overlap_refuted :
  exists new old track glob,
    well_formed new /\ well_formed old /\ DoGlobMinOverlap track glob new old = UB.
Proof.
  set (mk t := {| temp := t; tag := O; edge := 0 |}).
  assert (W : forall l, (2 <= length (mins (make_phase l)))%nat -> well_formed (make_phase l)).
  { intros l L. apply good_well_formed. split; [apply make_phase_sorted| |auto].
    apply make_phase_ranged. intros ->. cbn in L. lia. }
  exists (make_phase [mk 4; mk 6]), (make_phase [mk 0; mk 10]), (fun _ _ => []), (fun _ => true).
  split; [apply W; cbn; lia|]. split; [apply W; cbn; lia|]. reflexivity.
Qed.

(** value of the overlap test *)
Lemma glob_overlap_short track glob new old :
  (length (mins new) <= 1)%nat \/ (length (mins old) <= 1)%nat ->
  DoGlobMinOverlap track glob new old = Ok true.
Proof.
  intro H. unfold DoGlobMinOverlap.
  destruct (1 <? length (mins new))%nat eqn:A, (1 <? length (mins old))%nat eqn:B; try reflexivity.
  apply Nat.ltb_lt in A, B. lia.
Qed.

Lemma glob_overlap_apart track glob new old :
  well_formed new -> well_formed old -> ~ overlap new old ->
  DoGlobMinOverlap track glob new old = Ok false.
Proof.
  intros Hn Ho Hv. pose proof (good_range _ (proj2 (good_well_formed _) Hn)) as Rn.
  pose proof (good_range _ (proj2 (good_well_formed _) Ho)) as Ro.
  unfold DoGlobMinOverlap. destruct Hn as (Ln & _), Ho as (Lo & _).
  destruct (1 <? length (mins new))%nat eqn:A; [|apply Nat.ltb_ge in A; lia].
  destruct (1 <? length (mins old))%nat eqn:B; [|apply Nat.ltb_ge in B; lia]. cbn [andb].
  destruct ((T_low old <=? T_high new) && (T_low new <=? T_high old)) eqn:C; [|reflexivity].
  exfalso. apply Hv. exists (Z.max (T_low new) (T_low old)). lia.
Qed.

Lemma glob_overlap_value track glob new old :
  well_formed new -> well_formed old -> overlap new old ->
  ~ (T_low old < T_low new /\ T_high new < T_high old) ->
  exists hi lo hi' m1 lo' m2,
    (hi = new /\ lo = old \/ hi = old /\ lo = new) /\ T_high lo <= T_high hi /\
    Get track hi (T_high lo) = Ok (hi', m1) /\ Get track lo (T_low hi') = Ok (lo', m2) /\
    DoGlobMinOverlap track glob new old = Ok (glob m1 && glob m2).
Proof.
  intros Hn Ho (T & Hv) Hi. unfold DoGlobMinOverlap. destruct Hn as (Ln & _), Ho as (Lo & _).
  destruct (1 <? length (mins new))%nat eqn:A; [|apply Nat.ltb_ge in A; lia].
  destruct (1 <? length (mins old))%nat eqn:B; [|apply Nat.ltb_ge in B; lia]. cbn [andb].
  destruct ((T_low old <=? T_high new) && (T_low new <=? T_high old)) eqn:C; [|lia].
  assert (Nn : mins new <> []) by (intro E; rewrite E in A; discriminate).
  assert (No : mins old <> []) by (intro E; rewrite E in B; discriminate).
  destruct (T_high old <=? T_high new) eqn:D; [|destruct (T_low new <=? T_low old) eqn:F; [|lia]].
  - destruct (Get_total track new (T_high old) Nn) as (h' & m & E1).
    destruct (Get_total track old (T_low h') No) as (l' & m' & E2).
    exists new, old, h', m, l', m'. rewrite E1. cbn [bind fst snd]. rewrite E2. cbn [bind snd].
    split; [auto|]. split; [lia|]. auto.
  - destruct (Get_total track old (T_high new) No) as (h' & m & E1).
    destruct (Get_total track new (T_low h') Nn) as (l' & m' & E2).
    exists old, new, h', m, l', m'. rewrite E1. cbn [bind fst snd]. rewrite E2. cbn [bind snd].
    split; [auto|]. split; [lia|]. auto.
Qed.
