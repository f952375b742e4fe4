From Verif.Model Require Import Base Strings.
From Verif.Spec Require Import StringsSpec.
Open Scope list_scope.

Lemma ascii_eqb_true a b : ascii_eqb a b = true <-> a = b.
Proof. unfold ascii_eqb; destruct (Ascii.eqb_spec a b); split; congruence. Qed.
Lemma ascii_eqb_false a b : ascii_eqb a b = false <-> a <> b.
Proof. unfold ascii_eqb; destruct (Ascii.eqb_spec a b); split; congruence. Qed.
Lemma ascii_eqb_refl a : ascii_eqb a a = true.
Proof. now apply ascii_eqb_true. Qed.

(** * lower-casing *)
Lemma lower_ascii_idem c : lower_ascii (lower_ascii c) = lower_ascii c.
Proof. destruct c as [[] [] [] [] [] [] [] []]; reflexivity. Qed.
Lemma to_lower_idem s : to_lower (to_lower s) = to_lower s.
Proof. unfold to_lower; rewrite map_map; apply map_ext; intro; apply lower_ascii_idem. Qed.

(** * find *)
Lemma find_char_some c s n :
  find_char c s = Some n <->
  exists a b, s = a ++ c :: b /\ length a = n /\ ~ In c a.
Proof.
  revert n; induction s as [|x s IH]; intro n; cbn.
  - split; [discriminate|]. intros (a & b & H & _); destruct a; discriminate.
  - destruct (ascii_eqb x c) eqn:E.
    + apply ascii_eqb_true in E; subst x. split.
      * intro H; injection H as <-. exists [], s; cbn; repeat split; auto.
      * intros (a & b & H & Hl & Hni). destruct a as [|y a]; cbn in *; [subst n; reflexivity|].
        exfalso; apply Hni; left; congruence.
    + apply ascii_eqb_false in E. split.
      * destruct (find_char c s) as [m|] eqn:F; [|discriminate].
        intro H; injection H as <-.
        destruct (proj1 (IH m) eq_refl) as (a & b & -> & Hl & Hni).
        exists (x :: a), b; cbn. repeat split; auto. intros [H|H]; auto.
      * intros (a & b & H & Hl & Hni).
        destruct a as [|y a]; cbn in *; [congruence|]. injection H as -> ->.
        destruct n as [|n]; [discriminate|]. injection Hl as Hl.
        rewrite (proj2 (IH n)); [reflexivity|]. exists a, b; repeat split; auto.
Qed.

Lemma find_char_none c s : find_char c s = None <-> ~ In c s.
Proof.
  induction s as [|x s IH]; cbn; [tauto|].
  destruct (ascii_eqb x c) eqn:E.
  - apply ascii_eqb_true in E. split; [discriminate|]. intros H; exfalso; auto.
  - apply ascii_eqb_false in E. destruct (find_char c s) as [m|]; split; try discriminate.
    + intros H. exfalso. assert (Hn : Some m = None) by (apply IH; tauto). discriminate.
    + intros _ [H|H]; [auto|]. now apply IH in H.
    + reflexivity.
Qed.

Lemma find_first_not_repeat c n x s :
  x <> c -> find_first_not c (repeat c n ++ x :: s) = Some n.
Proof.
  intro H; induction n as [|n IH]; cbn.
  - apply ascii_eqb_false in H; now rewrite H.
  - rewrite ascii_eqb_refl, IH; reflexivity.
Qed.

Lemma find_first_not_some c s n :
  find_first_not c s = Some n <-> exists x r, s = repeat c n ++ x :: r /\ x <> c.
Proof.
  revert n; induction s as [|y s IH]; intro n; cbn.
  - split; [discriminate|]. intros (x & r & H & _). destruct n; discriminate.
  - destruct (ascii_eqb y c) eqn:E.
    + apply ascii_eqb_true in E; subst y. split.
      * destruct (find_first_not c s) as [m|]; [|discriminate].
        intro H; injection H as <-. destruct (proj1 (IH m) eq_refl) as (x & r & -> & Hx).
        exists x, r; cbn; auto.
      * intros (x & r & H & Hx). destruct n as [|n]; cbn in H; [congruence|].
        injection H as ->. rewrite (proj2 (IH n)); [reflexivity|eauto].
    + apply ascii_eqb_false in E. split.
      * intro H; injection H as <-. exists y, s; auto.
      * intros (x & r & H & Hx). destruct n as [|n]; cbn in H; [reflexivity|].
        injection H as -> _; congruence.
Qed.

Lemma find_first_not_none c s :
  find_first_not c s = None <-> s = repeat c (length s).
Proof.
  induction s as [|y s IH]; cbn; [tauto|].
  destruct (ascii_eqb y c) eqn:E.
  - apply ascii_eqb_true in E; subst y.
    destruct (find_first_not c s) as [m|]; split; try discriminate; intros H.
    + injection H as H. apply IH in H; discriminate.
    + f_equal. now apply IH.
    + reflexivity.
  - apply ascii_eqb_false in E. split; [discriminate|]. intro H; congruence.
Qed.

(** * key/value splitting *)
Lemma skipn_app_exact {A} (a b : list A) n : length a = n -> skipn n (a ++ b) = b.
Proof. intros <-; induction a; cbn; auto. Qed.
Lemma firstn_app_exact {A} (a b : list A) n : length a = n -> firstn n (a ++ b) = a.
Proof. intros <-; induction a; cbn; f_equal; auto. Qed.

Lemma not_in_repeat {A} (x y : A) n : x <> y -> ~ In x (repeat y n).
Proof. intros H Hin. apply repeat_spec in Hin. auto. Qed.

Lemma get_key_value_with_sep sepc n k v :
  find_char "=" (cli_arg n k sepc v) = Some (n + length k) \/
  (find_char "=" (cli_arg n k sepc v) = None /\
   find_char " " (cli_arg n k sepc v) = Some (n + length k)) ->
  k <> [] -> hd_error k <> Some "-"%char ->
  get_key_value (cli_arg n k sepc v) = Ok (k, v).
Proof.
  intros Hf Hne Hd. unfold get_key_value.
  assert (Hb : find_first_not "-" (cli_arg n k sepc v) = Some n).
  { unfold cli_arg. destruct k as [|x k]; [congruence|]. cbn in Hd. cbn [app].
    apply find_first_not_repeat. congruence. }
  rewrite Hb.
  assert (Hs : (match find_char "=" (cli_arg n k sepc v) with
               | Some m => Some m | None => find_char " " (cli_arg n k sepc v) end)
               = Some (n + length k)).
  { destruct Hf as [-> | [-> Hf]]; [reflexivity|exact Hf]. }
  rewrite Hs.
  assert (Hl : length (cli_arg n k sepc v) = n + length k + S (length v)).
  { unfold cli_arg. rewrite !app_length, repeat_length; cbn; lia. }
  unfold substr. rewrite Hl.
  replace (Nat.ltb (n + length k + S (length v)) n) with false
    by (symmetry; apply Nat.ltb_ge; lia).
  replace (Nat.ltb (n + length k + S (length v)) (n + length k + 1)) with false
    by (symmetry; apply Nat.ltb_ge; lia).
  cbn [bind]. unfold cli_arg.
  rewrite skipn_app_exact by apply repeat_length.
  rewrite firstn_app_exact by lia.
  replace (n + length k + 1) with (n + S (length k)) by lia.
  f_equal. f_equal.
  change (repeat "-"%char n ++ k ++ sepc :: v) with (repeat "-"%char n ++ k ++ [sepc] ++ v).
  rewrite !app_assoc. apply skipn_app_exact.
  rewrite !app_length, repeat_length; cbn; lia.
Qed.

Lemma get_key_value_eq n k v :
  k <> [] -> hd_error k <> Some "-"%char -> ~ In "="%char k ->
  get_key_value (cli_arg n k "=" v) = Ok (k, v).
Proof.
  intros Hne Hd Hk. apply get_key_value_with_sep; auto. left.
  apply find_char_some. exists (repeat "-"%char n ++ k), v. unfold cli_arg.
  rewrite <- app_assoc, app_length, repeat_length. repeat split; auto.
  intros H; apply in_app_or in H as [H|H]; [|auto].
  revert H; apply not_in_repeat; discriminate.
Qed.

Lemma get_key_value_blank n k v :
  k <> [] -> hd_error k <> Some "-"%char ->
  ~ In "="%char k -> ~ In " "%char k -> ~ In "="%char v ->
  get_key_value (cli_arg n k " " v) = Ok (k, v).
Proof.
  intros Hne Hd Hk Hb Hv. apply get_key_value_with_sep; auto. right. split.
  - apply find_char_none. unfold cli_arg. intros H.
    apply in_app_or in H as [H|H]; [revert H; apply not_in_repeat; discriminate|].
    apply in_app_or in H as [H|[H|H]]; auto. discriminate.
  - apply find_char_some. exists (repeat "-"%char n ++ k), v. unfold cli_arg.
    rewrite <- app_assoc, app_length, repeat_length. repeat split; auto.
    intros H; apply in_app_or in H as [H|H]; [|auto].
    revert H; apply not_in_repeat; discriminate.
Qed.

Lemma get_key_value_nosep n x k :
  x <> "-"%char -> ~ In "="%char (x :: k) -> ~ In " "%char (x :: k) ->
  get_key_value (repeat "-"%char n ++ x :: k) = Ok (x :: k, repeat "-"%char n ++ x :: k).
Proof.
  intros Hx He Hb. unfold get_key_value.
  rewrite find_first_not_repeat by auto.
  assert (H1 : find_char "=" (repeat "-"%char n ++ x :: k) = None).
  { apply find_char_none. intros H; apply in_app_or in H as [H|H]; auto.
    revert H; apply not_in_repeat; discriminate. }
  assert (H2 : find_char " " (repeat "-"%char n ++ x :: k) = None).
  { apply find_char_none. intros H; apply in_app_or in H as [H|H]; auto.
    revert H; apply not_in_repeat; discriminate. }
  rewrite H1, H2. unfold substr.
  replace (Nat.ltb (length (repeat "-"%char n ++ x :: k)) n) with false
    by (symmetry; apply Nat.ltb_ge; rewrite app_length, repeat_length; lia).
  cbn [bind Nat.ltb Nat.leb]. rewrite skipn_app_exact by apply repeat_length.
  reflexivity.
Qed.

Lemma get_key_value_throws s :
  get_key_value s = Throw OutOfRange <-> s = repeat "-"%char (length s).
Proof.
  rewrite <- find_first_not_none. unfold get_key_value.
  destruct (find_first_not "-" s) as [b|] eqn:Hb; [|tauto].
  split; [|discriminate].
  apply find_first_not_some in Hb as (x & r & -> & Hx).
  intro H. exfalso. revert H.
  set (sp := match find_char "=" _ with Some n => Some n | None => _ end).
  assert (Hsp : forall m, sp = Some m -> m < length (repeat "-"%char b ++ x :: r)).
  { assert (G : forall c m, find_char c (repeat "-"%char b ++ x :: r) = Some m ->
                m < length (repeat "-"%char b ++ x :: r)).
    { intros c m Hm. apply find_char_some in Hm as (a & c' & E & <- & _).
      rewrite E, app_length; cbn; lia. }
    intros m Hm. subst sp.
    destruct (find_char "=" (repeat "-"%char b ++ x :: r)) as [m'|] eqn:E.
    - injection Hm as ->. eauto.
    - eauto. }
  clearbody sp. unfold substr.
  replace (Nat.ltb (length (repeat "-"%char b ++ x :: r)) b) with false
    by (symmetry; apply Nat.ltb_ge; rewrite app_length, repeat_length; lia).
  cbn [bind]. destruct sp as [m|].
  - specialize (Hsp m eq_refl).
    replace (Nat.ltb _ (m + 1)) with false by (symmetry; apply Nat.ltb_ge; lia).
    discriminate.
  - cbn [Nat.ltb Nat.leb]. discriminate.
Qed.

(** * split *)
Lemma split_go_pieces d s : forall cur,
  ~ In d cur -> Forall (fun p => ~ In d p) (split_go d cur s).
Proof.
  induction s as [|c s IH]; intros cur Hc; cbn.
  - destruct cur as [|y cur']; [constructor|].
    constructor; [|constructor]. intro H; apply Hc; now apply in_rev.
  - destruct (ascii_eqb c d) eqn:E.
    + constructor; [intro H; apply Hc; now apply in_rev|]. apply IH; auto.
    + apply ascii_eqb_false in E. apply IH. intros [H|H]; auto.
Qed.

Lemma join_cons d x l : l <> [] -> join d (x :: l) = x ++ d :: join d l.
Proof. destruct l; [congruence|reflexivity]. Qed.

Definition ends_with (d : ascii) (s : str) : Prop := exists r, s = r ++ [d].

Lemma ends_with_cons d c s : s <> [] -> (ends_with d (c :: s) <-> ends_with d s).
Proof.
  intro Hs. split; intros (r & H).
  - destruct r as [|y r]; cbn in H; [injection H as -> ->; congruence|].
    injection H as -> ->. exists r; reflexivity.
  - exists (c :: r). now rewrite H.
Qed.

Lemma split_go_join d s : forall cur,
  ~ In d cur ->
  (ends_with d s -> join d (split_go d cur s) ++ [d] = rev cur ++ s) /\
  (~ ends_with d s -> join d (split_go d cur s) = rev cur ++ s).
Proof.
  induction s as [|c s IH]; intros cur Hc.
  - split.
    + intros (r & H); destruct r; discriminate.
    + intros _. cbn. rewrite app_nil_r. destruct cur; reflexivity.
  - cbn [split_go]. destruct (ascii_eqb c d) eqn:E.
    + apply ascii_eqb_true in E; subst c.
      destruct (IH [] ltac:(cbn; auto)) as [I1 I2]. cbn [rev app] in I1, I2.
      destruct s as [|c' s'].
      * cbn. split; [reflexivity|]. intros H; exfalso; apply H; exists []; reflexivity.
      * assert (Hn : split_go d [] (c' :: s') <> []).
        { cbn. destruct (ascii_eqb c' d); [discriminate|].
          clear.
          assert (G : forall t cu, cu <> [] -> split_go d cu t <> []).
          { induction t as [|z t IHt]; intros cu Hcu; cbn.
            - destruct cu; congruence.
            - destruct (ascii_eqb z d); [discriminate|]. apply IHt; discriminate. }
          apply G; discriminate. }
        rewrite join_cons by exact Hn.
        split.
        -- intro H. rewrite ends_with_cons in H by discriminate.
           rewrite <- app_assoc. cbn [app]. now rewrite I1.
        -- intro H. rewrite I2; [reflexivity|]. intro H'. apply H.
           rewrite ends_with_cons by discriminate; exact H'.
    + apply ascii_eqb_false in E.
      destruct (IH (c :: cur)) as [I1 I2].
      { intros [H|H]; auto. }
      cbn [rev] in I1, I2. rewrite <- app_assoc in I1, I2. cbn [app] in I1, I2.
      destruct s as [|c' s'].
      * split.
        -- intros (r & H). destruct r as [|y r]; cbn in H; [congruence|].
           injection H as _ H. destruct r; discriminate.
        -- intros _. apply I2. intros (r & H); destruct r; discriminate.
      * split; intro H.
        -- apply I1. rewrite ends_with_cons in H by discriminate. exact H.
        -- apply I2. intro H'; apply H. rewrite ends_with_cons by discriminate; exact H'.
Qed.

Lemma split_join d s :
  (ends_with d s -> join d (split s d) ++ [d] = s) /\
  (~ ends_with d s -> join d (split s d) = s).
Proof. apply (split_go_join d s []); auto. Qed.

Lemma split_go_app d p : forall cur s,
  ~ In d p -> split_go d cur (p ++ s) = split_go d (rev p ++ cur) s.
Proof.
  induction p as [|c p IH]; intros cur s Hp; [reflexivity|].
  cbn [app split_go]. replace (ascii_eqb c d) with false
    by (symmetry; apply ascii_eqb_false; intro; apply Hp; left; auto).
  rewrite IH by (intro; apply Hp; right; auto). cbn [rev]. now rewrite <- app_assoc.
Qed.

Lemma split_of_join d l :
  Forall (fun p => ~ In d p) l -> l <> [] -> last l [] <> [] ->
  split (join d l) d = l.
Proof.
  intros HF Hne Hl. unfold split.
  induction l as [|p l IH]; [congruence|].
  inversion HF as [|? ? Hp HF']; subst.
  destruct l as [|q l'].
  - cbn in *. rewrite <- (app_nil_r p) at 1.
    rewrite split_go_app by exact Hp. rewrite app_nil_r. cbn.
    destruct (rev p) eqn:E.
    + apply (f_equal (@rev ascii)) in E. rewrite rev_involutive in E. cbn in E. congruence.
    + rewrite <- E, rev_involutive. reflexivity.
  - rewrite join_cons by discriminate.
    rewrite split_go_app by exact Hp. rewrite app_nil_r. cbn [split_go].
    rewrite ascii_eqb_refl, rev_involutive. f_equal. apply IH; auto. discriminate.
Qed.

(** * prefix and suffix *)
Lemma match_at_spec p : forall s, match_at p s = true <-> is_prefix p s.
Proof.
  induction p as [|a p IH]; intros [|b s]; cbn; split; try discriminate.
  - intros _; exists []; reflexivity.
  - reflexivity.
  - intros _; now exists (b :: s).
  - reflexivity.
  - intros (r & H); discriminate.
  - intro H; apply andb_prop in H as [H1 H2]. apply ascii_eqb_true in H1; subst.
    apply IH in H2 as (r & ->). now exists r.
  - intros (r & H). injection H as -> H. rewrite ascii_eqb_refl. cbn. apply IH. now exists r.
Qed.

Lemma starts_with_spec s p : StringStartsWith s p = true <-> is_prefix p s.
Proof.
  unfold StringStartsWith. rewrite andb_true_iff, Nat.leb_le.
  rewrite <- match_at_spec. split.
  - intros [_ H]. destruct s as [|c s]; cbn in H.
    + destruct (match_at p []); [reflexivity|discriminate].
    + destruct (match_at p (c :: s)); [reflexivity|].
      destruct (find_str p s); discriminate.
  - intro H. split.
    + apply match_at_spec in H as (r & ->). rewrite app_length; lia.
    + destruct s; cbn; rewrite H; reflexivity.
Qed.

Lemma ends_with_spec s p : StringEndsWith s p = true <-> is_suffix p s.
Proof.
  unfold StringEndsWith. destruct (Nat.leb_spec (length p) (length s)) as [Hl|Hl].
  - unfold substr. replace (Nat.ltb (length s) (length s - length p)) with false
      by (symmetry; apply Nat.ltb_ge; lia).
    assert (Hf : firstn (length s) (skipn (length s - length p) s) = skipn (length s - length p) s).
    { apply firstn_all2. rewrite skipn_length. lia. }
    rewrite Hf. destruct (str_eqb_spec (skipn (length s - length p) s) p) as [E|E]; split;
      try discriminate; auto.
    + intros _. exists (firstn (length s - length p) s). rewrite <- E at 2.
      symmetry; apply firstn_skipn.
    + intros (r & H). exfalso; apply E. subst s. rewrite app_length.
      apply skipn_app_exact; lia.
  - split; [discriminate|]. intros (r & ->). rewrite app_length in Hl; lia.
Qed.

Lemma split_pieces d s : Forall (fun p => ~ In d p) (split s d).
Proof. apply split_go_pieces. intros []. Qed.
