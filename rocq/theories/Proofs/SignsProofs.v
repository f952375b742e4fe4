From Coq Require Import ZifyBool Permutation.
From Verif.Model Require Import Base Signs.
From Verif.Spec Require Import SignsSpec.
Open Scope Z_scope.

(** * enumeration of two-valued arrangements *)
Definition blt (a b : bool) : bool := negb a && b.

Fixpoint desc (n k : nat) : list (list bool) :=
  match n with
  | O => match k with O => [[]] | S _ => [] end
  | S n' => (match k with O => [] | S k' => map (cons true) (desc n' k') end) ++ map (cons false) (desc n' k)
  end.

Definition top (n k : nat) := repeat true k ++ repeat false (n - k).
Definition bot (n k : nat) := repeat false (n - k) ++ repeat true k.

Fixpoint links {A} (lt : A -> A -> bool) (L : list (list A)) : Prop :=
  match L with
  | a :: ((b :: _) as r) => prev_perm lt a = Some b /\ links lt r
  | _ => True
  end.

Lemma split_last_false l : split_last blt false l = None.
Proof. induction l as [|y l IH]; cbn; [auto|]. rewrite IH. unfold blt. now rewrite andb_false_r. Qed.

Lemma split_last_trues x n : split_last blt x (repeat true n) = None.
Proof. induction n as [|n IH]; cbn; [auto|]. now rewrite IH. Qed.

Lemma split_last_bot a b :
  split_last blt true (repeat false (S a) ++ repeat true b) = Some (repeat false a, false, repeat true b).
Proof.
  induction a as [|a IH].
  - cbn. now rewrite split_last_trues.
  - cbn [repeat app split_last] in *. now rewrite IH.
Qed.

Lemma prev_bot a b : prev_perm blt (repeat false a ++ repeat true b) = None.
Proof.
  induction a as [|a IH]; cbn.
  - induction b as [|b IH]; cbn; [auto|]. now rewrite IH, split_last_trues.
  - now rewrite IH, split_last_false.
Qed.

Lemma rev_rep {A} (x : A) n : rev (repeat x n) = repeat x n.
Proof. induction n as [|n IH]; cbn; [auto|]. rewrite IH. symmetry. apply repeat_cons. Qed.

Lemma junction a b :
  prev_perm blt (true :: repeat false (S a) ++ repeat true b) = Some (false :: repeat true (S b) ++ repeat false a).
Proof.
  remember (repeat false (S a) ++ repeat true b) as t. cbn [prev_perm]. subst t. rewrite prev_bot, split_last_bot.
  do 2 f_equal. rewrite rev_app_distr, rev_rep. cbn [rev]. rewrite rev_rep. now rewrite <- repeat_cons.
Qed.

Lemma links_cons x L : links blt L -> links blt (map (cons x) L).
Proof.
  induction L as [|a [|b r] IH]; cbn; auto. intros [E H]. split; [|apply IH; exact H]. now rewrite E.
Qed.

Lemma links_app L x y M : links blt (L ++ [x]) -> links blt (y :: M) -> prev_perm blt x = Some y ->
  links blt ((L ++ [x]) ++ y :: M).
Proof.
  intros H1 H2 E. induction L as [|a L IH]; cbn in *; [auto|].
  destruct (L ++ [x]) as [|b r] eqn:EL; [destruct L; discriminate|]. cbn in *. destruct H1 as [H1 H1']. split; [exact H1|]. apply IH; exact H1'.
Qed.

Lemma desc_shape n : forall k, (k <= n)%nat ->
  (exists r, desc n k = top n k :: r) /\ (exists r, desc n k = r ++ [bot n k]) /\ links blt (desc n k).
Proof.
  induction n as [|n IH]; intros k Hk.
  - assert (k = 0%nat) as -> by lia. repeat split; [exists []|exists []]; reflexivity.
  - cbn [desc]. destruct k as [|k].
    + destruct (IH 0%nat) as ((r & E1) & (r' & E2) & L); [lia|]. cbn [app]. split; [|split].
      * rewrite E1. exists (map (cons false) r). cbn. unfold top. cbn. now rewrite Nat.sub_0_r.
      * rewrite E2, map_app. exists (map (cons false) r'). unfold bot. cbn. now rewrite Nat.sub_0_r.
      * now apply links_cons.
    + destruct (IH k) as ((r & E1) & (r' & E2) & L); [lia|].
      assert (T : exists r0, map (cons true) (desc n k) ++ map (cons false) (desc n (S k)) = top (S n) (S k) :: r0).
      { rewrite E1. eexists. reflexivity. }
      split; [exact T|]. destruct (Nat.eq_dec k n) as [->|Hn].
      * assert (N : desc n (S n) = []).
        { assert (Z0 : forall m j, (m < j)%nat -> desc m j = []).
          { clear. induction m as [|m IH]; intros [|j] H; cbn; try lia; auto. rewrite !IH by lia. reflexivity. }
          apply Z0. lia. }
        rewrite N. cbn [map]. rewrite app_nil_r. split; [|now apply links_cons].
        rewrite E2, map_app. exists (map (cons true) r'). unfold bot. cbn [map]. rewrite !Nat.sub_diag. reflexivity.
      * destruct (IH (S k)) as ((s & F1) & (s' & F2) & M); [lia|]. split.
        { rewrite F2, map_app, app_assoc. eexists. unfold bot. cbn [map]. replace (S n - S k)%nat with (S (n - S k)) by lia. reflexivity. }
        { rewrite E2, map_app, F1. cbn [map]. apply links_app.
          - rewrite E2 in L. apply links_cons with (x := true) in L. now rewrite map_app in L.
          - rewrite F1 in M. apply links_cons with (x := false) in M. exact M.
          - unfold bot, top. replace (n - k)%nat with (S (n - S k)) by lia. apply junction. }
Qed.

Lemma desc_in n : forall k l, In l (desc n k) <-> length l = n /\ count_occ bool_dec l true = k.
Proof.
  induction n as [|n IH]; intros k l; cbn [desc].
  - destruct k; cbn; split; try tauto.
    + intros [<-|[]]. auto.
    + intros [H _]. destruct l; [auto|discriminate].
    + intros [H1 H2]. destruct l; [cbn in H2; discriminate|discriminate].
  - rewrite in_app_iff. split.
    + intros [H|H].
      * destruct k; [destruct H|]. apply in_map_iff in H as (t & <- & Ht). apply IH in Ht as [<- <-]. cbn. auto.
      * apply in_map_iff in H as (t & <- & Ht). apply IH in Ht as [<- <-]. cbn. auto.
    + intros [H1 H2]. destruct l as [|[] t]; [discriminate| |]; cbn in *.
      * left. subst k. apply in_map. apply IH. auto.
      * right. apply in_map. apply IH. auto.
Qed.

Lemma desc_nodup n : forall k, NoDup (desc n k).
Proof.
  assert (Ap : forall A (a b : list A), NoDup a -> NoDup b -> (forall x, In x a -> ~ In x b) -> NoDup (a ++ b)).
  { induction a as [|x a IH]; intros b Ha Hb Hd; cbn; [auto|]. inversion Ha; subst. constructor.
    - rewrite in_app_iff. intros [H|H]; [auto|]. apply (Hd x); [left|]; auto.
    - apply IH; auto. intros y Hy. apply Hd. right; auto. }
  assert (Mp : forall x (a : list (list bool)), NoDup a -> NoDup (map (cons x) a)).
  { intros x a H. apply FinFun.Injective_map_NoDup; [|auto]. intros p q E. now injection E. }
  induction n as [|n IH]; intro k; cbn [desc].
  - destruct k; repeat constructor. intros [].
  - apply Ap.
    + destruct k; [constructor|]. apply Mp, IH.
    + apply Mp, IH.
    + intros x Hx Hy. destruct k; [destruct Hx|]. apply in_map_iff in Hx as (t & <- & _). apply in_map_iff in Hy as (u & E & _). discriminate.
Qed.

Lemma last_irrel {A} (l : list A) : forall x d d', last (x :: l) d = last (x :: l) d'.
Proof. induction l as [|y l IH]; intros; [reflexivity|]. exact (IH y d d'). Qed.

Lemma visit_links {A} (lt : A -> A -> bool) L : forall a fuel, links lt (a :: L) -> prev_perm lt (last (a :: L) a) = None ->
  (length (a :: L) <= fuel)%nat -> visit_all lt fuel a = Ok (a :: L).
Proof.
  induction L as [|b L IH]; intros a fuel HL HE Hf; (destruct fuel as [|f]; [cbn in Hf; lia|]); cbn [visit_all].
  - cbn in HE. now rewrite HE.
  - destruct HL as [E HL]. rewrite E. rewrite (IH b f); [reflexivity|exact HL| |cbn in *; lia].
    rewrite <- HE. f_equal. change (last (b :: L) b = last (b :: L) a). apply last_irrel.
Qed.

(** transport along an order embedding of the booleans *)
Section Embed.
Context {A : Type} (lt : A -> A -> bool) (e : bool -> A).
Hypothesis He : forall a b, lt (e a) (e b) = blt a b.

Lemma split_last_map x l : split_last lt (e x) (map e l) =
  match split_last blt x l with Some (p, z, q) => Some (map e p, e z, map e q) | None => None end.
Proof.
  induction l as [|y l IH]; cbn; [auto|]. rewrite IH. destruct (split_last blt x l) as [[[p z] q]|]; [reflexivity|].
  rewrite He. destruct (blt y x); reflexivity.
Qed.
Lemma prev_perm_map l : prev_perm lt (map e l) = option_map (map e) (prev_perm blt l).
Proof.
  induction l as [|x l IH]; cbn; [auto|]. rewrite IH. destruct (prev_perm blt l); cbn; [auto|].
  rewrite split_last_map. destruct (split_last blt x l) as [[[p z] q]|]; cbn; [|auto].
  do 2 f_equal. rewrite map_rev, map_app. reflexivity.
Qed.
Lemma visit_map fuel l : visit_all lt fuel (map e l) =
  match visit_all blt fuel l with Ok r => Ok (map (map e) r) | Throw x => Throw x | UB => UB | OutOfFuel => OutOfFuel end.
Proof.
  revert l. induction fuel as [|f IH]; intro l; cbn; [auto|]. rewrite prev_perm_map. destruct (prev_perm blt l); cbn; [|auto].
  rewrite IH. destruct (visit_all blt f l0); reflexivity.
Qed.
End Embed.

Lemma visit_desc n k fuel : (k <= n)%nat -> (length (desc n k) <= fuel)%nat -> visit_all blt fuel (top n k) = Ok (desc n k).
Proof.
  intros Hk Hf. destruct (desc_shape n k Hk) as ((r & E1) & (r' & E2) & L). rewrite E1 in *. apply visit_links; auto.
  rewrite E2, last_last. unfold bot. apply prev_bot.
Qed.

(** ** the two enumerations *)
Definition eb (b : bool) : Z := if b then 1 else 0.
Definition es (b : bool) : Z := if b then -1 else 1.

Lemma map_repeat {A B} (f : A -> B) x n : map f (repeat x n) = repeat (f x) n.
Proof. induction n; cbn; [auto|]. now f_equal. Qed.
Lemma map_top {A} (e : bool -> A) n k : map e (top n k) = repeat (e true) k ++ repeat (e false) (n - k).
Proof. unfold top. rewrite map_app, !map_repeat. reflexivity. Qed.

Definition all_desc (n from todo : nat) : list (list bool) := flat_map (desc n) (seq from todo).

Lemma len_desc_all n k : (k <= n)%nat -> (length (desc n k) <= length (all_desc n 0 (S n)))%nat.
Proof.
  intro H. unfold all_desc. assert (I : In k (seq 0 (S n))) by (apply in_seq; lia). revert I.
  generalize (seq 0 (S n)). induction l as [|x l IH]; intros [].
  - subst. cbn. rewrite app_length. lia.
  - cbn. rewrite app_length. specialize (IH H0). lia.
Qed.

Lemma c2_eq n fuel : (length (all_desc n 0 (S n)) <= fuel)%nat -> forall todo k, (k + todo <= S n)%nat ->
  c2_from n fuel todo k = Ok (map (map es) (all_desc n k todo)).
Proof.
  intro Hf. induction todo as [|m IH]; intros k Hk; [reflexivity|]. cbn [c2_from].
  assert (E : bitmask n k = map eb (top n k)) by (rewrite map_top; reflexivity).
  rewrite E, (visit_map Z.ltb eb) by (intros [] []; reflexivity). rewrite visit_desc; [|lia|pose proof (len_desc_all n k); lia].
  cbn [bind]. rewrite IH by lia. cbn [bind]. f_equal. unfold all_desc. cbn [seq flat_map]. rewrite map_app. f_equal.
  rewrite map_map. apply map_ext. intro l. unfold c2_element. rewrite map_map. apply map_ext. intros []; reflexivity.
Qed.

Lemma sign_eq n fuel : (length (all_desc n 0 (S n)) <= fuel)%nat -> forall todo k, (k + todo <= S n)%nat ->
  sign_from n fuel todo k = Ok (map (map es) (all_desc n k todo)).
Proof.
  intro Hf. induction todo as [|m IH]; intros k Hk; [reflexivity|]. cbn [sign_from].
  assert (E : sign_start n k = map es (top n k)) by (rewrite map_top; reflexivity).
  rewrite E, (visit_map Z.gtb es) by (intros [] []; reflexivity). rewrite visit_desc; [|lia|pose proof (len_desc_all n k); lia].
  cbn [bind]. rewrite IH by lia. cbn [bind]. f_equal. unfold all_desc. cbn [seq flat_map]. rewrite map_app. f_equal.
Qed.

Lemma all_desc_nodup n todo : forall k, NoDup (all_desc n k todo).
Proof.
  assert (Ap : forall A (a b : list A), NoDup a -> NoDup b -> (forall x, In x a -> ~ In x b) -> NoDup (a ++ b)).
  { induction a as [|x a IH]; intros b Ha Hb Hd; cbn; [auto|]. inversion Ha; subst. constructor.
    - rewrite in_app_iff. intros [H|H]; [auto|]. apply (Hd x); [left|]; auto.
    - apply IH; auto. intros y Hy. apply Hd. right; auto. }
  induction todo as [|m IH]; intro k; [constructor|]. unfold all_desc. cbn [seq flat_map]. apply Ap; [apply desc_nodup|apply IH|].
  intros x Hx Hy. apply desc_in in Hx as [_ Hx]. apply in_flat_map in Hy as (j & Hj & Hy). apply in_seq in Hj. apply desc_in in Hy as [_ Hy]. lia.
Qed.

Lemma es_inj l l' : map es l = map es l' -> l = l'.
Proof.
  revert l'. induction l as [|x l IH]; intros [|y l'] H; cbn in H; try discriminate; [auto|]. injection H as H1 H2.
  f_equal; [destruct x, y; try discriminate; auto|auto].
Qed.

Lemma count_le l : (count_occ bool_dec l true <= length l)%nat.
Proof. induction l as [|[] l IH]; cbn; lia. Qed.

Lemma sign_vector_es n g : sign_vector n g <-> exists l, length l = n /\ g = map es l.
Proof.
  split.
  - intros [<- H]. induction H as [|x g Hx Hg (l & L & E)]; [exists []; auto|].
    destruct Hx as [-> | ->]; [exists (false :: l)|exists (true :: l)]; cbn; rewrite L, E; auto.
  - intros (l & <- & ->). split; [apply map_length|]. apply Forall_forall. intros x Hx. apply in_map_iff in Hx as ([] & <- & _); cbn; auto.
Qed.

Lemma count_zero l : count_occ bool_dec l true = 0%nat -> map es l = identity (length l).
Proof. induction l as [|[] l IH]; cbn; [auto|discriminate|]. intro H. unfold identity in *. cbn. now rewrite IH. Qed.
Lemma count_id n l : map es l = identity n -> count_occ bool_dec l true = 0%nat.
Proof.
  revert n. induction l as [|x l IH]; intros [|n] H; cbn in *; try discriminate; [auto|]. injection H as H1 H2.
  destruct x; [discriminate|]. eauto.
Qed.

Lemma nodup_map_es L : NoDup L -> NoDup (map (map es) L).
Proof. intro H. apply FinFun.Injective_map_NoDup; [|auto]. intros p q E. now apply es_inj. Qed.

Lemma nodup_filter {A} (f : A -> bool) l : NoDup l -> NoDup (filter f l).
Proof. induction 1 as [|x l H1 H2 IH]; cbn; [constructor|]. destruct (f x); [constructor|]; auto. rewrite filter_In. tauto. Qed.

Lemma discrete_exact check n : exists fuel l,
  FindDiscreteSymmetries check n fuel = Ok l /\ NoDup l /\
  (forall g, In g l <-> sign_vector n g /\ check g = true) /\
  (check (identity n) = true -> exists r, l = identity n :: r).
Proof.
  exists (length (all_desc n 0 (S n))). eexists. unfold FindDiscreteSymmetries, C2GroupElements.
  rewrite c2_eq by lia. cbn [bind]. split; [reflexivity|]. split; [|split].
  - apply nodup_filter, nodup_map_es, all_desc_nodup.
  - intro g. rewrite filter_In, in_map_iff, sign_vector_es. split.
    + intros [(l & <- & H) C]. split; [|exact C]. exists l. split; [|auto]. apply in_flat_map in H as (k & _ & H). apply desc_in in H. tauto.
    + intros [(l & L & ->) C]. split; [|exact C]. exists l. split; [auto|]. apply in_flat_map. exists (count_occ bool_dec l true).
      split; [apply in_seq; pose proof (count_le l); lia|]. apply desc_in. auto.
  - intro C. unfold all_desc. cbn [seq flat_map]. destruct (desc_shape n 0) as ((r & E) & _); [lia|]. rewrite E. cbn [app map filter].
    assert (I : map es (top n 0) = identity n) by (rewrite map_top; cbn; now rewrite Nat.sub_0_r). rewrite I, C. eauto.
Qed.

Lemma sign_exact check n : exists fuel l,
  FindSignSymmetries check n fuel = Ok l /\ NoDup l /\
  (forall g, In g l <-> sign_vector n g /\ g <> identity n /\ check g = true).
Proof.
  exists (length (all_desc n 0 (S n))). eexists. unfold FindSignSymmetries.
  rewrite sign_eq by lia. cbn [bind]. split; [reflexivity|]. split.
  - apply nodup_filter, nodup_map_es, all_desc_nodup.
  - intro g. rewrite filter_In, in_map_iff, sign_vector_es. split.
    + intros [(l & <- & H) C]. apply in_flat_map in H as (k & Hk & H). apply in_seq in Hk. apply desc_in in H as [H1 H2].
      split; [exists l; auto|]. split; [|exact C]. intro N. apply count_id in N. lia.
    + intros [(l & L & ->) [N C]]. split; [|exact C]. exists l. split; [auto|]. apply in_flat_map. exists (count_occ bool_dec l true).
      split; [apply in_seq; pose proof (count_le l)|apply desc_in; auto].
      destruct (Nat.eq_dec (count_occ bool_dec l true) 0) as [Z0|Z0]; [|lia]. apply count_zero in Z0. congruence.
Qed.
