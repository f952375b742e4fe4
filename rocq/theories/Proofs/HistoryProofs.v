From Coq Require Import ZifyBool Decimal DecimalString DecimalFacts DecimalNat.
From Verif.Model Require Import Base History.
From Verif.Spec Require Import HistorySpec.
Open Scope Z_scope.

Section H.
Variable minus_one : Z.
Variable compl : list (option Z).
Hypothesis above : forall i T, nth_error compl i = Some (Some T) -> minus_one <= T.

Definition cand (ps : list hpair) (cur : Z) (p : hpair) (T : Z) : Prop := completes ps compl p T /\ h_false p = cur.

Lemma scan_spec cur : forall ps r r',
  scan minus_one compl cur ps r = Ok r' -> minus_one <= best_T r ->
  best_T r <= best_T r' /\
  (forall p T, cand ps cur p T -> T <= best_T r') /\
  (r' = r /\ (best_T r = minus_one -> forall p T, ~ cand ps cur p T) \/
   exists p, cand ps cur p (best_T r') /\ best_next r' = h_true p /\ best_pair r' = h_id p).
Proof.
  induction ps as [|p ps IH]; intros r r' H H0; cbn [scan] in H.
  - injection H as <-. split; [lia|]. split; [intros p T [[[] _] _]|]. left. split; [auto|]. intros _ p T [[[] _] _].
  - assert (Tail : forall q T, cand ps cur q T -> cand (p :: ps) cur q T).
    { intros q T [[A B] C]. split; [split; [right|]|]; auto. }
    destruct (h_false p =? cur) eqn:E.
    + destruct (nth_error compl (h_id p)) as [[T|]|] eqn:EC; [| |discriminate].
      * pose proof (above _ _ EC) as HT. destruct ((best_T r =? minus_one) || (best_T r <? T)) eqn:EB.
        { destruct (IH _ _ H) as (A & B & C); [cbn; lia|]. cbn [best_T] in A. split; [lia|]. split.
          - intros q T' [[[<-|Hq] HC] HF]; [|apply (B q); split; [split|]; auto].
            assert (T' = T) by congruence. lia.
          - right. destruct C as [[-> _]|(q & C1 & C2 & C3)].
            + exists p. cbn. split; [|auto]. split; [split; [left|]; auto|lia].
            + exists q. auto. }
        { destruct (IH _ _ H H0) as (A & B & C). split; [lia|]. split.
          - intros q T' [[[<-|Hq] HC] HF]; [|apply (B q); split; [split|]; auto].
            assert (T' = T) by congruence. lia.
          - destruct C as [[-> C]|(q & C1 & C2 & C3)]; [left; split; [auto|intros; lia]|right; exists q; auto]. }
      * destruct (IH _ _ H H0) as (A & B & C). split; [lia|]. split.
        -- intros q T' [[[<-|Hq] HC] HF]; [congruence|apply (B q); split; [split|]; auto].
        -- destruct C as [[-> C]|(q & C1 & C2 & C3)]; [left; split; [auto|]|right; exists q; auto].
           intros X q T' [[[<-|Hq] HC] HF]; [congruence|]. apply (C X q T'). split; [split|]; auto.
    + destruct (IH _ _ H H0) as (A & B & C). split; [lia|]. split.
      * intros q T' [[[<-|Hq] HC] HF]; [lia|apply (B q); split; [split|]; auto].
      * destruct C as [[-> C]|(q & C1 & C2 & C3)]; [left; split; [auto|]|right; exists q; auto].
        intros X q T' [[[<-|Hq] HC] HF]; [lia|]. apply (C X q T'). split; [split|]; auto.
Qed.

Definition start := {| best_T := minus_one; best_next := -1; best_pair := 0 |}.

Lemma round_spec pairs cur r : (forall p, In p pairs -> 0 <= h_true p) ->
  scan minus_one compl cur pairs start = Ok r ->
  (best_next r = -1 /\ forall p T, completes pairs compl p T -> h_false p <> cur) \/
  (best_next r <> -1 /\ exists p, best_step pairs compl cur p /\ best_next r = h_true p /\ best_pair r = h_id p).
Proof.
  intros Hp H. destruct (scan_spec cur pairs start r H) as (A & B & C); [cbn; lia|].
  destruct C as [[-> C]|(p & [C0 C1] & C2 & C3)].
  - left. split; [auto|]. intros p T HC HF. apply (C eq_refl p T). split; auto.
  - right. assert (Hin : In p pairs) by apply C0. split; [specialize (Hp p Hin); lia|]. exists p. split; [|auto].
    split; [auto|]. exists (best_T r). split; [auto|]. intros p' T' H1 H2. apply (B p'). split; auto.
Qed.

Lemma evaluate_chain pairs : (forall p, In p pairs -> 0 <= h_true p) -> forall fuel cur hs ps,
  evaluate minus_one compl pairs fuel cur = Ok (hs, ps) -> chain pairs compl cur hs ps.
Proof.
  intros Hp. induction fuel as [|f IH]; intros cur hs ps H; [discriminate|]. cbn [evaluate] in H. fold start in H.
  destruct (scan minus_one compl cur pairs start) as [r| | |] eqn:E; cbn [bind] in H; try discriminate.
  destruct (round_spec pairs cur r Hp E) as [[E1 N]|[E1 (p & B & E2 & E3)]].
  - rewrite E1 in H. cbn in H. injection H as <- <-. now constructor.
  - replace (best_next r =? -1) with false in H by lia.
    destruct (evaluate minus_one compl pairs f (best_next r)) as [[hs' ps']| | |] eqn:E4; cbn [bind fst snd] in H; try discriminate.
    injection H as <- <-. rewrite E3. constructor; [auto|]. rewrite <- E2. auto.
Qed.

Lemma scan_total cur : forall ps r, (forall p, In p ps -> (h_id p < length compl)%nat) ->
  exists r', scan minus_one compl cur ps r = Ok r'.
Proof.
  induction ps as [|p ps IH]; intros r Hp; cbn [scan]; [eauto|].
  assert (Hp' : forall p, In p ps -> (h_id p < length compl)%nat) by (intros; apply Hp; right; auto).
  destruct (_ =? _); [|auto]. destruct (nth_error compl (h_id p)) as [[T|]|] eqn:E; auto.
  - destruct (_ || _); auto.
  - apply nth_error_None in E. specialize (Hp p (or_introl eq_refl)). lia.
Qed.

Lemma evaluate_terminates pairs :
  (forall p, In p pairs -> (h_id p < length compl)%nat) ->
  (forall p, In p pairs -> 0 <= h_false p < h_true p) ->
  forall cur, exists fuel h, evaluate minus_one compl pairs fuel cur = Ok h.
Proof.
  intros Hi Ho. set (M := fold_right Z.max 0 (map h_true pairs)).
  assert (HM : forall p, In p pairs -> h_true p <= M).
  { intros p Hp. unfold M. clear - Hp. induction pairs as [|q l IH]; [destruct Hp|]. cbn. destruct Hp as [->|Hp]; [lia|]. specialize (IH Hp). lia. }
  assert (HP : forall p, In p pairs -> 0 <= h_true p) by (intros p Hp; specialize (Ho p Hp); lia).
  assert (X : forall n cur, M - cur <= Z.of_nat n -> exists h, evaluate minus_one compl pairs (S n) cur = Ok h).
  { induction n as [|n IH]; intros cur Hn.
    - cbn [evaluate]. destruct (scan_total cur pairs start Hi) as (r & E). fold start. rewrite E. cbn [bind].
      destruct (round_spec pairs cur r HP E) as [[-> _]|[_ (p & [F (T & [Hin _] & _)] & _)]]; [cbn; eauto|].
      specialize (HM p Hin). specialize (Ho p Hin). lia.
    - remember (S n) as n1. cbn [evaluate]. subst n1. destruct (scan_total cur pairs start Hi) as (r & E). fold start. rewrite E. cbn [bind].
      destruct (round_spec pairs cur r HP E) as [[-> _]|[E1 (p & [F (T & [Hin _] & _)] & E2 & _)]]; [cbn; eauto|].
      replace (best_next r =? -1) with false by lia. specialize (Ho p Hin).
      destruct (IH (best_next r)) as (h & ->); [lia|]. cbn. eauto. }
  intro cur. exists (S (Z.to_nat (M - cur))). apply X. lia.
Qed.
End H.

(** ** the printed history determines the history *)
Definition is_digit (c : ascii) : bool := let n := nat_of_ascii c in (48 <=? n)%nat && (n <=? 57)%nat.

Lemma s2l_inj a b : s2l a = s2l b -> a = b.
Proof. intro H. rewrite <- (string_of_list_ascii_of_string a), <- (string_of_list_ascii_of_string b). unfold s2l in H. now rewrite H. Qed.

Lemma uint_digits d : Forall (fun c => is_digit c = true) (s2l (NilEmpty.string_of_uint d)).
Proof. induction d; cbn; constructor; auto. Qed.
Lemma to_string_digits n : Forall (fun c => is_digit c = true) (to_string n).
Proof. unfold to_string, NilZero.string_of_uint. destruct (Nat.to_uint n) eqn:E; try rewrite <- E; try apply uint_digits. repeat constructor. Qed.

Lemma to_uint_not_nil n : Nat.to_uint n <> Decimal.Nil.
Proof. intro H. pose proof (DecimalNat.Unsigned.of_to n) as E. rewrite H in E. cbn in E. subst n. discriminate. Qed.

Lemma to_string_inj a b : to_string a = to_string b -> a = b.
Proof.
  intro H. apply s2l_inj in H. apply (f_equal NilZero.uint_of_string) in H.
  rewrite !NilZero.usu in H by apply to_uint_not_nil. injection H as H. now apply DecimalNat.Unsigned.to_uint_inj.
Qed.

Lemma digits_split a : forall b r s, Forall (fun c => is_digit c = true) a -> Forall (fun c => is_digit c = true) b ->
  (match r with [] => True | c :: _ => is_digit c = false end) -> (match s with [] => True | c :: _ => is_digit c = false end) ->
  a ++ r = b ++ s -> a = b /\ r = s.
Proof.
  induction a as [|x a IH]; intros [|y b] r s Ha Hb Hr Hs H; cbn in H; auto.
  - subst r. inversion Hb; subst. congruence.
  - subst s. inversion Ha; subst. congruence.
  - injection H as <- H. inversion Ha; subst. inversion Hb; subst. destruct (IH b r s) as [-> ->]; auto.
Qed.

Lemma rest_head ids ps : match render_rest ids ps with [] => True | c :: _ => is_digit c = false end.
Proof. destruct ids, ps; cbn; auto. Qed.

Lemma render_rest_inj ids : forall ps ids' ps', length ids = length ps -> length ids' = length ps' ->
  render_rest ids ps = render_rest ids' ps' -> ids = ids' /\ ps = ps'.
Proof.
  induction ids as [|i ids IH]; intros [|p ps] [|i' ids'] [|p' ps'] L L' H; cbn in L, L'; try discriminate; auto.
  cbn [render_rest] in H. cbn [s2l list_ascii_of_string app] in H. injection H as H.
  apply digits_split in H as [E1 H1]; [|apply to_string_digits|apply to_string_digits|reflexivity|reflexivity].
  apply to_string_inj in E1. subst p'. injection H1 as H1.
  destruct (digits_split (to_string i) (to_string i') _ _ (to_string_digits i) (to_string_digits i') (rest_head _ _) (rest_head _ _) H1) as [E2 H2].
  apply to_string_inj in E2. subst i'. destruct (IH ps ids' ps') as [-> ->]; auto.
Qed.

Lemma render_inj ids ps ids' ps' : length ids = S (length ps) -> length ids' = S (length ps') ->
  render ids ps = render ids' ps' -> ids = ids' /\ ps = ps'.
Proof.
  destruct ids as [|i ids], ids' as [|i' ids']; cbn; try discriminate. intros L L' H. injection L as L. injection L' as L'.
  destruct (digits_split (to_string i) (to_string i') _ _ (to_string_digits i) (to_string_digits i') (rest_head _ _) (rest_head _ _) H) as [E2 H2].
  apply to_string_inj in E2. subst i'. destruct (render_rest_inj ids ps ids' ps' L L' H2) as [-> ->]. auto.
Qed.

Lemma render_printed : forall ids ps, length ids = S (length ps) ->
  printed to_string ids ps (render ids ps).
Proof.
  induction ids as [|i ids IH]; intros ps H; [discriminate|].
  destruct ids as [|j ids], ps as [|q ps]; cbn in H; try discriminate.
  - cbn [render render_rest]. rewrite app_nil_r. constructor.
  - change (render (i :: j :: ids) (q :: ps)) with (to_string i ++ s2l "-(" ++ to_string q ++ s2l ")->" ++ render (j :: ids) ps).
    constructor. apply IH. cbn. lia.
Qed.
