(** Vev conversion, list-level statements about the potential, checks on vevs. *)
From Coq Require Import Reals Lra Lia ZArith List FunctionalExtensionality Sorted.
From Verif.Model Require Import Base Potential.
From Verif.Spec Require Import NumDerivSpec PotentialSpec.
From Verif.Proofs Require Import DerivLib NumDerivProofs PotentialProofs.
Import ListNotations.
Open Scope R_scope.

(** ** the potential on lists *)
Lemma moved_length v i t : (i < length v)%nat -> length (moved v i t) = length v.
Proof. intro H. unfold moved. rewrite app_length. cbn [length]. rewrite firstn_length, skipn_length. lia. Qed.
Lemma nth_moved v i t k : (i < length v)%nat -> nth k (moved v i t) 0 = u (fun k => nth k v 0) i t k.
Proof.
  intro H. unfold moved, u. assert (LF : length (firstn i v) = i) by (rewrite firstn_length; lia).
  destruct (Nat.eq_dec k i) as [->|N].
  - rewrite app_nth2, LF by lia. now rewrite Nat.sub_diag.
  - destruct (Nat.lt_ge_cases k i) as [Lt|Ge].
    + rewrite app_nth1 by lia. rewrite <- (firstn_skipn i v) at 2. now rewrite app_nth1 by lia.
    + rewrite app_nth2, LF by lia. replace (k - i)%nat with (S (k - S i)) by lia. cbn [nth].
      rewrite <- (firstn_skipn (S i) v) at 2. rewrite app_nth2; rewrite firstn_length; [f_equal; lia|lia].
Qed.
Lemma moved_fun v i t : (i < length v)%nat -> (fun k => nth k (moved v i t) 0) = u (fun k => nth k v 0) i t.
Proof. intro H. apply functional_extensionality. intro k. now apply nth_moved. Qed.
Lemma ltb_len (v : list R) n : length v = n -> Nat.ltb (length v) n = false.
Proof. intros <-. apply Nat.ltb_irrefl. Qed.
Lemma diff_index i n : (i < n)%nat ->
  Z.eqb (Z.of_nat (S i)) 0 = false /\ (Z.ltb 0 (Z.of_nat (S i)) && Z.leb (Z.of_nat (S i)) (Z.of_nat n))%bool = true /\
  Z.to_nat (Z.of_nat (S i) - 1) = i.
Proof.
  intro H. split; [apply Z.eqb_neq; lia|]. split; [|lia]. apply andb_true_intro. split; [apply Z.ltb_lt; lia|apply Z.leb_le; lia].
Qed.

Section Lists.
  Variable n : nat.
  Variables (L1 : nat -> R) (L2 : nat -> nat -> R) (L3 : nat -> nat -> nat -> R) (L4 : nat -> nat -> nat -> nat -> R).
  Variable Debye : nat -> nat -> R.
  Notation W v := (fun k => nth k v 0).
  Notation VT := (VTree n L1 L2 L3 L4).
  Notation CT := (CounterTerm n L1 L2 L3 L4).
  Notation HM := (HiggsMassMatrix n L2 L3 L4 Debye).
  Lemma VTree0 v : length v = n -> VT v 0 = Ok (quartic n L1 L2 L3 L4 (W v)).
  Proof. intro E. unfold VTree. cbn [Z.eqb]. rewrite ltb_len by exact E. now rewrite VTree_quartic. Qed.
  Lemma CT0 v : length v = n -> CT v 0 = Ok (quartic n L1 L2 L3 L4 (W v)).
  Proof. intro E. unfold CounterTerm. cbn [Z.eqb]. rewrite ltb_len by exact E. now rewrite CT_quartic. Qed.
  Lemma VTree1 v i : length v = n -> (i < n)%nat -> VT v (Z.of_nat (S i)) = Ok (grad n L1 L2 L3 L4 (W v) i).
  Proof.
    intros E H. unfold VTree. destruct (diff_index i n H) as (-> & -> & ->). rewrite ltb_len by exact E. now rewrite gradient_sum.
  Qed.
  Lemma CT1 v i : length v = n -> (i < n)%nat -> CT v (Z.of_nat (S i)) = Ok (grad n L1 L2 L3 L4 (W v) i).
  Proof.
    intros E H. unfold CounterTerm. destruct (diff_index i n H) as (-> & -> & ->). rewrite ltb_len by exact E. now rewrite gradient_sum.
  Qed.
  Lemma HM0 v T : length v = n -> HM v T 0 = Ok (fun i j =>
    let up i j := hess n L2 L3 L4 (W v) i j + (if Req_EM_T T 0 then 0 else Debye i j * T ^ 2) in if Nat.leb i j then up i j else up j i).
  Proof.
    intro E. unfold HiggsMassMatrix. rewrite E, Nat.eqb_refl. cbn [negb Z.eqb]. f_equal.
    apply functional_extensionality. intro i. apply functional_extensionality. intro j. rewrite !hessian_sum. reflexivity.
  Qed.
  Hypothesis S2 : sym2 n L2.
  Hypothesis S3 : sym3 n L3.
  Hypothesis S4 : sym4 n L4.
  Variables (v : list R) (i : nat).
  Hypothesis Hv : length v = n.
  Hypothesis Hi : (i < n)%nat.
  Lemma tree_gradient : exists d, VT v (Z.of_nat (S i)) = Ok d /\ partial_derivative Ok (fun w => VT w 0) v i d.
  Proof.
    eexists. split; [now apply VTree1|]. eexists. split.
    - intro t. rewrite VTree0 by (rewrite moved_length; congruence || lia). rewrite moved_fun by lia. reflexivity.
    - cbv beta. now apply (quartic_derivative n L1 L2 L3 L4 (W v) i).
  Qed.
  Lemma ct_gradient : exists d, CT v (Z.of_nat (S i)) = Ok d /\ partial_derivative Ok (fun w => CT w 0) v i d.
  Proof.
    eexists. split; [now apply CT1|]. eexists. split.
    - intro t. rewrite CT0 by (rewrite moved_length; congruence || lia). rewrite moved_fun by lia. reflexivity.
    - cbv beta. now apply (quartic_derivative n L1 L2 L3 L4 (W v) i).
  Qed.
  Lemma hess_is_derivative j : (j < n)%nat -> partial_derivative Ok (fun w => VT w (Z.of_nat (S i))) v j (hess n L2 L3 L4 (W v) i j).
  Proof.
    intro Hj. eexists. split.
    - intro t. rewrite VTree1 by (rewrite ?moved_length; congruence || lia). rewrite moved_fun by lia. reflexivity.
    - cbv beta. now apply (grad_derivative n L1 L2 L3 L4 (W v) j).
  Qed.
  Lemma ct_hess_is_derivative j : (j < n)%nat -> partial_derivative Ok (fun w => CT w (Z.of_nat (S i))) v j (hess n L2 L3 L4 (W v) i j).
  Proof.
    intro Hj. eexists. split.
    - intro t. rewrite CT1 by (rewrite ?moved_length; congruence || lia). rewrite moved_fun by lia. reflexivity.
    - cbv beta. now apply (grad_derivative n L1 L2 L3 L4 (W v) j).
  Qed.
End Lists.

Section Mass.
  Variable n : nat.
  Variables (L1 : nat -> R) (L2 : nat -> nat -> R) (L3 : nat -> nat -> nat -> R) (L4 : nat -> nat -> nat -> nat -> R).
  Variable Debye : nat -> nat -> R.
  Notation W v := (fun k => nth k v 0).
  Notation VT := (VTree n L1 L2 L3 L4).
  Notation CT := (CounterTerm n L1 L2 L3 L4).
  Notation HM := (HiggsMassMatrix n L2 L3 L4 Debye).
  Hypothesis S2 : sym2 n L2.
  Hypothesis S3 : sym3 n L3.
  Hypothesis S4 : sym4 n L4.
  Variable v : list R.
  Hypothesis Hv : length v = n.
  Lemma mass_is_hessian : exists M, HM v 0 0 = Ok M /\ forall i j, (i < n)%nat -> (j < n)%nat ->
    M i j = M j i /\ partial_derivative Ok (fun w => VT w (Z.of_nat (S i))) v j (M i j).
  Proof.
    eexists. split; [now apply HM0|]. intros i j Hi Hj. cbv beta zeta.
    destruct (Req_EM_T 0 0) as [_|N]; [|contradiction]. rewrite !Rplus_0_r.
    assert (E : hess n L2 L3 L4 (W v) i j = hess n L2 L3 L4 (W v) j i) by (now apply hess_sym).
    assert (D := hess_is_derivative n L1 L2 L3 L4 S3 S4 v i Hv Hi j Hj).
    destruct (Nat.leb_spec i j), (Nat.leb_spec j i); rewrite <- ?E; split; auto.
  Qed.
  Definition entry (M : outcome (nat -> nat -> R)) (i j : nat) : option R := match M with Ok m => Some (m i j) | _ => None end.
  Lemma mass_field_derivative T m : (m < n)%nat -> exists M3, HM v T (Z.of_nat (S m)) = Ok M3 /\
    forall i j, (i < n)%nat -> (j < n)%nat -> partial_derivative Some (fun w => entry (HM w T 0) i j) v m (M3 i j).
  Proof.
    intro Hm. eexists. split.
    - unfold HiggsMassMatrix. rewrite Hv, Nat.eqb_refl. cbn [negb]. destruct (diff_index m n Hm) as (-> & -> & ->). reflexivity.
    - intros i j Hi Hj. cbv beta. rewrite (accum_sum n _ (fun k => L4 i j m k * nth k v 0)) by (intros; ring).
      eexists. split.
      + intro t. rewrite HM0 by (rewrite moved_length; congruence || lia). rewrite moved_fun by lia. cbn [entry]. reflexivity.
      + cbv beta zeta. pose proof (hess_derivative n L2 L3 L4 (W v) m Hm S4 i j Hi Hj) as D1.
        pose proof (hess_derivative n L2 L3 L4 (W v) m Hm S4 j i Hj Hi) as D2. cbv beta in D1, D2. unfold third in D1, D2.
        destruct (Nat.leb i j).
        * eapply dl_eq; [apply dl_plus; [exact D1|apply dl_const]|]. ring.
        * eapply dl_eq; [apply dl_plus; [exact D2|apply dl_const]|]. rewrite Rplus_0_r.
          destruct (S3 j i m Hj Hi Hm) as [-> _]. f_equal. apply sumR_ext. intros k Hk. destruct (S4 j i m k Hj Hi Hm Hk) as [-> _]. reflexivity.
  Qed.
  Lemma mass_T_derivative T : (forall i j, (i < n)%nat -> (j < n)%nat -> Debye i j = Debye j i) ->
    exists MT, HM v T (-1) = Ok MT /\
    forall i j, (i < n)%nat -> (j < n)%nat -> exists g, (forall t, entry (HM v t 0) i j = Some (g t)) /\ derivable_pt_lim g T (MT i j).
  Proof.
    intro SD. eexists. split.
    - unfold HiggsMassMatrix. rewrite Hv, Nat.eqb_refl. cbn [negb Z.eqb Pos.eqb Z.ltb Z.compare andb]. reflexivity.
    - intros i j Hi Hj. cbv beta. exists (fun t => hess n L2 L3 L4 (W v) (Nat.min i j) (Nat.max i j) + Debye i j * t ^ 2). split.
      + intro t. rewrite HM0 by exact Hv. cbn [entry]. f_equal. cbv zeta.
        assert (Z : (if Req_EM_T t 0 then 0 else Debye i j * t ^ 2) = Debye i j * t ^ 2) by (destruct (Req_EM_T t 0) as [->|]; ring).
        destruct (Nat.leb_spec i j).
        * rewrite Nat.min_l, Nat.max_r by lia. now rewrite Z.
        * rewrite Nat.min_r, Nat.max_l by lia. rewrite (SD j i Hj Hi). now rewrite Z.
      + eapply dl_eq; [dlauto|]. cbn [pred INR]. ring.
  Qed.
  Lemma nabla_ct : exists g, NablaVCT n L1 L2 L3 L4 v = Ok g /\ forall i, (i < n)%nat ->
    CT v (Z.of_nat (S i)) = Ok (g i) /\ partial_derivative Ok (fun w => CT w 0) v i (g i).
  Proof.
    eexists. split; [unfold NablaVCT; rewrite ltb_len by exact Hv; reflexivity|]. intros i Hi. rewrite gradient_sum.
    destruct (ct_gradient n L1 L2 L3 L4 S2 S3 S4 v i Hv Hi) as (d & E & D). rewrite CT1 in E by assumption. injection E as E.
    rewrite E. split; [|exact D]. rewrite CT1 by assumption. now rewrite E.
  Qed.
  Lemma hessian_ct : exists H, HessianCT n L2 L3 L4 v = Ok H /\ forall i j, (i < n)%nat -> (j < n)%nat ->
    H i j = H j i /\ partial_derivative Ok (fun w => CT w (Z.of_nat (S i))) v j (H i j).
  Proof.
    eexists. split; [unfold HessianCT; rewrite ltb_len by exact Hv; reflexivity|]. intros i j Hi Hj. rewrite !hessian_sum. split.
    - now apply hess_sym.
    - now apply ct_hess_is_derivative.
  Qed.
End Mass.

(** ** vev conversion *)
Section Ord.
  Context {A : Type}.
  Variable zero : A.
  Fixpoint fill (rest i : nat) (os : list nat) (vs : list A) : list A :=
    match rest with
    | O => []
    | S r => match os, vs with
             | o :: os', x :: vs' => if Nat.eqb i o then x :: fill r (S i) os' vs' else zero :: fill r (S i) os vs
             | _, _ => zero :: fill r (S i) os vs
             end
    end.
  Lemma nth_skipn_hd {B} (l : list B) c : nth_error l c = hd_error (skipn c l).
  Proof. revert c. induction l as [|x l IH]; intros [|c]; try reflexivity. cbn. apply IH. Qed.
  Lemma skipn_S_tl {B} (l : list B) c x r : skipn c l = x :: r -> skipn (S c) l = r.
  Proof.
    revert c. induction l as [|y l IH]; intros [|c] E; try discriminate; cbn in *.
    - injection E as <- <-. reflexivity.
    - exact (IH c E).
  Qed.
  Definition range_sorted (i rest : nat) (os : list nat) : Prop := StronglySorted lt os /\ Forall (fun o => (i <= o < i + rest)%nat) os.
  Lemma order_loop_fill VevOrder vev : forall rest i count acc os vs,
    skipn count VevOrder = os -> skipn count vev = vs -> length vs = length os -> range_sorted i rest os ->
    order_loop zero VevOrder vev rest i count acc =
      if (Nat.eqb rest 0 || existsb (Nat.eqb (i + rest - 1)) os)%bool then Ok (acc ++ fill rest i os vs) else UB.
  Proof.
    induction rest as [|r IH]; intros i count acc os vs EO EV LE [SO FO]; cbn [order_loop].
    - cbn. now rewrite app_nil_r.
    - rewrite nth_skipn_hd, EO. destruct os as [|o os]; cbn [hd_error].
      + reflexivity.
      + destruct vs as [|x vs]; [discriminate LE|]. rewrite nth_skipn_hd, EV. cbn [hd_error Nat.eqb orb existsb fill].
        apply Forall_inv in FO as O1. apply Forall_inv_tail in FO as FO'. inversion SO as [|? ? SO' FL]; subst.
        destruct (Nat.eqb_spec i o) as [->|N].
        * assert (R : range_sorted (S o) r os).
          { split; [exact SO'|]. rewrite Forall_forall in *. intros y Y. specialize (FL y Y). specialize (FO' y Y). lia. }
          rewrite (IH (S o) (S count) (acc ++ [x]) os vs (skipn_S_tl _ _ _ _ EO) (skipn_S_tl _ _ _ _ EV) ltac:(cbn in LE; lia) R).
          rewrite <- app_assoc. cbn [app].
          replace (S o + r - 1)%nat with (o + S r - 1)%nat by lia.
          destruct r as [|r].
          -- replace (o + 1 - 1)%nat with o by lia. cbn [Nat.eqb orb fill]. rewrite Nat.eqb_refl. reflexivity.
          -- cbn [Nat.eqb orb]. destruct (Nat.eqb_spec (o + S (S r) - 1) o); [lia|]. cbn [orb]. reflexivity.
        * assert (R : range_sorted (S i) r (o :: os)).
          { split; [exact SO|]. rewrite Forall_forall in *. intros y Y. destruct Y as [<-|Y]; [lia|]. specialize (FL y Y). specialize (FO' y Y). lia. }
          rewrite (IH (S i) count (acc ++ [zero]) (o :: os) (x :: vs) EO EV LE R).
          rewrite <- app_assoc. cbn [app]. replace (S i + r - 1)%nat with (i + S r - 1)%nat by lia.
          destruct r as [|r]; [lia|]. cbn [Nat.eqb orb existsb]. reflexivity.
  Qed.
  Lemma fill_length : forall rest i os vs, length (fill rest i os vs) = rest.
  Proof.
    induction rest as [|r IH]; intros i os vs; [reflexivity|]. cbn. destruct os as [|o os]; [cbn; now rewrite IH|].
    destruct vs as [|x vs]; [cbn; now rewrite IH|]. destruct (Nat.eqb i o); cbn; now rewrite IH.
  Qed.
  Lemma fill_at : forall rest i os vs, length vs = length os -> range_sorted i rest os ->
    (forall k o, nth_error os k = Some o -> nth_error (fill rest i os vs) (o - i) = nth_error vs k) /\
    (forall p, (p < rest)%nat -> ~ In (i + p)%nat os -> nth_error (fill rest i os vs) p = Some zero).
  Proof.
    induction rest as [|r IH]; intros i os vs LE [SO FO].
    - destruct os as [|o os]; [|apply Forall_inv in FO; lia]. split; [intros [|k] o; discriminate|lia].
    - destruct os as [|o os].
      + destruct vs; [|discriminate LE]. split; [intros [|k] o; discriminate|].
        intros [|p] Hp N; [reflexivity|]. cbn [fill nth_error]. apply (IH (S i) [] []); [reflexivity|split; constructor|lia|intros []].
      + destruct vs as [|x vs]; [discriminate LE|]. cbn [fill].
        apply Forall_inv in FO as O1. apply Forall_inv_tail in FO as FO'. inversion SO as [|? ? SO' FL]; subst.
        rewrite Forall_forall in FO', FL.
        destruct (Nat.eqb_spec i o) as [->|N].
        * assert (R : range_sorted (S o) r os).
          { split; [exact SO'|]. apply Forall_forall. intros y Y. specialize (FL y Y). specialize (FO' y Y). lia. }
          destruct (IH (S o) os vs ltac:(cbn in LE; lia) R) as [I1 I2]. split.
          -- intros [|k] o' E; cbn [nth_error] in E.
             ++ injection E as <-. rewrite Nat.sub_diag. reflexivity.
             ++ specialize (I1 k o' E). apply nth_error_In in E. specialize (FL o' E).
                replace (o' - o)%nat with (S (o' - S o)) by lia. exact I1.
          -- intros [|p] Hp NI; [destruct NI; left; lia|]. cbn [nth_error]. apply I2; [lia|]. intro J. apply NI. right.
             now replace (o + S p)%nat with (S o + p)%nat by lia.
        * assert (R : range_sorted (S i) r (o :: os)).
          { split; [exact SO|]. apply Forall_forall. intros y [<-|Y]; [lia|]. specialize (FL y Y). specialize (FO' y Y). lia. }
          destruct (IH (S i) (o :: os) (x :: vs) LE R) as [I1 I2]. split.
          -- intros k o' E. specialize (I1 k o' E). apply nth_error_In in E.
             assert (S i <= o')%nat by (destruct E as [<-|E]; [lia|]; specialize (FL o' E); lia).
             replace (o' - i)%nat with (S (o' - S i)) by lia. exact I1.
          -- intros [|p] Hp NI; [reflexivity|]. cbn [nth_error]. apply I2; [lia|]. now replace (S i + p)%nat with (i + S p)%nat by lia.
  Qed.
  Lemma order_spec n order (v : list A) : length v = length order -> StronglySorted lt order -> Forall (fun o => (o < n)%nat) order -> (0 < n)%nat ->
    (In (n - 1)%nat order -> exists w, MinimizeOrderVEV zero order v n = Ok w /\ placed zero n order v w) /\
    (~ In (n - 1)%nat order -> MinimizeOrderVEV zero order v n = UB).
  Proof.
    intros LE SO FO P. assert (R : range_sorted 0 n order).
    { split; [exact SO|]. eapply Forall_impl; [|exact FO]. cbn. intros. lia. }
    unfold MinimizeOrderVEV. rewrite (order_loop_fill order v n 0 0 [] order v eq_refl eq_refl LE R).
    destruct (Nat.eqb_spec n 0); [lia|]. cbn [orb plus]. split; intro I.
    - assert (E : existsb (Nat.eqb (n - 1)) order = true) by (apply existsb_exists; exists (n - 1)%nat; split; [exact I|apply Nat.eqb_refl]).
      rewrite E. exists (fill n 0 order v). split; [reflexivity|]. destruct (fill_at n 0 order v LE R) as [F1 F2].
      split; [apply fill_length|]. split.
      + intros k o E2. rewrite <- (F1 k o E2). now rewrite Nat.sub_0_r.
      + intros i Hi N. now apply F2.
    - destruct (existsb _ _) eqn:E; [|reflexivity]. apply existsb_exists in E as (x & J & K). apply Nat.eqb_eq in K. subst x. contradiction.
  Qed.
End Ord.

(** ** SetEWVEVZero *)
Lemma skipn_1_skipn {B} (l : list B) c : skipn 1 (skipn c l) = skipn (S c) l.
Proof. revert c. induction l as [|x l IH]; intros [|c]; try reflexivity. exact (IH c). Qed.
Section EW.
  Variable charged : nat -> bool.
  Variable order : list nat.
  Variable sol : list R.
  Variable m : nat.
  Hypothesis LE : length sol = length order.
  Hypothesis SO : StronglySorted lt order.
  Hypothesis Hm : (m <= length order)%nat.
  Hypothesis C1 : forall k o, (k < m)%nat -> nth_error order k = Some o -> charged o = true.
  Hypothesis C2 : forall k o, (m <= k)%nat -> nth_error order k = Some o -> charged o = false.
  Lemma zero_step count : (count < length sol)%nat ->
    firstn count (repeat 0 count ++ skipn count sol) ++ 0 :: skipn (S count) (repeat 0 count ++ skipn count sol) = repeat 0 (S count) ++ skipn (S count) sol.
  Proof.
    intro H. rewrite firstn_app, repeat_length, Nat.sub_diag, firstn_O, app_nil_r.
    rewrite firstn_all2 by (rewrite repeat_length; lia).
    rewrite skipn_app, repeat_length. rewrite skipn_all2 by (rewrite repeat_length; lia). cbn [app].
    replace (S count - count)%nat with 1%nat by lia. change (repeat 0 (S count)) with (0 :: repeat 0 count). rewrite repeat_cons, <- app_assoc. cbn [app]. f_equal. f_equal.
    apply skipn_1_skipn.
  Qed.
  Lemma sorted_nth : forall k l a b, (k < l)%nat -> nth_error order k = Some a -> nth_error order l = Some b -> (a < b)%nat.
  Proof.
    clear -SO. induction SO as [|x r S1 IH F]; intros [|k] [|l] a b K A B; try lia; try discriminate; cbn in *.
    - injection A as <-. rewrite Forall_forall in F. apply F. now apply nth_error_In with l.
    - eapply (IH S1 k l); [lia|exact A|exact B].
  Qed.
  Hypothesis SAFE : (m < length order)%nat \/ forall i, charged i = true -> exists o, In o order /\ (i <= o)%nat.
  Lemma ewzero_ok : forall rest i count,
    (count <= m)%nat ->
    (forall k o, (k < count)%nat -> nth_error order k = Some o -> (o < i)%nat) ->
    (forall k o, (count <= k < m)%nat -> nth_error order k = Some o -> (i <= o < i + rest)%nat) ->
    ewzero_loop charged order rest i count (repeat 0 count ++ skipn count sol) = Ok (repeat 0 m ++ skipn m sol).
  Proof.
    induction rest as [|r IH]; intros i count CM B1 B2; cbn [ewzero_loop].
    - assert (count = m) as ->; [|reflexivity]. destruct (Nat.eq_dec count m) as [|N]; [assumption|exfalso].
      destruct (nth_error order count) as [o|] eqn:E; [specialize (B2 count o ltac:(lia) E); lia|]. apply nth_error_None in E. lia.
    - assert (STEP : forall o, nth_error order count = Some o -> (count < m)%nat -> i <> o -> forall k o', (count <= k < m)%nat -> nth_error order k = Some o' -> (S i <= o' < S i + r)%nat).
      { intros o E LT NE k o' K E'. specialize (B2 k o' K E') as B. assert (o' <> i); [|lia]. intros ->.
        destruct (Nat.eq_dec k count) as [->|NK]; [congruence|]. specialize (B2 count o ltac:(lia) E).
        pose proof (sorted_nth count k o i ltac:(lia) E E'). lia. }
      destruct (charged i) eqn:CI.
      + destruct (nth_error order count) as [o|] eqn:E.
        * destruct (Nat.eqb_spec i o) as [->|NE].
          -- assert (LT : (count < m)%nat). { destruct (Nat.lt_ge_cases count m); [assumption|]. rewrite (C2 count o) in CI by assumption. discriminate. }
             assert (LS : (count < length sol)%nat) by lia.
             assert (LB : Nat.ltb count (length (repeat 0 count ++ skipn count sol)) = true).
             { apply Nat.ltb_lt. rewrite app_length, repeat_length, skipn_length. lia. }
             rewrite LB, zero_step by exact LS. apply IH; [lia| |].
             ++ intros k o' K E'. destruct (Nat.eq_dec k count) as [->|N]; [rewrite E in E'; injection E' as <-; lia|].
                specialize (B1 k o' ltac:(lia) E'). lia.
             ++ intros k o' K E'. specialize (B2 k o' ltac:(lia) E'). pose proof (sorted_nth count k o o' ltac:(lia) E E'). lia.
          -- apply IH; [exact CM|intros k o' K E'; specialize (B1 k o' K E'); lia|].
             intros k o' K E'. apply (STEP o eq_refl) with k; [lia|exact NE|lia|exact E'].
        * apply nth_error_None in E. exfalso. destruct SAFE as [S1|S1]; [lia|]. destruct (S1 i CI) as (o & I & J).
          apply In_nth_error in I as (k & E'). assert (k < length order)%nat by (apply nth_error_Some; congruence).
          specialize (B1 k o ltac:(lia) E'). lia.
      + apply IH; [exact CM|intros k o' K E'; specialize (B1 k o' K E'); lia|].
        intros k o' K E'. specialize (B2 k o' K E') as B. assert (o' <> i); [|lia]. intros ->. rewrite (C1 k i) in CI by (lia || assumption). discriminate.
  Qed.
End EW.
Fixpoint prefix_len (charged : nat -> bool) (order : list nat) : nat :=
  match order with [] => O | o :: r => if charged o then S (prefix_len charged r) else O end.
Lemma prefix_len_spec charged order : coupled_first charged order ->
  let m := prefix_len charged order in
  (m <= length order)%nat /\ (forall k o, (k < m)%nat -> nth_error order k = Some o -> charged o = true) /\
  (forall k o, (m <= k)%nat -> nth_error order k = Some o -> charged o = false).
Proof.
  cbv zeta. induction order as [|x r IH]; intro CF; cbn [prefix_len].
  - split; [cbn; lia|]. split; intros [|k] o; discriminate || (cbn; lia) || idtac; discriminate.
  - assert (CF' : coupled_first charged r) by (intros k l a b K A B; apply (CF (S k) (S l)); [lia|exact A|exact B]).
    destruct (IH CF') as (I1 & I2 & I3). destruct (charged x) eqn:CX.
    + split; [cbn; lia|]. split.
      * intros [|k] o K E; cbn in E; [congruence|]. apply (I2 k o); [lia|exact E].
      * intros [|k] o K E; [lia|]. apply (I3 k o); [lia|exact E].
    + split; [cbn; lia|]. split; [lia|]. intros [|k] o K E; cbn in E; [congruence|].
      destruct (charged o) eqn:CO; [|reflexivity]. specialize (CF 0%nat (S k) x o ltac:(lia) eq_refl E CO). congruence.
Qed.
Lemma nth_error_repeat0 k m (x : R) : (k < m)%nat -> nth_error (repeat x m) k = Some x.
Proof. revert k. induction m as [|m IH]; intros [|k] H; try lia; [reflexivity|]. cbn. apply IH. lia. Qed.
Lemma nth_error_skipn' {B} (l : list B) m k : nth_error (skipn m l) k = nth_error l (m + k).
Proof. revert l. induction m as [|m IH]; intro l; [reflexivity|]. destruct l as [|x l]; [now destruct k|]. cbn. apply IH. Qed.
Lemma ewzero_spec charged order n sol : length sol = length order -> StronglySorted lt order -> Forall (fun o => (o < n)%nat) order ->
  coupled_first charged order ->
  ((exists o, In o order /\ charged o = false) \/ (forall i, charged i = true -> exists o, In o order /\ (i <= o)%nat)) ->
  exists sol', SetEWVEVZero charged order n sol = Ok sol' /\ ew_zeroed charged order sol sol'.
Proof.
  intros LE SO FO CF SAFE. destruct (prefix_len_spec charged order CF) as (M1 & M2 & M3). set (m := prefix_len charged order) in *.
  exists (repeat 0 m ++ skipn m sol). split.
  - unfold SetEWVEVZero. apply (ewzero_ok charged order sol m LE SO M1 M2 M3) with (count := 0%nat) (i := 0%nat); [|lia|intros; lia|].
    + destruct SAFE as [(o & I & F)|S1]; [left|now right]. destruct (Nat.eq_dec m (length order)) as [E|N]; [|lia].
      apply In_nth_error in I as (k & E'). assert (k < length order)%nat by (apply nth_error_Some; congruence).
      rewrite (M2 k o) in F by (lia || assumption). discriminate.
    + intros k o K E. apply nth_error_In in E. rewrite Forall_forall in FO. specialize (FO o E). lia.
  - split; [rewrite app_length, repeat_length, skipn_length; lia|]. intros k o E.
    assert (k < length order)%nat by (apply nth_error_Some; congruence).
    destruct (Nat.lt_ge_cases k m) as [Lt|Ge].
    + rewrite (M2 k o Lt E). rewrite nth_error_app1 by (rewrite repeat_length; lia). now apply nth_error_repeat0.
    + rewrite (M3 k o Ge E). rewrite nth_error_app2; rewrite repeat_length; [|lia]. rewrite nth_error_skipn'. f_equal. lia.
Qed.

(** ** CheckNLOVEV *)
From Coq Require Import QArith Qabs Lqa.
Lemma max_diff_spec nV : forall i v t m, (forall k, (i <= k < i + nV)%nat -> (k < length v)%nat /\ (k < length t)%nat) ->
  exists m', max_diff nV i v t m = Ok m' /\
    ((m' < 1)%Q <-> (m < 1)%Q /\ forall k x y, (i <= k < i + nV)%nat -> nth_error v k = Some (Some x) -> nth_error t k = Some (Some y) -> (Qabs (Qabs x - Qabs y) < 1)%Q).
Proof.
  induction nV as [|nV IH]; intros i v t m H.
  - exists m. split; [reflexivity|]. split; [intro; split; [assumption|intros; lia]|tauto].
  - cbn [max_diff]. destruct (H i ltac:(lia)) as [H1 H2].
    destruct (nth_error v i) as [a|] eqn:EA; [|apply nth_error_None in EA; lia].
    destruct (nth_error t i) as [b|] eqn:EB; [|apply nth_error_None in EB; lia].
    match goal with |- context [max_diff nV (S i) v t ?mm] => destruct (IH (S i) v t mm) as (m' & E & I) end; [intros k K; apply H; lia|].
    exists m'. split; [exact E|]. rewrite I. clear I E IH. split.
    + intros [M F]. split.
      * destruct a as [x|], b as [y|]; try exact M. destruct (Qlt_le_dec m (Qabs (Qabs x - Qabs y))); lra.
      * intros k x y K X Y. destruct (Nat.eq_dec k i) as [->|N]; [|apply (F k); [lia|exact X|exact Y]].
        rewrite EA in X. rewrite EB in Y. injection X as ->. injection Y as ->. destruct (Qlt_le_dec m (Qabs (Qabs x - Qabs y))); lra.
    + intros [M F]. split; [|intros k x y K; apply F; lia].
      destruct a as [x|], b as [y|]; try exact M. specialize (F i x y ltac:(lia) EA EB). destruct (Qlt_le_dec m (Qabs (Qabs x - Qabs y))); lra.
Qed.
Lemma check_spec nV t v : (nV <= length v)%nat -> (nV <= length t)%nat -> exists b, CheckNLOVEV nV t v = Ok b /\
  (b = true <-> forall k x y, (k < nV)%nat -> nth_error v k = Some (Some x) -> nth_error t k = Some (Some y) -> (Qabs (Qabs x - Qabs y) < 1)%Q).
Proof.
  intros A B. destruct (max_diff_spec nV 0 v t 0) as (m & E & I); [intros; lia|]. unfold CheckNLOVEV. rewrite E. cbn [bind].
  eexists. split; [reflexivity|]. destruct (Qlt_le_dec m 1) as [L|G].
  - apply I in L. split; [|auto]. intros _ k x y K. apply (proj2 L). lia.
  - split; [discriminate|]. intro F. exfalso. assert (m < 1)%Q; [|lra]. apply I. split; [reflexivity|]. intros k x y K. apply F. lia.
Qed.
