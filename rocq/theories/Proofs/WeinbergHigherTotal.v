(** When the third and fourth derivatives are returned at all; light states. *)
From Coq Require Import Reals List Lra Lia Bool.
From Coquelicot Require Import Coquelicot.
From Verif Require Import Model.Base Model.Loop Model.LoopFour Model.EigenDeriv Model.Weinberg Model.WeinbergHigher Spec.WeinbergHigherSpec.
From Verif Require Import Proofs.EigenProofs Proofs.EigenBranch Proofs.WeinbergProofs Proofs.WeinbergHigherProofs Proofs.WeinbergHigherParts Proofs.WeinbergHigherRun Proofs.WeinbergHigherResult.
Import ListNotations.
Open Scope R_scope.
Local Notation value := WeinbergHigher.value.
Local Notation tri := WeinbergHigher.tri.
Local Notation four := WeinbergHigher.four.

Lemma LogM_some scale m : 0 <= m -> exists l, LogM scale m = Some l.
Proof.
  intros H. unfold LogM, lnopt. destruct (Req_EM_T m 0); [eexists; reflexivity|]. destruct (Rlt_dec 0 m); [|lra]. cbn. eexists; reflexivity.
Qed.
Lemma lnopt_some x : 0 < x -> lnopt x = Some (ln x).
Proof. intros H. unfold lnopt. destruct (Rlt_dec 0 x); [reflexivity|contradiction]. Qed.
Lemma snap0_nonneg m : 0 <= m -> 0 <= snap0 m.
Proof. unfold snap0. destruct (Rlt_dec _ _); lra. Qed.
Lemma snap_nonneg a b : 0 <= a -> 0 <= b -> 0 <= snap a b.
Proof. unfold snap. destruct (Rlt_dec _ _); lra. Qed.
Lemma snap0_4_nonneg m : 0 <= m -> 0 <= snap0_4 m.
Proof. unfold snap0_4. destruct (Rlt_dec _ _); lra. Qed.
Lemma snap4_nonneg a b : 0 <= a -> 0 <= b -> 0 <= snap4 a b.
Proof. unfold snap4. destruct (Rlt_dec _ _); lra. Qed.
Lemma is0_case m : is0 m = true /\ m = 0 \/ is0 m = false /\ m <> 0.
Proof. unfold is0. destruct (Req_EM_T m 0); [left|right]; split; trivial. Qed.
Lemma eqb_case a b : eqb a b = true /\ a = b \/ eqb a b = false /\ a <> b.
Proof. unfold eqb. destruct (Req_EM_T a b); [left|right]; split; trivial. Qed.
Lemma ratio_pos a b : 0 <= a -> 0 <= b -> a <> 0 -> b <> 0 -> 0 < a / b.
Proof. intros. apply Rdiv_lt_0_compat; lra. Qed.
Lemma tri_some scale a b c : 0 <= a -> 0 <= b -> 0 <= c -> exists r, tri_branch scale a b c = Some r.
Proof.
  intros A B C. destruct (LogM_some scale a A) as [la LA]. destruct (LogM_some scale b B) as [lb LB]. destruct (LogM_some scale c C) as [lc LC].
  unfold tri_branch. rewrite LA, LB, LC.
  destruct (is0_case a) as [[-> Za]|[-> Za]]; destruct (is0_case b) as [[-> Zb]|[-> Zb]]; destruct (is0_case c) as [[-> Zc]|[-> Zc]];
    rewrite ?(lnopt_some (c / b)), ?(lnopt_some (b / c)), ?(lnopt_some (a / c)) by (apply ratio_pos; assumption);
    destruct (eqb_case a b) as [[-> Y1]|[-> Y1]]; destruct (eqb_case a c) as [[-> Y2]|[-> Y2]]; destruct (eqb_case b c) as [[-> Y3]|[-> Y3]]; destruct (eqb_case b a) as [[-> Y4]|[-> Y4]];
    first [exfalso; lra | cbn; eexists; reflexivity].
Qed.
Lemma tri_ok scale A B C : 0 <= A -> 0 <= B -> 0 <= C -> exists r, fbaseTri scale A B C = Ok r.
Proof.
  intros HA HB HC. unfold fbaseTri. assert (A1 := snap0_nonneg A HA). assert (B1 := snap0_nonneg B HB). assert (C1 := snap0_nonneg C HC).
  assert (A2 := snap_nonneg _ _ A1 B1). assert (A3 := snap_nonneg _ _ A2 C1). assert (B2 := snap_nonneg _ _ B1 C1).
  destruct (tri_some scale _ _ _ A3 B2 C1) as [r E]. rewrite E. exists r. reflexivity.
Qed.
Lemma pick_some l d : (forall x, In x l -> exists r, snd x = Some r) -> (exists r, d = Some r) -> exists r, pick l d = Some r.
Proof.
  induction l as [|[b v] l IH]; intros H D; [exact D|]. cbn [pick]. destruct b; [apply (H (true, v)); left; reflexivity|]. apply IH; [intros; apply H; right; assumption|exact D].
Qed.
Lemma four_some scale a b c d : 0 <= a -> 0 <= b -> 0 <= c -> 0 <= d -> exists r, four_branch scale a b c d = Some r.
Proof.
  intros A B C D. destruct (LogM_some scale a A) as [la LA]. destruct (LogM_some scale b B) as [lb LB]. destruct (LogM_some scale c C) as [lc LC]. destruct (LogM_some scale d D) as [ld LD].
  unfold four_branch. rewrite LA, LB, LC, LD. cbn [obind]. apply pick_some; [|eexists; reflexivity].
  intros x I. repeat (destruct I as [<- |I]; [cbn [snd]; first [eexists; reflexivity | apply pick_some; [intros y J; repeat (destruct J as [<- |J]; [eexists; reflexivity|]); destruct J | eexists; reflexivity]]|]). destruct I.
Qed.
Lemma four_ok scale A B C D : 0 <= A -> 0 <= B -> 0 <= C -> 0 <= D -> exists r, fbaseFour scale A B C D = Ok r.
Proof.
  intros HA HB HC HD. unfold fbaseFour. assert (A1 := snap0_4_nonneg A HA). assert (B1 := snap0_4_nonneg B HB). assert (C1 := snap0_4_nonneg C HC). assert (D1 := snap0_4_nonneg D HD).
  assert (B2 := snap4_nonneg _ _ A1 B1). assert (C2 := snap4_nonneg _ _ A1 C1). assert (D2 := snap4_nonneg _ _ A1 D1).
  assert (C3 := snap4_nonneg _ _ B2 C2). assert (D3 := snap4_nonneg _ _ B2 D2). assert (D4 := snap4_nonneg _ _ C3 D3).
  destruct (four_some scale _ _ _ _ A1 B2 C3 D4) as [r E]. rewrite E. exists r. reflexivity.
Qed.
Lemma existsb_none {A} (f : A -> bool) l : (forall x, In x l -> f x = false) -> existsb f l = false.
Proof. induction l as [|x l IH]; intros H; [reflexivity|]. cbn. rewrite H by (left; reflexivity). apply IH. intros; apply H; right; assumption. Qed.
Section Total.
  Variables (N : nat) (O : nat -> nat -> R) (scale : R) (sectors : list sector).
  Hypothesis nonneg : forall s a, In s sectors -> (a < size s)%nat -> 0 <= mass2 s a.
  Lemma no_throw3 : throws3 scale sectors = false.
  Proof.
    apply existsb_none. intros s S. do 3 (apply existsb_none; intros ? ?%in_seq). unfold tri.
    edestruct (tri_ok scale) as [r ->]; [| | |reflexivity]; apply nonneg; try exact S; lia.
  Qed.
  Lemma no_throw4 : throws4 scale sectors = false.
  Proof.
    apply existsb_none. intros s S. do 4 (apply existsb_none; intros ? ?%in_seq). unfold four.
    edestruct (four_ok scale) as [r ->]; [| | | |reflexivity]; apply nonneg; try exact S; lia.
  Qed.
  Lemma no_tachyon : tachyon sectors = false.
  Proof.
    apply existsb_none. intros s S. apply existsb_none. intros a A%in_seq. destruct (Rlt_dec (mass2 s a) 0) as [Q|]; [|reflexivity]. assert (0 <= mass2 s a) by (apply nonneg; [exact S|lia]). lra.
  Qed.
  Lemma third_returns : exists r, WeinbergThirdDerivative N O scale sectors true = Ok (Some r).
  Proof. unfold WeinbergThirdDerivative. cbn [negb]. rewrite no_throw3, no_tachyon. eexists. reflexivity. Qed.
  Lemma fourth_returns : exists r, WeinbergForthDerivative N O scale sectors true = Ok (Some r).
  Proof. unfold WeinbergForthDerivative. cbn [negb]. rewrite no_throw3, no_throw4, no_tachyon. eexists. reflexivity. Qed.
End Total.
Lemma tachyon_no_numbers : forall N O scale sectors s a r, In s sectors -> (a < size s)%nat -> mass2 s a < 0 ->
  WeinbergThirdDerivative N O scale sectors true <> Ok (Some r) /\ WeinbergForthDerivative N O scale sectors true <> Ok (Some r).
Proof.
  intros N O scale sectors s a r S A M. assert (T : tachyon sectors = true).
  { apply existsb_exists. exists s. split; [exact S|]. apply existsb_exists. exists a. split; [apply in_seq; lia|]. destruct (Rlt_dec (mass2 s a) 0); [reflexivity|contradiction]. }
  unfold WeinbergThirdDerivative, WeinbergForthDerivative. cbn [negb]. rewrite T. split.
  - destruct (throws3 scale sectors); discriminate.
  - destruct (throws3 scale sectors || throws4 scale sectors); discriminate.
Qed.
Section Full.
  Variables (N : nat) (O : nat -> nat -> R) (scale : R) (u : nat -> R) (L : list (sector * (nat -> R) * (nat -> R))).
  Hypothesis Ps : 0 < scale.
  Hypothesis ortho : orthonormal N O.
  Hypothesis diag : forall s d e, In (s, d, e) L -> diagonal s (slope N u s) d /\ diagonal s (curve N u s) e /\ massive_or_decoupled s d e.
  Lemma full_nonneg s a : In s (map (fun x => fst (fst x)) L) -> (a < size s)%nat -> 0 <= mass2 s a.
  Proof.
    intros I A. apply in_map_iff in I. destruct I as [[[s' d] e] [E I]]. cbn in E. subst s'. destruct (proj2 (proj2 (diag s d e I)) a A) as [B|[B _]]; [rewrite fifth in B; lra|lra].
  Qed.
  Lemma third_full : exists r v, WeinbergThirdDerivative N O scale (map (fun x => fst (fst x)) L) true = Ok (Some r) /\
    is_derive_n (one_loop scale L) 3 0 v /\ Rabs (contract3 N u r - v) <= rsum N (fun l => Rabs (u l)) ^ 3 * / 10 ^ 10.
  Proof. destruct (third_returns N O scale _ full_nonneg) as [r E]. destruct (third_line N O scale u Ps ortho L diag r E) as [v V]. exists r, v. exact (conj E V). Qed.
  Lemma fourth_full : exists r v, WeinbergForthDerivative N O scale (map (fun x => fst (fst x)) L) true = Ok (Some r) /\
    is_derive_n (one_loop scale L) 4 0 v /\ Rabs (contract4 N u r - v) <= rsum N (fun l => Rabs (u l)) ^ 4 * / 10 ^ 10.
  Proof. destruct (fourth_returns N O scale _ full_nonneg) as [r E]. destruct (fourth_line N O scale u Ps ortho L diag r E) as [v V]. exists r, v. exact (conj E V). Qed.
End Full.
