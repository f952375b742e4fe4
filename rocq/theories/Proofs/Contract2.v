(** Potentials and derivatives from tables. *)
From Coq Require Import Reals Lra Lia ZArith List Permutation Sorted Arith.
From Verif.Model Require Import Base Potential Tables.
From Verif.Spec Require Import NumDerivSpec PotentialSpec.
From Verif.Proofs Require Import DerivLib NumDerivProofs PotentialProofs TensorProofs Contract.
Import ListNotations.
Open Scope R_scope.

(** the contractions of T are sums over the table *)
Definition rep (n r : nat) (T : tensor R) (t : table) : Prop := forall g, csum n r (fun s => T s * g s) = tsum t g.
Lemma rep_assign n r tab : keys_okb n r (map fst tab) = true -> rep n r (assign tab zero_tensor) tab.
Proof. intros K g. apply csum_assign. now apply keys_okb_ok. Qed.
Lemma rep_zero n r : rep n r zero_tensor [].
Proof. intro g. apply csum_zero. intros. unfold zero_tensor. ring. Qed.
Lemma rep_entry n r T t k : rep n r T t -> length k = r -> below n k -> T k = tsum t (fun s => if leq s k then 1 else 0).
Proof.
  intros H L B. rewrite <- H. rewrite (csum_at n r _ k L B); [destruct (leq k k); [ring|congruence]|].
  intros s _ _ N. destruct (leq s k); [congruence|ring].
Qed.

Definition mon (v : nat -> R) (s : list nat) : R := fold_right (fun i a => v i * a) 1 s.
Lemma mon_perm v s s' : Permutation s s' -> mon v s = mon v s'.
Proof. unfold mon. induction 1; cbn; [reflexivity|congruence|ring|congruence]. Qed.
Lemma tsum_app a b g : tsum (a ++ b) g = tsum a g + tsum b g.
Proof. induction a as [|e a IH]; cbn [app]; [cbn; ring|]. change (snd e * g (fst e) + tsum (a ++ b) g = snd e * g (fst e) + tsum a g + tsum b g). rewrite IH. ring. Qed.
Lemma tsum_ext t g g' : (forall k, In k (map fst t) -> g k = g' k) -> tsum t g = tsum t g'.
Proof.
  induction t as [|e t IH]; intro H; [reflexivity|]. change (snd e * g (fst e) + tsum t g = snd e * g' (fst e) + tsum t g').
  rewrite IH, H; [reflexivity|now left|intros; apply H; now right].
Qed.

(** sum over an expanded table, for a summand invariant under permutations *)
Definition msum (writes : list nat -> list (list nat)) (tab : table) (v : nat -> R) : R :=
  fold_right (fun e a => IZR (Z.of_nat (length (dperms writes (fst e)))) * snd e * mon v (fst e) + a) 0 tab.
Lemma tsum_expand writes tab v : (forall s, In s (map fst tab) -> covers writes s) ->
  tsum (expand writes tab) (mon v) = msum writes tab v.
Proof.
  induction tab as [|[s x] tab IH]; intro H; [reflexivity|]. cbn [expand flat_map msum fold_right fst snd]. rewrite tsum_app.
  fold (expand writes tab) (msum writes tab v). rewrite IH by (intros; apply H; now right). f_equal.
  assert (C : covers writes s) by (apply H; now left).
  assert (P : forall p, In p (dperms writes s) -> mon v p = mon v s).
  { intros p I. apply mon_perm. apply C. apply nodup_In in I as [<-|I]; auto. }
  revert P. generalize (dperms writes s). intros l P. induction l as [|p l IHl].
  - cbn. ring.
  - cbn [map tsum fold_right fst snd length]. fold (tsum (map (fun p => (p, x)) l) (mon v)). rewrite IHl by (intros; apply P; now right).
    rewrite Nat2Z.inj_succ, succ_IZR, P by now left. ring.
Qed.

Definition head (i : nat) (g : list nat -> R) (s : list nat) : R := match s with a :: q => if Nat.eqb a i then g q else 0 | [] => 0 end.

Ltac sums := repeat first [apply sumR_ext; intros | match goal with |- _ + sumR _ _ = _ => f_equal | |- sumR _ _ + _ = _ => f_equal | |- _ + / _ * sumR _ _ = _ => f_equal | |- / _ * sumR _ _ = _ => f_equal end].
Section Reps.
  Variable n : nat.
  Variables T1 T2 T3 T4 : tensor R.
  Variables t1 t2 t3 t4 : table.
  Hypothesis R1 : rep n 1 T1 t1.
  Hypothesis R2 : rep n 2 T2 t2.
  Hypothesis R3 : rep n 3 T3 t3.
  Hypothesis R4 : rep n 4 T4 t4.
  Lemma rep_quartic v : quartic n (at1 T1) (at2 T2) (at3 T3) (at4 T4) v =
    tsum t1 (mon v) + / 2 * tsum t2 (mon v) + / 6 * tsum t3 (mon v) + / 24 * tsum t4 (mon v).
  Proof.
    rewrite <- (R1 (mon v)), <- (R2 (mon v)), <- (R3 (mon v)), <- (R4 (mon v)). unfold quartic. cbn [csum mon fold_right].
    sums; unfold at1, at2, at3, at4; ring.
  Qed.
  Lemma rep_grad v i : (i < n)%nat -> grad n (at1 T1) (at2 T2) (at3 T3) (at4 T4) v i =
    tsum t1 (head i (mon v)) + tsum t2 (head i (mon v)) + / 2 * tsum t3 (head i (mon v)) + / 6 * tsum t4 (head i (mon v)).
  Proof.
    intro Hi. rewrite <- (R1 (head i (mon v))), <- (R2 (head i (mon v))), <- (R3 (head i (mon v))), <- (R4 (head i (mon v))).
    unfold head. rewrite !csum_head by assumption. unfold grad. cbn [csum mon fold_right].
    sums; unfold at1, at2, at3, at4; ring.
  Qed.
  Lemma csum_head2 r T i j g : (i < n)%nat -> (j < n)%nat ->
    csum n (S (S r)) (fun s => T s * head i (head j g) s) = csum n r (fun q => T (i :: j :: q) * g q).
  Proof. intros Hi Hj. unfold head at 1. rewrite csum_head by assumption. unfold head. now rewrite (csum_head n r j (fun q => T (i :: q))). Qed.
  Lemma rep_hess v i j : (i < n)%nat -> (j < n)%nat -> hess n (at2 T2) (at3 T3) (at4 T4) v i j =
    tsum t2 (head i (head j (mon v))) + tsum t3 (head i (head j (mon v))) + / 2 * tsum t4 (head i (head j (mon v))).
  Proof.
    intros Hi Hj. rewrite <- (R2 (head i (head j (mon v)))), <- (R3 (head i (head j (mon v)))), <- (R4 (head i (head j (mon v)))).
    rewrite !csum_head2 by assumption. unfold hess. cbn [csum mon fold_right].
    sums; unfold at1, at2, at3, at4; ring.
  Qed.
End Reps.

(** ** the three symmetrisation loops *)
Lemma covers_doublet a b c d : covers doublet_writes [a; b; c; d].
Proof.
  intro j. rewrite (covers4 a b c d j). cbn [writes4 doublet_writes In]. tauto.
Qed.
Lemma doublet_flat (T : tensor R) n : doublet_sym4 n T = fold_left (fun T s => assign_all s (doublet_writes s) T) (tuples4 n n n n) T.
Proof.
  unfold doublet_sym4, tuples4. rewrite <- (for_flat (fun s T => assign_all s (doublet_writes s) T)). apply for_loop_ext. intros k1 T1.
  rewrite <- (for_flat (fun s T => assign_all s (doublet_writes s) T)). apply for_loop_ext. intros k2 T2.
  rewrite <- (for_flat (fun s T => assign_all s (doublet_writes s) T)). apply for_loop_ext. intros k3 T3.
  unfold for_loop. now rewrite fold_map.
Qed.
Lemma doublet_ok n (T : tensor R) :
  symmetric_tensor n 4 (doublet_sym4 n T) /\ (forall i, length i = 4%nat -> below n i -> canonical i -> doublet_sym4 n T i = T i) /\
  (forall i, length i <> 4%nat \/ ~ below n i -> doublet_sym4 n T i = T i).
Proof.
  apply (final doublet_writes (tuples4 n n n n) n 4) with (T0 := T); [| |apply doublet_flat].
  - intro s. rewrite in_tuples4. split.
    + intros (a & b & c & d & -> & H). split; [reflexivity|]. split; [repeat constructor; lia|]. repeat constructor; lia.
    + intros (Ls & B & C). cases_len s Ls. do 4 eexists. split; [reflexivity|].
      unfold below in B. repeat match goal with H : Forall _ (_ :: _) |- _ => inversion H; clear H; subst
        | H : Sorted _ (_ :: _) |- _ => inversion H; clear H; subst | H : HdRel _ _ (_ :: _) |- _ => inversion H; clear H; subst end. lia.
  - intros s I. apply in_tuples4 in I as (a & b & c & d & -> & _). apply covers_doublet.
Qed.
Lemma cov2 s : length s = 2%nat -> covers writes2 s.
Proof. intro L. cases_len s L. apply covers2. Qed.
Lemma cov3 s : length s = 3%nat -> covers writes3 s.
Proof. intro L. cases_len s L. apply covers3. Qed.
Lemma cov4 s : length s = 4%nat -> covers writes4 s.
Proof. intro L. cases_len s L. apply covers4. Qed.
Lemma covd s : length s = 4%nat -> covers doublet_writes s.
Proof. intro L. cases_len s L. apply covers_doublet. Qed.

Definition sym_okb n r (tab : table) := forallb sortedb (map fst tab) && keys_okb n r (map fst tab).
Lemma rep_sym4 n tab : sym_okb n 4 (tab : table) = true -> rep n 4 (sym4Dim (assign tab zero_tensor) n n n n) (expand writes4 tab).
Proof.
  intros H g. apply andb_prop in H as [H1 H2].
  apply (csum_sym writes4 n 4 cov4 (fun T => sym4Dim T n n n n)); try assumption. intro T. destruct (sym4_ok n T) as (A & B & _). auto.
Qed.
Lemma rep_sym2 n tab : sym_okb n 2 (tab : table) = true -> rep n 2 (sym2Dim (assign tab zero_tensor) n n) (expand writes2 tab).
Proof.
  intros H g. apply andb_prop in H as [H1 H2].
  apply (csum_sym writes2 n 2 cov2 (fun T => sym2Dim T n n)); try assumption. intro T. destruct (sym2_ok n T) as (A & B & _). auto.
Qed.
Lemma rep_doublet n tab : sym_okb n 4 (tab : table) = true -> rep n 4 (doublet_sym4 n (assign tab zero_tensor)) (expand doublet_writes tab).
Proof.
  intros H g. apply andb_prop in H as [H1 H2].
  apply (csum_sym doublet_writes n 4 covd (doublet_sym4 n)); try assumption. intro T. destruct (doublet_ok n T) as (A & B & _). auto.
Qed.

(** ** explicit tables that are symmetric *)
Fixpoint kle (a b : list nat) : bool :=
  match a, b with [], _ => true | _, [] => false | x :: a, y :: b => if Nat.ltb x y then true else if Nat.eqb x y then kle a b else false end.
Fixpoint kins (e : list nat * R) (l : table) : table := match l with [] => [e] | f :: r => if kle (fst e) (fst f) then e :: l else f :: kins e r end.
Fixpoint ksort (l : table) : table := match l with [] => [] | e :: r => kins e (ksort r) end.
Lemma kins_perm e l : Permutation (kins e l) (e :: l).
Proof. induction l as [|f r IH]; [reflexivity|]. cbn. destruct (kle _ _); [reflexivity|]. rewrite IH. apply perm_swap. Qed.
Lemma ksort_perm l : Permutation (ksort l) l.
Proof. induction l as [|e r IH]; [reflexivity|]. cbn. rewrite kins_perm. now constructor. Qed.
Definition red (tab : table) : table := filter (fun e => sortedb (fst e)) tab.
Lemma tsum_perm a b g : Permutation a b -> tsum a g = tsum b g.
Proof. unfold tsum. induction 1; cbn; [reflexivity|congruence|ring|congruence]. Qed.
Lemma assign_perm_eq a b : NoDup (map fst a) -> Permutation a b -> forall s, assign a zero_tensor s = assign b zero_tensor s.
Proof.
  intros ND P s. assert (ND' : NoDup (map fst b)) by (eapply Permutation_NoDup; [apply Permutation_map, P|exact ND]).
  destruct (in_dec leq s (map fst a)) as [I|I].
  - apply in_map_iff in I as ([k x] & <- & I). cbn. rewrite (assign_in a _ k x ND I). symmetry. apply assign_in; [exact ND'|].
    eapply Permutation_in; [exact P|exact I].
  - rewrite !assign_notin; [reflexivity| |exact I]. intro J. apply I. eapply Permutation_in; [|exact J]. symmetry. now apply Permutation_map.
Qed.
Section Explicit.
  Variable writes : list nat -> list (list nat).
  Variables n r : nat.
  Hypothesis HC : forall s, length s = r -> covers writes s.
  Variable tab : table.
  Hypothesis K : keys_okb n r (map fst tab) = true.
  Hypothesis E : ksort tab = ksort (expand writes (red tab)).
  Lemma P : Permutation tab (expand writes (red tab)).
  Proof. transitivity (ksort tab); [symmetry; apply ksort_perm|]. rewrite E. apply ksort_perm. Qed.
  Lemma rep_explicit : rep n r (assign tab zero_tensor) (expand writes (red tab)).
  Proof. intro g. rewrite (rep_assign n r tab K g). apply tsum_perm, P. Qed.
  Lemma symmetric_explicit : symmetric_tensor n r (assign tab zero_tensor).
  Proof.
    destruct (keys_okb_ok _ _ _ K) as [ND KO].
    assert (W : forall s x p, In (s, x) tab -> Permutation s p -> In (p, x) tab).
    { intros s x p I Q. eapply Permutation_in in I; [|exact P]. apply in_flat_map in I as (e & Ie & I).
      apply in_map_iff in I as (q & Eq & Iq). injection Eq as <- <-.
      assert (Le : length (fst e) = r) by (apply KO; apply filter_In in Ie as [Ie _]; now apply in_map).
      eapply Permutation_in; [symmetry; exact P|]. apply in_flat_map. exists e. split; [exact Ie|]. apply in_map_iff. exists p. split; [reflexivity|].
      apply nodup_In. assert (Pp : Permutation p (fst e)).
      { transitivity q; [now symmetry|]. apply (HC _ Le). apply nodup_In in Iq as [<-|Iq]; auto. }
      apply (HC _ Le) in Pp as [->|Pp]; [now left|now right]. }
    intros i j Li Bi Pij. destruct (in_dec leq i (map fst tab)) as [I|I].
    - apply in_map_iff in I as ([k x] & <- & I). cbn in *. rewrite (assign_in tab _ k x ND I). symmetry. apply assign_in; [exact ND|]. now apply (W k).
    - rewrite !assign_notin; [reflexivity| |exact I]. intro J. apply I. apply in_map_iff in J as ([k x] & Ek & J). cbn in Ek. subst k.
      apply in_map_iff. exists (i, x). split; [reflexivity|]. apply (W j); [exact J|now symmetry].
  Qed.
End Explicit.

Ltac bel := unfold below; repeat (apply Forall_cons; [assumption|]); apply Forall_nil.
Lemma sym2_at n T : symmetric_tensor n 2 T -> sym2 n (at2 T).
Proof. intros H i j Hi Hj. apply H; [reflexivity|bel|permsolve]. Qed.
Lemma sym3_at n T : symmetric_tensor n 3 T -> sym3 n (at3 T).
Proof. intros H i j k Hi Hj Hk. split; (apply H; [reflexivity|bel|permsolve]). Qed.
Lemma sym4_at n T : symmetric_tensor n 4 T -> sym4 n (at4 T).
Proof. intros H i j k l Hi Hj Hk Hl. split; [|split]; (apply H; [reflexivity|bel|permsolve]). Qed.
Lemma zero_sym n r : symmetric_tensor n r zero_tensor.
Proof. intros i j _ _ _. reflexivity. Qed.
