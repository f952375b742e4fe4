(** Symmetrisation of tensors. *)
From Coq Require Import List Permutation Sorted Lia Arith.
From Verif.Model Require Import Potential.
From Verif.Spec Require Import PotentialSpec.
Import ListNotations.

Section S.
  Context {A : Type}.
  Implicit Type T : tensor A.
  Lemma upd_same T i x : upd T i x i = x.
  Proof. unfold upd. destruct (list_eq_dec _ _ _); congruence. Qed.
  Lemma upd_other T i x j : j <> i -> upd T i x j = T j.
  Proof. unfold upd. destruct (list_eq_dec _ _ _); congruence. Qed.
  Lemma assign_spec s ps : forall T,
    assign_all s ps T s = T s /\ forall j, (In j ps -> assign_all s ps T j = T s) /\ (~ In j ps -> assign_all s ps T j = T j).
  Proof.
    induction ps as [|p ps IH]; intro T; cbn [assign_all fold_left].
    - split; [reflexivity|]. intro j. split; [intros []|reflexivity].
    - destruct (IH (upd T p (T s))) as [E F]. change (fold_left _ ps ?T0) with (assign_all s ps T0).
      assert (K : upd T p (T s) s = T s).
      { destruct (list_eq_dec Nat.eq_dec s p) as [->|N]; [apply upd_same|now apply upd_other]. }
      split; [congruence|]. intro j. destruct (F j) as [F1 F2].
      destruct (in_dec (list_eq_dec Nat.eq_dec) j ps) as [I|I].
      + split; [intros _; rewrite F1 by exact I; exact K|]. intro N. destruct N. now right.
      + rewrite F2 by exact I. split.
        * intros [->|I']; [apply upd_same|contradiction].
        * intro N. apply upd_other. intros ->. apply N. now left.
  Qed.

  (** a family of assignments covering all permutations *)
  Variable writes : list nat -> list (list nat).
  Definition covers (s : list nat) : Prop := forall j, Permutation j s <-> (j = s \/ In j (writes s)).
  Lemma assign_perm s T : covers s -> forall j,
    (Permutation j s -> assign_all s (writes s) T j = T s) /\ (~ Permutation j s -> assign_all s (writes s) T j = T j).
  Proof.
    intros C j. destruct (assign_spec s (writes s) T) as [E F]. destruct (F j) as [F1 F2]. split; intro H.
    - apply C in H as [->|H]; auto.
    - apply F2. intro I. apply H, C. now right.
  Qed.
  Lemma sorted_perm_eq : forall a b : list nat, Sorted le a -> Sorted le b -> Permutation a b -> a = b.
  Proof.
    assert (SS : forall l, Sorted le l -> StronglySorted le l) by (intros; apply Sorted_StronglySorted; [intros x y z; lia|assumption]).
    intros a b Ha Hb. apply SS in Ha. apply SS in Hb. revert b Hb. induction Ha as [|x a Ha IH Hx]; intros b Hb P.
    - symmetry. now apply Permutation_nil.
    - destruct Hb as [|y b Hb Hy]; [apply Permutation_sym, Permutation_nil in P; discriminate|].
      assert (x = y).
      { assert (I1 : In x (y :: b)) by (eapply Permutation_in; [exact P|now left]).
        assert (I2 : In y (x :: a)) by (eapply Permutation_in; [apply Permutation_sym, P|now left]).
        rewrite Forall_forall in Hx, Hy. destruct I1 as [I1|I1]; [congruence|]. destruct I2 as [I2|I2]; [congruence|].
        apply Hx in I2. apply Hy in I1. lia. }
      subst y. f_equal. apply IH; [exact Hb|]. now apply Permutation_cons_inv in P.
  Qed.
  Lemma assign_fold (L : list (list nat)) : Forall (fun s => canonical s /\ covers s) L -> forall T,
    (forall j s, In s L -> Permutation j s -> fold_left (fun T s => assign_all s (writes s) T) L T j = T s) /\
    (forall j, (forall s, In s L -> ~ Permutation j s) -> fold_left (fun T s => assign_all s (writes s) T) L T j = T j).
  Proof.
    induction 1 as [|s L [CS CV] HL IH]; intro T; cbn [fold_left].
    - split; [intros j s []|reflexivity].
    - destruct (IH (assign_all s (writes s) T)) as [I1 I2]. split.
      + intros j s' I P. destruct (in_dec (list_eq_dec Nat.eq_dec) s' L) as [J|J].
        * rewrite (I1 j s' J P). destruct (assign_perm s T CV s') as [A1 A2].
          destruct (list_eq_dec Nat.eq_dec s' s) as [->|N]; [apply A1; reflexivity|]. apply A2.
          intro P'. apply N. rewrite Forall_forall in HL. apply sorted_perm_eq; [apply (HL s' J)|exact CS|exact P'].
        * destruct I as [<-|I]; [|contradiction]. destruct (assign_perm s T CV j) as [A1 A2].
          rewrite I2; [now apply A1|]. intros s2 J2 P2. rewrite Forall_forall in HL.
          apply J. replace s with s2; [exact J2|]. apply sorted_perm_eq; [apply (HL s2 J2)|exact CS|].
          transitivity j; [now symmetry|exact P].
      + intros j N. destruct (assign_perm s T CV j) as [A1 A2]. rewrite I2; [apply A2, N; now left|]. intros s' I'. apply N. now right.
  Qed.
End S.

Lemma for_flat {S X} (g : X -> S -> S) (f : nat -> list X) a n s :
  for_loop a n (fun k s => fold_left (fun s x => g x s) (f k) s) s = fold_left (fun s x => g x s) (flat_map f (seq a (n - a))) s.
Proof.
  unfold for_loop. generalize (seq a (n - a)). intro l. revert s. induction l as [|k l IH]; intro s; [reflexivity|].
  cbn [fold_left flat_map]. rewrite fold_left_app. apply IH.
Qed.
Lemma for_loop_ext {S} (f g : nat -> S -> S) a n s : (forall k s, f k s = g k s) -> for_loop a n f s = for_loop a n g s.
Proof.
  intro E. unfold for_loop. generalize (seq a (n - a)). intro l. revert s. induction l as [|k l IH]; intro s; [reflexivity|]. cbn. now rewrite E, IH.
Qed.

Definition tuples2 n1 n2 := flat_map (fun k1 => map (fun k2 => [k1; k2]) (seq k1 (n2 - k1))) (seq 0 (n1 - 0)).
Definition tuples3 n1 n2 n3 := flat_map (fun k1 => flat_map (fun k2 => map (fun k3 => [k1; k2; k3]) (seq k2 (n3 - k2))) (seq k1 (n2 - k1))) (seq 0 (n1 - 0)).
Definition tuples4 n1 n2 n3 n4 := flat_map (fun k1 => flat_map (fun k2 => flat_map (fun k3 => map (fun k4 => [k1; k2; k3; k4]) (seq k3 (n4 - k3))) (seq k2 (n3 - k2))) (seq k1 (n2 - k1))) (seq 0 (n1 - 0)).
Definition writes2 (s : list nat) := match s with [k1; k2] => [[k2; k1]] | _ => [] end.
Definition writes3 (s : list nat) := match s with [k1; k2; k3] => [[k1; k3; k2]; [k2; k1; k3]; [k2; k3; k1]; [k3; k1; k2]; [k3; k2; k1]] | _ => [] end.
Definition writes4 (s : list nat) := match s with
  | [k1; k2; k3; k4] => [[k1; k2; k4; k3]; [k1; k3; k2; k4]; [k1; k3; k4; k2]; [k1; k4; k2; k3]; [k1; k4; k3; k2];
         [k2; k1; k3; k4]; [k2; k1; k4; k3]; [k2; k3; k1; k4]; [k2; k3; k4; k1]; [k2; k4; k1; k3]; [k2; k4; k3; k1];
         [k3; k1; k2; k4]; [k3; k1; k4; k2]; [k3; k2; k1; k4]; [k3; k2; k4; k1]; [k3; k4; k1; k2]; [k3; k4; k2; k1];
         [k4; k1; k2; k3]; [k4; k1; k3; k2]; [k4; k2; k1; k3]; [k4; k2; k3; k1]; [k4; k3; k1; k2]; [k4; k3; k2; k1]]
  | _ => [] end.
Lemma fold_map {S X Y} (f : S -> Y -> S) (g : X -> Y) l : forall s, fold_left f (map g l) s = fold_left (fun s x => f s (g x)) l s.
Proof. induction l as [|x l IH]; intro s; [reflexivity|]. cbn. apply IH. Qed.
Lemma sym2_flat {A} (T : tensor A) n1 n2 : sym2Dim T n1 n2 = fold_left (fun T s => assign_all s (writes2 s) T) (tuples2 n1 n2) T.
Proof.
  unfold sym2Dim, tuples2. rewrite <- (for_flat (fun s T => assign_all s (writes2 s) T)). apply for_loop_ext. intros k1 T1.
  unfold for_loop. now rewrite fold_map.
Qed.
Lemma sym3_flat {A} (T : tensor A) n1 n2 n3 : sym3Dim T n1 n2 n3 = fold_left (fun T s => assign_all s (writes3 s) T) (tuples3 n1 n2 n3) T.
Proof.
  unfold sym3Dim, tuples3. rewrite <- (for_flat (fun s T => assign_all s (writes3 s) T)). apply for_loop_ext. intros k1 T1.
  rewrite <- (for_flat (fun s T => assign_all s (writes3 s) T)). apply for_loop_ext. intros k2 T2.
  unfold for_loop. now rewrite fold_map.
Qed.
Lemma sym4_flat {A} (T : tensor A) n1 n2 n3 n4 : sym4Dim T n1 n2 n3 n4 = fold_left (fun T s => assign_all s (writes4 s) T) (tuples4 n1 n2 n3 n4) T.
Proof.
  unfold sym4Dim, tuples4. rewrite <- (for_flat (fun s T => assign_all s (writes4 s) T)). apply for_loop_ext. intros k1 T1.
  rewrite <- (for_flat (fun s T => assign_all s (writes4 s) T)). apply for_loop_ext. intros k2 T2.
  rewrite <- (for_flat (fun s T => assign_all s (writes4 s) T)). apply for_loop_ext. intros k3 T3.
  unfold for_loop. now rewrite fold_map.
Qed.

Lemma perm_cons_cases (x : nat) l j : Permutation j (x :: l) -> exists a b, j = a ++ x :: b /\ Permutation (a ++ b) l.
Proof.
  intro P. assert (I : In x j) by (eapply Permutation_in; [symmetry; exact P|now left]).
  apply in_split in I as (a & b & ->). exists a, b. split; [reflexivity|].
  symmetry. apply Permutation_cons_app_inv with x. now symmetry.
Qed.
Lemma perm1 (x : nat) j : Permutation j [x] -> j = [x].
Proof. intro P. apply Permutation_sym, Permutation_length_1_inv in P. exact P. Qed.
Lemma perm2 (x y : nat) j : Permutation j [x; y] -> j = [x; y] \/ j = [y; x].
Proof.
  intro P. destruct (perm_cons_cases _ _ _ P) as (a & b & -> & Q). apply perm1 in Q.
  destruct a as [|a0 a]; cbn in *; [subst b; auto|]. injection Q as -> Q. apply app_eq_nil in Q as [-> ->]. auto.
Qed.
Lemma perm3 (x y z : nat) j : Permutation j [x; y; z] ->
  j = [x; y; z] \/ j = [x; z; y] \/ j = [y; x; z] \/ j = [y; z; x] \/ j = [z; x; y] \/ j = [z; y; x].
Proof.
  intro P. destruct (perm_cons_cases _ _ _ P) as (a & b & -> & Q).
  apply perm2 in Q.
  destruct a as [|a0 [|a1 [|? ?]]]; cbn in *; destruct Q as [Q|Q]; inversion Q; subst; auto 10.
Qed.
Lemma covers2 a b : covers writes2 [a; b].
Proof.
  intro j. cbn [writes2 In]. split; [intro P; apply perm2 in P; intuition congruence|].
  intros [->|[<-|[]]]; [reflexivity|constructor].
Qed.
Ltac permsolve := repeat match goal with
  | |- Permutation ?l ?l => reflexivity
  | |- Permutation (?x :: _) ?r =>
      match r with
      | x :: _ => apply perm_skip
      | ?a :: x :: ?t => transitivity (x :: a :: t); [|apply perm_swap]
      | ?a :: ?b :: x :: ?t => transitivity (a :: x :: b :: t); [|apply perm_skip, perm_swap]
      | ?a :: ?b :: ?c :: x :: ?t => transitivity (a :: b :: x :: c :: t); [|do 2 apply perm_skip; apply perm_swap]
      end end.
Lemma covers3 a b c : covers writes3 [a; b; c].
Proof.
  intro j. cbn [writes3 In]. split; [intro P; apply perm3 in P; intuition congruence|].
  intros H. repeat (destruct H as [H|H]; [subst j; permsolve|]). destruct H.
Qed.
Lemma covers4 a b c d : covers writes4 [a; b; c; d].
Proof.
  intro j. cbn [writes4 In]. split.
  - intro P. destruct (perm_cons_cases _ _ _ P) as (x & y & -> & Q). apply perm3 in Q.
    destruct x as [|x0 [|x1 [|x2 [|? ?]]]]; cbn in *;
      repeat (destruct Q as [Q|Q]; [inversion Q; subst; clear; auto 30|]);
      inversion Q; subst; clear; auto 30.
  - intros H. repeat (destruct H as [H|H]; [subst j; permsolve|]). destruct H.
Qed.

Lemma in_tuples2 s n : In s (tuples2 n n) <-> exists a b, s = [a; b] /\ a <= b < n.
Proof.
  unfold tuples2. rewrite in_flat_map. split.
  - intros (a & I & J). apply in_seq in I. apply in_map_iff in J as (b & <- & J). apply in_seq in J. exists a, b. split; [reflexivity|lia].
  - intros (a & b & -> & H). exists a. split; [apply in_seq; lia|]. apply in_map_iff. exists b. split; [reflexivity|apply in_seq; lia].
Qed.
Lemma in_tuples3 s n : In s (tuples3 n n n) <-> exists a b c, s = [a; b; c] /\ a <= b <= c /\ c < n.
Proof.
  unfold tuples3. rewrite in_flat_map. split.
  - intros (a & I & J). apply in_seq in I. apply in_flat_map in J as (b & I2 & J). apply in_seq in I2.
    apply in_map_iff in J as (c & <- & J). apply in_seq in J. exists a, b, c. split; [reflexivity|lia].
  - intros (a & b & c & -> & H). exists a. split; [apply in_seq; lia|]. apply in_flat_map. exists b. split; [apply in_seq; lia|].
    apply in_map_iff. exists c. split; [reflexivity|apply in_seq; lia].
Qed.
Lemma in_tuples4 s n : In s (tuples4 n n n n) <-> exists a b c d, s = [a; b; c; d] /\ a <= b <= c /\ c <= d < n.
Proof.
  unfold tuples4. rewrite in_flat_map. split.
  - intros (a & I & J). apply in_seq in I. apply in_flat_map in J as (b & I2 & J). apply in_seq in I2.
    apply in_flat_map in J as (c & I3 & J). apply in_seq in I3.
    apply in_map_iff in J as (d & <- & J). apply in_seq in J. exists a, b, c, d. split; [reflexivity|lia].
  - intros (a & b & c & d & -> & H). exists a. split; [apply in_seq; lia|]. apply in_flat_map. exists b. split; [apply in_seq; lia|].
    apply in_flat_map. exists c. split; [apply in_seq; lia|]. apply in_map_iff. exists d. split; [reflexivity|apply in_seq; lia].
Qed.

Fixpoint ins (x : nat) (l : list nat) : list nat := match l with [] => [x] | y :: r => if Nat.leb x y then x :: l else y :: ins x r end.
Fixpoint isort (l : list nat) : list nat := match l with [] => [] | x :: r => ins x (isort r) end.
Lemma ins_perm x l : Permutation (ins x l) (x :: l).
Proof.
  induction l as [|y r IH]; [reflexivity|]. cbn. destruct (Nat.leb x y); [reflexivity|].
  rewrite IH. apply perm_swap.
Qed.
Lemma isort_perm l : Permutation (isort l) l.
Proof. induction l as [|x r IH]; [reflexivity|]. cbn. rewrite ins_perm. now apply perm_skip. Qed.
Lemma ins_sorted x l : Sorted le l -> Sorted le (ins x l).
Proof.
  induction 1 as [|y r HS IH HR]; [repeat constructor|]. cbn. destruct (Nat.leb_spec x y).
  - constructor; [now constructor|]. now constructor.
  - constructor; [exact IH|]. destruct HR as [|z r HR]; cbn; [constructor; lia|]. destruct (Nat.leb x z); constructor; lia.
Qed.
Lemma isort_sorted l : Sorted le (isort l).
Proof. induction l; [constructor|]. now apply ins_sorted. Qed.

Section Final.
  Context {A : Type}.
  Variable writes : list nat -> list (list nat).
  Variable L : list (list nat).
  Variables n r : nat.
  Hypothesis HL : forall s, In s L <-> length s = r /\ below n s /\ Sorted le s.
  Hypothesis HC : forall s, In s L -> covers writes s.
  Lemma final T : forall T0 : tensor A, T = fold_left (fun T s => assign_all s (writes s) T) L T0 ->
    symmetric_tensor n r T /\ (forall i, length i = r -> below n i -> canonical i -> T i = T0 i) /\
    (forall i, length i <> r \/ ~ below n i -> T i = T0 i).
  Proof.
    intros T0 E.
    assert (F : Forall (fun s => canonical s /\ covers writes s) L).
    { apply Forall_forall. intros s I. split; [apply HL in I; tauto|now apply HC]. }
    destruct (assign_fold writes L F T0) as [F1 F2]. rewrite <- E in F1, F2.
    assert (V : forall i, length i = r -> below n i -> T i = T0 (isort i)).
    { intros i Li Bi. apply F1; [|symmetry; apply isort_perm]. apply HL. split; [|split].
      - rewrite <- Li. apply Permutation_length, isort_perm.
      - unfold below in *. rewrite Forall_forall in *. intros x I. apply Bi. eapply Permutation_in; [apply isort_perm|exact I].
      - apply isort_sorted. }
    split; [|split].
    - intros i j Li Bi P. rewrite V by assumption. rewrite V.
      + f_equal. apply sorted_perm_eq; try apply isort_sorted. rewrite !isort_perm. exact P.
      + rewrite <- Li. now apply Permutation_length, Permutation_sym.
      + unfold below in *. rewrite Forall_forall in *. intros x I. apply Bi. eapply Permutation_in; [symmetry; exact P|exact I].
    - intros i Li Bi C. rewrite V by assumption. f_equal. apply sorted_perm_eq; [apply isort_sorted|exact C|apply isort_perm].
    - intros i N. apply F2. intros s I P. apply HL in I as (Ls & Bs & _). destruct N as [N|N].
      + apply N. rewrite <- Ls. now apply Permutation_length.
      + apply N. unfold below in *. rewrite Forall_forall in *. intros x J. apply Bs. eapply Permutation_in; [exact P|exact J].
  Qed.
End Final.
Ltac cases_len s Ls := repeat (destruct s as [|? s]; cbn in Ls; try discriminate Ls).
Lemma sym2_ok {A} n (T : tensor A) :
  symmetric_tensor n 2 (sym2Dim T n n) /\ (forall i, length i = 2 -> below n i -> canonical i -> sym2Dim T n n i = T i) /\
  (forall i, length i <> 2 \/ ~ below n i -> sym2Dim T n n i = T i).
Proof.
  apply (final writes2 (tuples2 n n) n 2) with (T0 := T); [| |apply sym2_flat].
  - intro s. rewrite in_tuples2. split.
    + intros (a & b & -> & H). split; [reflexivity|]. split; [repeat constructor; lia|]. repeat constructor. lia.
    + intros (Ls & B & C). cases_len s Ls. do 2 eexists. split; [reflexivity|].
      unfold below in B. repeat match goal with H : Forall _ (_ :: _) |- _ => inversion H; clear H; subst
        | H : Sorted _ (_ :: _) |- _ => inversion H; clear H; subst | H : HdRel _ _ (_ :: _) |- _ => inversion H; clear H; subst end. lia.
  - intros s I. apply in_tuples2 in I as (a & b & -> & _). apply covers2.
Qed.
Lemma sym3_ok {A} n (T : tensor A) :
  symmetric_tensor n 3 (sym3Dim T n n n) /\ (forall i, length i = 3 -> below n i -> canonical i -> sym3Dim T n n n i = T i) /\
  (forall i, length i <> 3 \/ ~ below n i -> sym3Dim T n n n i = T i).
Proof.
  apply (final writes3 (tuples3 n n n) n 3) with (T0 := T); [| |apply sym3_flat].
  - intro s. rewrite in_tuples3. split.
    + intros (a & b & c & -> & H). split; [reflexivity|]. split; [repeat constructor; lia|]. repeat constructor; lia.
    + intros (Ls & B & C). cases_len s Ls. do 3 eexists. split; [reflexivity|].
      unfold below in B. repeat match goal with H : Forall _ (_ :: _) |- _ => inversion H; clear H; subst
        | H : Sorted _ (_ :: _) |- _ => inversion H; clear H; subst | H : HdRel _ _ (_ :: _) |- _ => inversion H; clear H; subst end. lia.
  - intros s I. apply in_tuples3 in I as (a & b & c & -> & _). apply covers3.
Qed.
Lemma sym4_ok {A} n (T : tensor A) :
  symmetric_tensor n 4 (sym4Dim T n n n n) /\ (forall i, length i = 4 -> below n i -> canonical i -> sym4Dim T n n n n i = T i) /\
  (forall i, length i <> 4 \/ ~ below n i -> sym4Dim T n n n n i = T i).
Proof.
  apply (final writes4 (tuples4 n n n n) n 4) with (T0 := T); [| |apply sym4_flat].
  - intro s. rewrite in_tuples4. split.
    + intros (a & b & c & d & -> & H). split; [reflexivity|]. split; [repeat constructor; lia|]. repeat constructor; lia.
    + intros (Ls & B & C). cases_len s Ls. do 4 eexists. split; [reflexivity|].
      unfold below in B. repeat match goal with H : Forall _ (_ :: _) |- _ => inversion H; clear H; subst
        | H : Sorted _ (_ :: _) |- _ => inversion H; clear H; subst | H : HdRel _ _ (_ :: _) |- _ => inversion H; clear H; subst end. lia.
  - intros s I. apply in_tuples4 in I as (a & b & c & d & -> & _). apply covers4.
Qed.
