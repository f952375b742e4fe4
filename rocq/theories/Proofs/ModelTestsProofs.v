(** Proofs about the checks of an implemented model. *)
From Coq Require Import Reals Lra Lia List ZArith Permutation Sorted Bool.
From Verif Require Import Model.ModelTests Spec.ModelTestsSpec.
Import ListNotations.
Local Open Scope R_scope.

(** ** loops and comparisons *)
Lemma andthen_pass x y : andthen x y = Pass <-> x = Pass /\ y = Pass.
Proof. destruct x; cbn; intuition congruence. Qed.
Lemma andthen_throw x y : andthen x y = Throw -> x = Throw \/ y = Throw.
Proof. destruct x; cbn; intuition congruence. Qed.
Lemma fold_pass {A} (f : A -> outcome) l : fold_right (fun i => andthen (f i)) Pass l = Pass <-> forall i, In i l -> f i = Pass.
Proof.
  induction l as [|x l IH]; cbn [fold_right In]; [tauto|]. rewrite andthen_pass, IH. split.
  - intros [A1 A2] i [<-|I]; [exact A1|exact (A2 i I)].
  - intros H. split; [apply H; left; reflexivity|]. intros i I. apply H. right. exact I.
Qed.
Lemma fold_throw {A} (f : A -> outcome) l : fold_right (fun i => andthen (f i)) Pass l = Throw -> exists i, In i l /\ f i = Throw.
Proof.
  induction l as [|x l IH]; cbn [fold_right In]; [discriminate|]. intros H. apply andthen_throw in H. destruct H as [H|H]; [exists x; tauto|].
  destruct (IH H) as (i & I & J). exists i. tauto.
Qed.
Lemma loop_pass n body : loop n body = Pass <-> forall i, (i < n)%nat -> body i = Pass.
Proof. unfold loop. rewrite fold_pass. split; intros H i I; apply H; [apply in_seq; lia|apply in_seq in I; lia]. Qed.
Lemma loop_throw n body : (forall i, (i < n)%nat -> body i <> Throw) -> loop n body <> Throw.
Proof. intros H E. apply fold_throw in E. destruct E as (i & I & J). apply in_seq in I. apply (H i); [lia|exact J]. Qed.

Lemma neqb_same x y : neqb x y = false <-> exists r, x = Some r /\ y = Some r.
Proof.
  destruct x as [x|], y as [y|]; cbn; try (split; [discriminate|intros (r & A & B); discriminate]).
  destruct (Req_EM_T x y) as [->|N]; split; try discriminate; try (intros _; exists y; split; reflexivity); intros; try reflexivity.
  destruct H as (r & A & B). congruence.
Qed.
Lemma compare_pass x y : compare neqb x y = Pass <-> same x y.
Proof.
  unfold compare, same, verdict. destruct x as [x|], y as [y|]; try (split; [discriminate|intros (r & A & B); discriminate]).
  pose proof (neqb_same x y) as N. destruct (neqb x y).
  - split; [discriminate|]. intros (r & A & B). assert (true = false); [|discriminate]. apply N. exists r. split; congruence.
  - split; [|reflexivity]. intros _. destruct (proj1 N eq_refl) as (r & -> & ->). exists r. split; reflexivity.
Qed.
Lemma compare_cpass x y : compare cneqb x y = Pass <-> csame x y.
Proof.
  unfold compare, csame, verdict, cneqb. destruct x as [[x u]|], y as [[y v]|]; try (split; [discriminate|intros (r & s & A & B); discriminate]). cbn [fst snd].
  pose proof (neqb_same x y) as N. pose proof (neqb_same u v) as M. destruct (neqb x y) eqn:E1, (neqb u v) eqn:E2; cbn [orb];
    (split; [try discriminate|try reflexivity]).
  - intros (r & s & A & B). assert (true = false); [|discriminate]. apply N. exists r. split; congruence.
  - intros (r & s & A & B). assert (true = false); [|discriminate]. apply N. exists r. split; congruence.
  - intros (r & s & A & B). assert (true = false); [|discriminate]. apply M. exists s. split; congruence.
  - intros _. destruct (proj1 N eq_refl) as (r & -> & ->), (proj1 M eq_refl) as (s & -> & ->). exists r, s. split; reflexivity.
Qed.
Lemma compare_throw {A} (f : A -> A -> bool) x y : x <> None -> y <> None -> compare f x y <> Throw.
Proof. destruct x, y; cbn; try congruence. intros _ _. unfold verdict. destruct (f a a0); discriminate. Qed.

(** ** entries *)
Lemma nth_entry {A} (l : list (list A)) i j : at1 (nth_error l i) j = nth_error (nth i l []) j.
Proof.
  unfold at1. destruct (nth_error l i) as [r|] eqn:E; [apply nth_error_nth with (d := []) in E; rewrite E; reflexivity|].
  apply nth_error_None in E. rewrite nth_overflow by exact E. destruct j; reflexivity.
Qed.
Lemma at2_entry {A} (t : list (list A)) i j : at2 t i j = entry2 t i j.
Proof. apply nth_entry. Qed.
Lemma at3_entry {A} (t : list (list (list A))) i j k : at3 t i j k = entry3 t i j k.
Proof. unfold at3. rewrite at2_entry. apply nth_entry. Qed.
Lemma at4_entry {A} (t : list (list (list (list A)))) i j k l : at4 t i j k l = entry4 t i j k l.
Proof. unfold at4. rewrite at3_entry. apply nth_entry. Qed.

Lemma sizes_iff {A} n (t : list (list A)) : sizes n t = true <-> forall r, In r t -> length r = n.
Proof. unfold sizes. rewrite forallb_forall. split; intros H r I; specialize (H r I); apply Nat.eqb_eq; exact H. Qed.
Lemma nth_in {A} (t : list (list A)) i : (i < length t)%nat -> In (nth i t []) t.
Proof. apply nth_In. Qed.
Lemma entry2_in {A} n m (t : list (list A)) i j : square n m t -> (i < n)%nat -> (j < m)%nat -> entry2 t i j <> None.
Proof. intros [L H] I J. unfold entry2. apply nth_error_Some. rewrite (H (nth i t [])); [exact J|]. apply nth_In. lia. Qed.
Lemma entry3_in {A} n m k (t : list (list (list A))) a b c : cube n m k t -> (a < n)%nat -> (b < m)%nat -> (c < k)%nat -> entry3 t a b c <> None.
Proof. intros [L H] I J K. apply (entry2_in m k (nth a t []) b c); [|exact J|exact K]. apply H, nth_In. lia. Qed.
Lemma entry4_in {A} n m k l (t : list (list (list (list A)))) a b c d : cube4 n m k l t -> (a < n)%nat -> (b < m)%nat -> (c < k)%nat -> (d < l)%nat -> entry4 t a b c d <> None.
Proof. intros [L H] I J K D. apply (entry3_in m k l (nth a t []) b c d); try assumption. apply H, nth_In. lia. Qed.

(** ** permutations of few elements *)
Lemma perm_cons {A} (l l' : list A) a : Permutation l (a :: l') -> exists l1 l2, l = l1 ++ a :: l2 /\ Permutation (l1 ++ l2) l'.
Proof.
  intros H. destruct (Permutation_vs_cons_inv H) as (l1 & l2 & ->). exists l1, l2. split; [reflexivity|].
  apply Permutation_sym, (Permutation_cons_app_inv l1 l2 (a := a)), Permutation_sym, H.
Qed.
Lemma perm1 {A} (i i' : A) : Permutation [i] [i'] -> i' = i.
Proof. intros H. apply Permutation_length_1 in H. congruence. Qed.
Lemma perm2 {A} (i j i' j' : A) : Permutation [i; j] [i'; j'] -> (i' = i /\ j' = j) \/ (i' = j /\ j' = i).
Proof. intros H. apply Permutation_length_2_inv in H. destruct H as [H|H]; inversion H; tauto. Qed.
Lemma perm3 {A} (i j k i' j' k' : A) : Permutation [i; j; k] [i'; j'; k'] ->
  In (i', j', k') [(i, j, k); (i, k, j); (j, i, k); (j, k, i); (k, i, j); (k, j, i)].
Proof.
  intros H. apply perm_cons in H. destruct H as (l1 & l2 & E & P).
  destruct l1 as [|x1 [|x2 [|x3 l1]]]; cbn [app] in E; [| | |destruct l1; discriminate]; inversion E; subst; clear E; cbn [app] in P; apply perm2 in P;
    destruct P as [[-> ->]|[-> ->]]; cbn; tauto.
Qed.
Lemma perm4 {A} (i j k l i' j' k' l' : A) : Permutation [i; j; k; l] [i'; j'; k'; l'] ->
  In (i', j', k', l') ((i, j, k, l) ::
  [(i,j,l,k); (i,k,j,l); (i,k,l,j); (i,l,j,k); (i,l,k,j);
   (j,i,k,l); (j,i,l,k); (j,k,i,l); (j,k,l,i); (j,l,i,k); (j,l,k,i);
   (k,i,j,l); (k,i,l,j); (k,j,i,l); (k,j,l,i); (k,l,i,j); (k,l,j,i);
   (l,i,j,k); (l,i,k,j); (l,j,i,k); (l,j,k,i); (l,k,i,j); (l,k,j,i)]).
Proof.
  intros H. apply perm_cons in H. destruct H as (l1 & l2 & E & P).
  destruct l1 as [|x1 [|x2 [|x3 [|x4 l1]]]]; cbn [app] in E; [| | | |destruct l1; discriminate]; inversion E; subst; clear E; cbn [app] in P; apply perm3 in P;
    cbn [In] in P; repeat (destruct P as [P|P]; [inversion P; subst; cbn [In]; tauto|]); destruct P.
Qed.
Lemma perm4_all (i j k l a b c d : nat) : In (a, b, c, d) (PermutationOrders i j k l) -> Permutation [i; j; k; l] [a; b; c; d].
Proof.
  unfold PermutationOrders. cbn [In]. intros H.
  assert (P3 : forall x y z : nat, Permutation [x; y; z] [x; z; y] /\ Permutation [x; y; z] [y; x; z] /\ Permutation [x; y; z] [y; z; x] /\ Permutation [x; y; z] [z; x; y] /\ Permutation [x; y; z] [z; y; x]).
  { intros x y z. assert (S1 : Permutation [x; y; z] [x; z; y]) by (apply perm_skip, perm_swap). assert (S2 : Permutation [x; y; z] [y; x; z]) by apply perm_swap.
    repeat split; [exact S1|exact S2|eapply perm_trans; [exact S2|apply perm_skip, perm_swap]|eapply perm_trans; [exact S1|apply perm_swap]|].
    eapply perm_trans; [exact S2|]. eapply perm_trans; [apply perm_skip, perm_swap|]. apply perm_swap. }
  assert (F2 : Permutation [i; j; k; l] [j; i; k; l]) by apply perm_swap.
  assert (F3 : Permutation [i; j; k; l] [k; i; j; l]).
  { eapply perm_trans; [apply perm_skip, perm_swap|]. apply perm_swap. }
  assert (F4 : Permutation [i; j; k; l] [l; i; j; k]).
  { eapply perm_trans; [apply perm_skip, perm_skip, perm_swap|]. eapply perm_trans; [apply perm_skip, perm_swap|]. apply perm_swap. }
  repeat (destruct H as [H|H]; [inversion H; subst;
    first [apply perm_skip; first [reflexivity|apply P3] | eapply perm_trans; [exact F2|]; apply perm_skip; first [reflexivity|apply P3]
          | eapply perm_trans; [exact F3|]; apply perm_skip; first [reflexivity|apply P3] | eapply perm_trans; [exact F4|]; apply perm_skip; first [reflexivity|apply P3]]|]).
  destruct H.
Qed.
Lemma perm_bound (l l' : list nat) n : Permutation l l' -> (forall x, In x l -> (x < n)%nat) -> forall x, In x l' -> (x < n)%nat.
Proof. intros P H x I. apply H. apply Permutation_in with (l := l'); [apply Permutation_sym; exact P|exact I]. Qed.

Lemma same_refl x y : same x y -> same x x.
Proof. intros (r & -> & _). exists r. split; reflexivity. Qed.
Lemma same_sym x y : same x y -> same y x.
Proof. intros (r & A & B). exists r. split; assumption. Qed.

(** ** the tensors *)
Lemma second_correct t : (CheckSymmetricTensorScalarSecond t = Pass <-> symmetric2 t) /\ CheckSymmetricTensorScalarSecond t <> Throw.
Proof.
  destruct t as [|r t0] eqn:E; [split; [split; [|reflexivity]|discriminate]; intros _; split; [split; [reflexivity|intros r []]|intros i j i' j' I; cbn in I; lia]|].
  rewrite <- E. assert (D : CheckSymmetricTensorScalarSecond t = let n := length t in let m := length r in
    if negb (Nat.eqb n m) then Fail else if negb (sizes m t) then Fail
    else loop n (fun i => loop m (fun j => if Nat.ltb j i then Pass else compare neqb (at2 t i j) (at2 t j i)))) by (rewrite E; reflexivity).
  assert (R : In r t) by (rewrite E; left; reflexivity). clear E. rewrite D. cbn zeta. clear D.
  destruct (Nat.eqb (length t) (length r)) eqn:E1; cbn [negb].
  2:{ apply Nat.eqb_neq in E1. split; [|discriminate]. split; [discriminate|]. intros [[_ S] _]. specialize (S r R). lia. }
  apply Nat.eqb_eq in E1. rewrite <- E1. destruct (sizes (length t) t) eqn:E2; cbn [negb].
  2:{ split; [|discriminate]. split; [discriminate|]. intros [[_ S] _]. apply (sizes_iff (length t) t) in S. congruence. }
  assert (S : square (length t) (length t) t) by (split; [reflexivity|apply sizes_iff; exact E2]). split.
  - rewrite loop_pass. split.
    + intros H. split; [exact S|]. assert (G : forall i j, (i < length t)%nat -> (j < length t)%nat -> same (entry2 t i j) (entry2 t j i)).
      { intros i j I J. destruct (Nat.le_gt_cases i j) as [L|L].
        - specialize (H i I). rewrite loop_pass in H. specialize (H j J). destruct (Nat.ltb_spec j i); [lia|]. rewrite !at2_entry in H. apply compare_pass. exact H.
        - specialize (H j J). rewrite loop_pass in H. specialize (H i I). destruct (Nat.ltb_spec i j); [lia|]. rewrite !at2_entry in H. apply same_sym, compare_pass. exact H. }
      intros i j i' j' I J P. apply perm2 in P. destruct P as [[-> ->]|[-> ->]]; [|apply G; assumption]. eapply same_refl. apply G; assumption.
    + intros [_ H] i I. rewrite loop_pass. intros j J. destruct (Nat.ltb_spec j i); [reflexivity|]. rewrite !at2_entry. apply compare_pass. apply H; [exact I|exact J|apply perm_swap].
  - apply loop_throw. intros i I. apply loop_throw. intros j J. destruct (Nat.ltb j i); [discriminate|]. rewrite !at2_entry.
    apply compare_throw; eapply entry2_in; eassumption.
Qed.
Lemma cube_iff {A} n (t : list (list (list A))) : length t = n -> forallb (fun f => andb (Nat.eqb (length f) n) (sizes n f)) t = true <-> cube n n n t.
Proof.
  intros L. rewrite forallb_forall. split.
  - intros H. split; [exact L|]. intros r I. specialize (H r I). apply andb_prop in H. destruct H as [H1 H2]. apply Nat.eqb_eq in H1. split; [exact H1|apply sizes_iff; exact H2].
  - intros [_ H] r I. destruct (H r I) as [H1 H2]. apply andb_true_intro. split; [apply Nat.eqb_eq; exact H1|apply sizes_iff; exact H2].
Qed.
Lemma third_correct t : (CheckSymmetricTensorScalarThird t = Pass <-> symmetric3 t) /\ CheckSymmetricTensorScalarThird t <> Throw.
Proof.
  destruct t as [|r t0] eqn:E; [split; [split; [|reflexivity]|discriminate]; intros _; split; [split; [reflexivity|intros r []]|intros i j k i' j' k' I; cbn in I; lia]|].
  rewrite <- E. assert (D : CheckSymmetricTensorScalarThird t = let n := length t in
    if negb (forallb (fun f => andb (Nat.eqb (length f) n) (sizes n f)) t) then Fail
    else loop n (fun i => loop n (fun j => loop n (fun k =>
      andthen (compare neqb (at3 t i j k) (at3 t i k j)) (andthen (compare neqb (at3 t i j k) (at3 t j i k))
      (andthen (compare neqb (at3 t i j k) (at3 t j k i)) (andthen (compare neqb (at3 t i j k) (at3 t k i j)) (compare neqb (at3 t i j k) (at3 t k j i))))))))) by (rewrite E; reflexivity).
  clear E. rewrite D. cbn zeta. clear D. pose proof (cube_iff (length t) t eq_refl) as C.
  destruct (forallb _ t); cbn [negb].
  2:{ split; [|discriminate]. split; [discriminate|]. intros [S _]. apply C in S. discriminate. }
  destruct C as [C _]. specialize (C eq_refl). split.
  - rewrite loop_pass. split.
    + intros H. split; [exact C|]. intros i j k i' j' k' I J K P. specialize (H i I). rewrite loop_pass in H. specialize (H j J). rewrite loop_pass in H. specialize (H k K).
      rewrite !andthen_pass, !at3_entry, !compare_pass in H. destruct H as (H1 & H2 & H3 & H4 & H5). apply perm3 in P. cbn [In] in P.
      destruct P as [P|[P|[P|[P|[P|[P|[]]]]]]]; inversion P; subst; try assumption. eapply same_refl. exact H1.
    + intros [_ H] i I. rewrite loop_pass. intros j J. rewrite loop_pass. intros k K. rewrite !andthen_pass, !at3_entry, !compare_pass.
      assert (S1 : Permutation [i; j; k] [i; k; j]) by (apply perm_skip, perm_swap). assert (S2 : Permutation [i; j; k] [j; i; k]) by apply perm_swap.
      assert (S3 : Permutation [i; j; k] [j; k; i]) by (eapply perm_trans; [exact S2|apply perm_skip, perm_swap]).
      assert (S4 : Permutation [i; j; k] [k; i; j]) by (eapply perm_trans; [exact S1|apply perm_swap]).
      assert (S5 : Permutation [i; j; k] [k; j; i]) by (eapply perm_trans; [exact S3|apply perm_swap]).
      repeat split; apply H; assumption.
  - apply loop_throw. intros i I. apply loop_throw. intros j J. apply loop_throw. intros k K. rewrite !at3_entry.
    intros T. repeat (apply andthen_throw in T; destruct T as [T|T]); revert T; apply compare_throw; eapply entry3_in; eassumption.
Qed.
Lemma cube4_iff {A} n (t : list (list (list (list A)))) : length t = n ->
  forallb (fun f => andb (Nat.eqb n (length f)) (forallb (fun s => andb (Nat.eqb (length s) n) (sizes n s)) f)) t = true <-> cube4 n n n n t.
Proof.
  intros L. rewrite forallb_forall. split.
  - intros H. split; [exact L|]. intros r I. specialize (H r I). apply andb_prop in H. destruct H as [H1 H2]. apply Nat.eqb_eq in H1. apply (cube_iff n r); [congruence|exact H2].
  - intros [_ H] r I. specialize (H r I). pose proof (proj1 H) as H1. apply andb_true_intro. split; [apply Nat.eqb_eq; congruence|]. apply (cube_iff n r H1). exact H.
Qed.
Lemma fourth_correct t : (CheckSymmetricTensorScalarFourth t = Pass <-> symmetric4 t) /\ CheckSymmetricTensorScalarFourth t <> Throw.
Proof.
  destruct t as [|r t0] eqn:E; [split; [split; [|reflexivity]|discriminate]; intros _; split; [split; [reflexivity|intros r []]|intros i j k l i' j' k' l' I; cbn in I; lia]|].
  rewrite <- E. assert (D : CheckSymmetricTensorScalarFourth t = let n := length t in
    if negb (forallb (fun f => andb (Nat.eqb n (length f)) (forallb (fun s => andb (Nat.eqb (length s) n) (sizes n s)) f)) t) then Fail
    else loop n (fun i => loop n (fun j => loop n (fun k => loop n (fun l => CheckFourPermutation t i j k l))))) by (rewrite E; reflexivity).
  clear E. rewrite D. cbn zeta. clear D. pose proof (cube4_iff (length t) t eq_refl) as C.
  destruct (forallb _ t); cbn [negb].
  2:{ split; [|discriminate]. split; [discriminate|]. intros [S _]. apply C in S. discriminate. }
  destruct C as [C _]. specialize (C eq_refl).
  assert (F : forall i j k l, CheckFourPermutation t i j k l = Pass <-> forall a b c d, In (a, b, c, d) (PermutationOrders i j k l) -> same (entry4 t i j k l) (entry4 t a b c d)).
  { intros i j k l. unfold CheckFourPermutation.
    assert (W : forall L, fold_right (fun '(a, b, c, d) => andthen (compare neqb (at4 t i j k l) (at4 t a b c d))) Pass L = fold_right (fun p => andthen ((fun '(a, b, c, d) => compare neqb (at4 t i j k l) (at4 t a b c d)) p)) Pass L).
    { induction L as [|p L IH]; [reflexivity|]. cbn [fold_right]. rewrite IH. destruct p as [[[a b] c] d]. reflexivity. }
    rewrite W, fold_pass. split.
    - intros H a b c d I. specialize (H (a, b, c, d) I). cbn beta iota in H. rewrite !at4_entry in H. apply compare_pass. exact H.
    - intros H [[[a b] c] d] I. rewrite !at4_entry. apply compare_pass. apply H. exact I. }
  split.
  - rewrite loop_pass. split.
    + intros H. split; [exact C|]. intros i j k l i' j' k' l' I J K L P.
      specialize (H i I). rewrite loop_pass in H. specialize (H j J). rewrite loop_pass in H. specialize (H k K). rewrite loop_pass in H. specialize (H l L).
      pose proof (proj1 (F i j k l) H) as G. apply perm4 in P. destruct P as [P|P].
      * inversion P; subst. eapply same_refl. apply (G i' j' l' k'). left. reflexivity.
      * apply G. exact P.
    + intros [_ H] i I. rewrite loop_pass. intros j J. rewrite loop_pass. intros k K. rewrite loop_pass. intros l L. apply F. intros a b c d P. apply H; try assumption.
      apply perm4_all. exact P.
  - apply loop_throw. intros i I. apply loop_throw. intros j J. apply loop_throw. intros k K. apply loop_throw. intros l L T.
    unfold CheckFourPermutation in T.
    assert (W : forall L, fold_right (fun '(a, b, c, d) => andthen (compare neqb (at4 t i j k l) (at4 t a b c d))) Pass L = fold_right (fun p => andthen ((fun '(a, b, c, d) => compare neqb (at4 t i j k l) (at4 t a b c d)) p)) Pass L).
    { induction L0 as [|p L0 IH]; [reflexivity|]. cbn [fold_right]. rewrite IH. destruct p as [[[a b] c] d]. reflexivity. }
    rewrite W in T. apply fold_throw in T. destruct T as ([[[a b] c] d] & P & T). apply perm4_all in P.
    assert (B : forall x, In x [a; b; c; d] -> (x < length t)%nat).
    { apply (perm_bound [i; j; k; l]); [exact P|]. intros x. cbn [In]. intros [<-|[<-|[<-|[<-|[]]]]]; assumption. }
    rewrite !at4_entry in T. revert T. apply compare_throw; eapply entry4_in; try eassumption; apply B; cbn; tauto.
Qed.

Lemma csame_sym x y : csame x y -> csame y x.
Proof. intros (r & s & A & B). exists r, s. split; assumption. Qed.
Lemma leptons_correct t : (CheckSymmetricTensorLeptons t = Pass <-> fermions2 t) /\ CheckSymmetricTensorLeptons t <> Throw.
Proof.
  destruct t as [|r t0] eqn:E; [split; [split; [|reflexivity]|discriminate]; intros _; split; [split; [reflexivity|intros r []]|intros i j I; cbn in I; lia]|].
  rewrite <- E. assert (D : CheckSymmetricTensorLeptons t = let n := length t in
    if negb (sizes n t) then Fail else loop n (fun i => loop n (fun j => compare cneqb (at2 t i j) (at2 t j i)))) by (rewrite E; reflexivity).
  clear E. rewrite D. cbn zeta. clear D. destruct (sizes (length t) t) eqn:E2; cbn [negb].
  2:{ split; [|discriminate]. split; [discriminate|]. intros [[_ S] _]. apply (sizes_iff (length t) t) in S. congruence. }
  assert (S : square (length t) (length t) t) by (split; [reflexivity|apply sizes_iff; exact E2]). split.
  - rewrite loop_pass. split.
    + intros H. split; [exact S|]. intros i j I J. specialize (H i I). rewrite loop_pass in H. specialize (H j J). rewrite !at2_entry in H. apply compare_cpass. exact H.
    + intros [_ H] i I. rewrite loop_pass. intros j J. rewrite !at2_entry. apply compare_cpass, H; assumption.
  - apply loop_throw. intros i I. apply loop_throw. intros j J. rewrite !at2_entry. apply compare_throw; eapply entry2_in; eassumption.
Qed.
Lemma leptons3_correct t h : cube (length t) (length t) h t -> (CheckSymmetricTensorLeptonsThird t = Pass <-> fermions3 h t) /\ CheckSymmetricTensorLeptonsThird t <> Throw.
Proof.
  intros C. destruct t as [|r t0] eqn:E; [split; [split; [|reflexivity]|discriminate]; intros _; split; [exact C|intros i j k I; cbn in I; lia]|].
  rewrite <- E in *. assert (D : CheckSymmetricTensorLeptonsThird t = let n := length t in
    if negb (sizes n t) then Fail
    else match at2 t 0 0 with
         | None => Throw
         | Some first => loop n (fun i => loop n (fun j => loop (length first) (fun k => compare cneqb (at3 t i j k) (at3 t j i k))))
         end) by (rewrite E; reflexivity).
  assert (N : (0 < length t)%nat) by (rewrite E; cbn; lia). clear E. rewrite D. cbn zeta. clear D.
  assert (S : sizes (length t) t = true) by (apply sizes_iff; intros x I; apply C; exact I). rewrite S. cbn [negb].
  assert (F : exists f, at2 t 0 0 = Some f /\ length f = h).
  { rewrite at2_entry. assert (Q : square (length t) (length t) t) by (split; [reflexivity|intros x I; apply C; exact I]).
    pose proof (entry2_in _ _ t 0 0 Q N N) as G. destruct (entry2 t 0 0) as [f|] eqn:E; [|congruence]. exists f. split; [reflexivity|].
    unfold entry2 in E. apply nth_error_In in E. destruct C as [_ C]. apply (C (nth 0 t [])); [apply nth_In; exact N|exact E]. }
  destruct F as (f & -> & ->). split.
  - rewrite loop_pass. split.
    + intros H. split; [exact C|]. intros i j k I J K. specialize (H i I). rewrite loop_pass in H. specialize (H j J). rewrite loop_pass in H. specialize (H k K).
      rewrite !at3_entry in H. apply compare_cpass. exact H.
    + intros [_ H] i I. rewrite loop_pass. intros j J. rewrite loop_pass. intros k K. rewrite !at3_entry. apply compare_cpass, H; assumption.
  - apply loop_throw. intros i I. apply loop_throw. intros j J. apply loop_throw. intros k K. rewrite !at3_entry. apply compare_throw; eapply entry3_in; eassumption.
Qed.
Lemma gauge_correct t : (CheckSymmetricTensorGauge t = Pass <-> t = [] \/ exists h, (0 < h)%nat /\ gauge4 h t) /\ CheckSymmetricTensorGauge t <> Throw.
Proof.
  destruct t as [|r t0] eqn:E; [split; [split; [|reflexivity]|discriminate]; intros _; left; reflexivity|].
  rewrite <- E. assert (D : CheckSymmetricTensorGauge t = let n := length t in
    if negb (sizes n t) then Fail
    else match at2 t 0 0 with
         | None => Throw
         | Some first => let m := length first in
           if Nat.eqb m 0 then Fail
           else if negb (forallb (fun ra => forallb (fun rh => andb (Nat.eqb (length rh) m) (sizes m rh)) ra) t) then Fail
           else loop n (fun a => loop n (fun b => loop m (fun i => loop m (fun j =>
             andthen (compare neqb (at4 t a b i j) (at4 t a b j i)) (andthen (compare neqb (at4 t a b i j) (at4 t b a j i)) (compare neqb (at4 t a b i j) (at4 t b a i j)))))))
         end) by (rewrite E; reflexivity).
  assert (N : (0 < length t)%nat) by (rewrite E; cbn; lia). assert (N' : t <> []) by (rewrite E; discriminate). clear E. rewrite D. cbn zeta. clear D.
  destruct (sizes (length t) t) eqn:S; cbn [negb].
  2:{ split; [|discriminate]. split; [discriminate|]. intros [Z|(h & _ & [[_ G] _])]; [contradiction|]. assert (sizes (length t) t = true); [|congruence].
      apply sizes_iff. intros x I. apply (G x I). }
  assert (Q : square (length t) (length t) t) by (split; [reflexivity|apply sizes_iff; exact S]).
  pose proof (entry2_in _ _ t 0 0 Q N N) as G. rewrite at2_entry. destruct (entry2 t 0 0) as [f|] eqn:E; [|congruence]. clear G.
  assert (FH : forall h, gauge4 h t -> length f = h).
  { intros h [[_ C] _]. unfold entry2 in E. apply nth_error_In in E. specialize (C (nth 0 t []) (nth_In t [] N)). destruct C as [_ C]. apply (C f E). }
  destruct (Nat.eqb (length f) 0) eqn:E1.
  { apply Nat.eqb_eq in E1. split; [|discriminate]. split; [discriminate|]. intros [Z|(h & P & H)]; [contradiction|]. specialize (FH h H). lia. }
  apply Nat.eqb_neq in E1. destruct (forallb _ t) eqn:E2; cbn [negb].
  2:{ split; [|discriminate]. split; [discriminate|]. intros [Z|(h & P & H)]; [contradiction|]. pose proof (FH h H) as F. destruct H as [[_ C] _]. exfalso.
      assert (forallb (fun ra => forallb (fun rh => andb (Nat.eqb (length rh) (length f)) (sizes (length f) rh)) ra) t = true); [|congruence].
      apply forallb_forall. intros x I. apply forallb_forall. intros y J. destruct (C x I) as [_ C2]. destruct (C2 y J) as [C3 C4]. rewrite F. apply andb_true_intro.
      split; [apply Nat.eqb_eq; exact C3|apply sizes_iff; exact C4]. }
  set (h := length f) in *. assert (C : cube4 (length t) (length t) h h t).
  { split; [reflexivity|]. intros x I. split; [apply Q; exact I|]. intros y J. rewrite forallb_forall in E2. specialize (E2 x I). rewrite forallb_forall in E2. specialize (E2 y J).
    apply andb_prop in E2. destruct E2 as [A B]. apply Nat.eqb_eq in A. split; [exact A|apply sizes_iff; exact B]. }
  split.
  - rewrite loop_pass. split.
    + intros H. right. exists h. split; [lia|]. split; [exact C|]. intros a b i j a' b' i' j' A B I J P1 P2.
      specialize (H a A). rewrite loop_pass in H. specialize (H b B). rewrite loop_pass in H. specialize (H i I). rewrite loop_pass in H. specialize (H j J).
      rewrite !andthen_pass, !at4_entry, !compare_pass in H. destruct H as (H1 & H2 & H3). apply perm2 in P1. apply perm2 in P2.
      destruct P1 as [[-> ->]|[-> ->]], P2 as [[-> ->]|[-> ->]]; try assumption. eapply same_refl. exact H1.
    + intros [Z|(h' & P & H)]; [contradiction|]. pose proof (FH h' H) as F. fold h in F. subst h'. destruct H as [_ H]. intros a A. rewrite loop_pass. intros b B.
      rewrite loop_pass. intros i I. rewrite loop_pass. intros j J. rewrite !andthen_pass, !at4_entry, !compare_pass. repeat split; apply H; auto using perm_swap.
  - apply loop_throw. intros a A. apply loop_throw. intros b B. apply loop_throw. intros i I. apply loop_throw. intros j J. rewrite !at4_entry.
    intros T. repeat (apply andthen_throw in T; destruct T as [T|T]); revert T; apply compare_throw; eapply entry4_in; eassumption.
Qed.
(** a coupling of the second scalar that is not symmetric is not seen if the first entry has one scalar *)
Lemma ragged_passes : exists t, (forall r, In r t -> length r = length t) /\ CheckSymmetricTensorLeptonsThird t = Pass /\ ~ csame (entry3 t 0 1 1) (entry3 t 1 0 1).
Proof.
  set (o := (Some 0, Some 0) : dbl * dbl). set (e := (Some 1, Some 0) : dbl * dbl).
  exists [[[o]; [o; o]]; [[o; e]; [o]]]. split; [intros r [<-|[<-|[]]]; reflexivity|]. split.
  - assert (Z : compare cneqb (Some o) (Some o) = Pass) by (apply compare_cpass; exists 0, 0; split; reflexivity).
    cbn [CheckSymmetricTensorLeptonsThird length sizes forallb Nat.eqb andb negb at2 nth_error at1]. unfold loop. cbn [length seq fold_right at3 at2 at1 nth_error]. rewrite Z. reflexivity.
  - intros (r & s & A & B). cbn in A, B. unfold o, e in A, B. inversion A. inversion B. lra.
Qed.

(** ** sums *)
Definition rsum (l : list R) : R := fold_right Rplus 0 l.
Lemma fold_none l : fold_left dadd l None = None.
Proof. induction l as [|x l IH]; [reflexivity|]. cbn [fold_left dadd lift2]. exact IH. Qed.
Lemma fold_some l s : fold_left dadd (map Some l) (Some s) = Some (s + rsum l).
Proof. revert s. induction l as [|x l IH]; intros s; cbn [map fold_left rsum fold_right]; [f_equal; ring|]. cbn [dadd lift2]. rewrite IH. unfold rsum. f_equal. ring. Qed.
Lemma fold_nan l s : In None l -> fold_left dadd l s = None.
Proof.
  revert s. induction l as [|x l IH]; intros s; [intros []|]. cbn [In fold_left]. intros [->|I]; [|apply IH; exact I].
  replace (dadd s None) with (@None R) by (destruct s; reflexivity). apply fold_none.
Qed.
Lemma total_some l : total (map Some l) = Some (rsum l).
Proof. unfold total. rewrite fold_some. f_equal. ring. Qed.
Lemma verdict_pass a e : verdict (gtb (Some a) (Some e)) = Pass <-> a <= e.
Proof. unfold verdict, gtb. destruct (Rlt_dec e a); split; try discriminate; try lra. reflexivity. Qed.
Lemma verdict_nan e : verdict (gtb None e) = Pass.
Proof. reflexivity. Qed.
Lemma rsum_nonneg l : (forall x, In x l -> 0 <= x) -> 0 <= rsum l.
Proof. induction l as [|x l IH]; cbn [rsum fold_right In]; intros H; [lra|]. pose proof (H x (or_introl eq_refl)). assert (0 <= rsum l) by (apply IH; intros y I; apply H; right; exact I). unfold rsum in *. lra. Qed.
Lemma rsum_bound l x : (forall x, In x l -> 0 <= x) -> In x l -> x <= rsum l.
Proof.
  induction l as [|y l IH]; cbn [rsum fold_right In]; [tauto|]. intros H I. assert (P : forall z, In z l -> 0 <= z) by (intros z J; apply H; right; exact J).
  pose proof (rsum_nonneg l P) as N. pose proof (H y (or_introl eq_refl)). unfold rsum in *. destruct I as [<-|I]; [lra|]. specialize (IH P I). lra.
Qed.
Lemma rsum_app a b : rsum (a ++ b) = rsum a + rsum b.
Proof. induction a as [|x a IH]; cbn [app rsum fold_right]; [unfold rsum; ring|]. unfold rsum in *. rewrite IH. ring. Qed.

(** ** sorting *)
Lemma insert_perm x l : Permutation (x :: l) (insert x l).
Proof.
  induction l as [|y l IH]; cbn [insert]; [reflexivity|]. destruct (Rle_dec x y); [reflexivity|]. eapply perm_trans; [apply perm_swap|]. apply perm_skip. exact IH.
Qed.
Lemma sorted_perm l : Permutation l (sorted l).
Proof. induction l as [|x l IH]; cbn [sorted fold_right]; [reflexivity|]. eapply perm_trans; [apply perm_skip; exact IH|]. apply insert_perm. Qed.
Lemma insert_sorted x l : StronglySorted Rle l -> StronglySorted Rle (insert x l).
Proof.
  induction 1 as [|y l S IH F]; cbn [insert]; [repeat constructor|]. rewrite Forall_forall in F. destruct (Rle_dec x y).
  - constructor; [constructor; [exact S|rewrite Forall_forall; exact F]|]. constructor; [exact r|]. rewrite Forall_forall. intros z I. specialize (F z I). lra.
  - constructor; [exact IH|]. rewrite Forall_forall. intros z I. apply Permutation_in with (l' := x :: l) in I; [|apply Permutation_sym, insert_perm].
    destruct I as [<-|I]; [lra|exact (F z I)].
Qed.
Lemma sorted_sorted l : StronglySorted Rle (sorted l).
Proof. induction l as [|x l IH]; cbn [sorted fold_right]; [constructor|]. apply insert_sorted, IH. Qed.
Lemma sorted_id l : StronglySorted Rle l -> sorted l = l.
Proof.
  induction 1 as [|y l S IH F]; [reflexivity|]. cbn [sorted fold_right]. change (insert y (sorted l) = y :: l). rewrite IH. destruct l as [|z l]; [reflexivity|]. cbn [insert].
  inversion F; subst. destruct (Rle_dec y z); [reflexivity|contradiction].
Qed.
Lemma sorted_length l : length (sorted l) = length l.
Proof. symmetry. apply Permutation_length, sorted_perm. Qed.

(** ** labels *)
Lemma count_one a b : count a b (fun _ => 1%nat) = (b - a)%nat.
Proof. unfold count. generalize a at 1. induction (b - a)%nat as [|m IH]; intros c; [reflexivity|]. cbn [seq fold_right]. rewrite IH. reflexivity. Qed.
Lemma count_ext a b f g : (forall i, (a <= i < b)%nat -> f i = g i) -> count a b f = count a b g.
Proof.
  intros H. unfold count. assert (G : forall i, In i (seq a (b - a)) -> f i = g i) by (intros i I; apply in_seq in I; apply H; lia).
  induction (seq a (b - a)) as [|x l IH]; [reflexivity|]. cbn [fold_right]. rewrite (G x (or_introl eq_refl)), IH; [reflexivity|]. intros i I. apply G. right. exact I.
Qed.
Lemma count_step a b f : (a < b)%nat -> count a b f = (f a + count (S a) b f)%nat.
Proof. intros L. unfold count. replace (b - a)%nat with (S (b - S a)) by lia. reflexivity. Qed.
Lemma count_two m a n : (n = a + m)%nat -> (2 * count a n (fun j => n - j) = m * (m + 1))%nat.
Proof.
  revert a. induction m as [|m IH]; intros a E; [unfold count; replace (n - a)%nat with 0%nat by lia; reflexivity|].
  rewrite count_step by lia. specialize (IH (S a)). rewrite Nat.mul_add_distr_l, IH by lia. nia.
Qed.
Lemma count_three m a n : (n = a + m)%nat -> (6 * count a n (fun i => count i n (fun j => n - j)) = m * (m + 1) * (m + 2))%nat.
Proof.
  revert a. induction m as [|m IH]; intros a E; [unfold count; replace (n - a)%nat with 0%nat by lia; reflexivity|].
  rewrite count_step by lia. specialize (IH (S a)). rewrite Nat.mul_add_distr_l, IH by lia. pose proof (count_two (S m) a n E). nia.
Qed.
Lemma triple_labels n labels : CheckNumberOfTripleCouplings n labels = Pass <-> (2 * labels = n * (n + 1) * (n + 2))%nat.
Proof.
  unfold CheckNumberOfTripleCouplings. set (c := count 0 n _). assert (C : (6 * c = n * (n + 1) * (n + 2))%nat).
  { rewrite <- (count_three n 0 n eq_refl). f_equal. apply count_ext. intros i I. apply count_ext. intros j J. apply count_one. }
  destruct (Nat.eqb_spec (c * 3) labels) as [E|E]; cbn [negb verdict]; split; try discriminate; try reflexivity; lia.
Qed.

(** ** masses *)
Lemma gauge_masses mW mZ c : 0 < mW <= mZ -> CheckGaugeBosonMasses mW mZ (map Some c) = Pass <->
  exists photon w1 w2 z, c = [photon; w1; w2; z] /\ Rabs photon + Rabs (w1 - mW ^ 2) / mW ^ 2 + Rabs (w2 - mW ^ 2) / mW ^ 2 + Rabs (z - mZ ^ 2) / mZ ^ 2 <= 1 / 10 ^ 5.
Proof.
  intros [W Z]. assert (W2 : 0 < mW ^ 2) by (apply pow_lt; exact W). assert (Z2 : mW ^ 2 <= mZ ^ 2) by (apply pow_incr; lra).
  unfold CheckGaugeBosonMasses, gauge_input. rewrite sorted_id by (repeat first [apply SSorted_nil|apply SSorted_cons|apply Forall_nil|apply Forall_cons]; lra). rewrite map_length. cbn [length].
  destruct (Nat.eqb_spec (length c) 4) as [E|E]; cbn [negb].
  2:{ split; [discriminate|]. intros (p & w1 & w2 & z & -> & _). contradiction E. reflexivity. }
  destruct c as [|p [|w1 [|w2 [|z [|x c]]]]]; try discriminate. clear E. cbn [map combine]. unfold gauge_deviation. destruct (Req_EM_T 0 0) as [_|N]; [|lra].
  destruct (Req_EM_T (mW ^ 2) 0) as [N|_]; [lra|]. destruct (Req_EM_T (mZ ^ 2) 0) as [N|_]; [lra|]. cbn [dsub lift2 dabs lift1 ddiv].
  destruct (Req_EM_T (mW ^ 2) 0) as [N|_]; [lra|]. destruct (Req_EM_T (mZ ^ 2) 0) as [N|_]; [lra|].
  change [Some (Rabs p); Some (Rabs (w1 - mW ^ 2) / mW ^ 2); Some (Rabs (w2 - mW ^ 2) / mW ^ 2); Some (Rabs (z - mZ ^ 2) / mZ ^ 2)] with
    (map Some [Rabs p; Rabs (w1 - mW ^ 2) / mW ^ 2; Rabs (w2 - mW ^ 2) / mW ^ 2; Rabs (z - mZ ^ 2) / mZ ^ 2]).
  rewrite total_some, verdict_pass. cbn [rsum fold_right]. rewrite Rplus_0_r, <- !Rplus_assoc. split.
  - intros H. exists p, w1, w2, z. split; [reflexivity|exact H].
  - intros (p' & w1' & w2' & z' & E & H). inversion E; subst. exact H.
Qed.

Lemma differences c x : map difference (combine (map Some c) x) = map Some (map (fun '(a, b) => Rabs (a - b)) (combine c x)).
Proof. revert x. induction c as [|a c IH]; intros [|b x]; try reflexivity. cbn [map combine]. rewrite IH. reflexivity. Qed.
Lemma differences_bound c x e : length c = length x -> rsum (map (fun '(a, b) => Rabs (a - b)) (combine c x)) <= e -> within e (map Some c) x.
Proof.
  intros L H. split; [rewrite map_length; exact L|]. intros i I. exists (nth i c 0). split.
  - rewrite nth_error_map. rewrite (nth_error_nth' c 0) by lia. reflexivity.
  - apply Rle_trans with (2 := H). apply rsum_bound.
    + intros y J. apply in_map_iff in J. destruct J as ([a b] & <- & _). apply Rabs_pos.
    + apply in_map_iff. exists (nth i c 0, nth i x 0). split; [reflexivity|]. rewrite <- combine_nth by exact L. apply nth_In. rewrite combine_length, L, Nat.min_id. lia.
Qed.
Lemma doubled_perm l : Permutation (doubled l) (map (fun m => m ^ 2) (l ++ l)).
Proof.
  induction l as [|x l IH]; [reflexivity|]. cbn [doubled flat_map app map]. replace ((- x) ^ 2) with (x ^ 2) by ring. apply perm_skip.
  rewrite map_app in *. cbn [map]. apply Permutation_cons_app. exact IH.
Qed.
Lemma quark_masses NLepton leptons quarks : exists input,
  StronglySorted Rle input /\ Permutation input (map (fun m => m ^ 2) (quarks ++ quarks) ++ if Nat.eqb NLepton 0 then [0; 0; 0] ++ map (fun m => m ^ 2) (leptons ++ leptons) else []) /\
  (forall c, length c = length input -> CheckQuarkMasses NLepton leptons quarks (map Some c) = Pass -> within (1 / 10 ^ 5) (map Some c) input) /\
  CheckQuarkMasses NLepton leptons quarks (map Some input) = Pass /\
  forall c, (length input < length c)%nat -> CheckQuarkMasses NLepton leptons quarks c = Throw.
Proof.
  set (input := sorted (doubled quarks ++ (if Nat.eqb NLepton 0 then lepton_input leptons else []))). exists input. split; [apply sorted_sorted|]. split; [|split; [|split]].
  - eapply perm_trans; [apply Permutation_sym, sorted_perm|]. apply Permutation_app; [apply doubled_perm|]. destruct (Nat.eqb NLepton 0); [|reflexivity].
    unfold lepton_input. apply Permutation_app_head, doubled_perm.
  - intros c L. unfold CheckQuarkMasses. fold input. rewrite map_length. destruct (Nat.ltb_spec (length input) (length c)); [lia|]. rewrite differences, total_some. unfold ZeroMass.
    rewrite verdict_pass. apply differences_bound. exact L.
  - unfold CheckQuarkMasses. fold input. rewrite map_length. destruct (Nat.ltb_spec (length input) (length input)); [lia|]. rewrite differences, total_some. unfold ZeroMass.
    apply verdict_pass. replace (rsum _) with 0; [lra|]. clear H. induction input as [|x l IH]; [reflexivity|]. cbn [combine map rsum fold_right]. rewrite Rminus_diag_eq, Rabs_R0, Rplus_0_l by reflexivity.
    exact IH.
  - intros c L. unfold CheckQuarkMasses. fold input. destruct (Nat.ltb_spec (length input) (length c)); [reflexivity|lia].
Qed.
Lemma lepton_masses NLepton leptons : (0 < NLepton)%nat -> exists input,
  StronglySorted Rle input /\ Permutation input ([0; 0; 0] ++ map (fun m => m ^ 2) (leptons ++ leptons)) /\
  (forall c, length c = length input -> CheckLeptonMasses NLepton leptons (map Some c) = Pass -> within (1 / 10 ^ 5) (map Some c) input) /\
  (forall c x, (length c < length input)%nat -> CheckLeptonMasses NLepton leptons (map Some c) = Pass -> In x (skipn (length c) input) -> x <= 1 / 10 ^ 5) /\
  CheckLeptonMasses NLepton leptons (map Some input) = Pass.
Proof.
  intros P. set (input := sorted (lepton_input leptons)). exists input. split; [apply sorted_sorted|]. assert (Z : Nat.eqb NLepton 0 = false) by (apply Nat.eqb_neq; lia). split; [|split; [|split]].
  - eapply perm_trans; [apply Permutation_sym, sorted_perm|]. apply Permutation_app_head, doubled_perm.
  - intros c L. unfold CheckLeptonMasses, lepton_sum. rewrite Z. fold input. rewrite map_length, L, Nat.ltb_irrefl, skipn_all. cbn [map fold_left]. rewrite differences, total_some.
    unfold ZeroMass. rewrite verdict_pass. apply differences_bound. exact L.
  - intros c x L H I. unfold CheckLeptonMasses, lepton_sum in H. rewrite Z in H. fold input in H. rewrite map_length in H. destruct (Nat.ltb_spec (length input) (length c)); [lia|].
    rewrite differences, total_some in H. cbn [dabs lift1] in H.
    replace (map (fun x => Some (Rabs x)) (skipn (length c) input)) with (map Some (map Rabs (skipn (length c) input))) in H by (rewrite map_map; reflexivity).
    rewrite fold_some in H. unfold ZeroMass in H. rewrite verdict_pass in H.
    assert (N : 0 <= rsum (map (fun '(a, b) => Rabs (a - b)) (combine c input))).
    { apply rsum_nonneg. intros y J. apply in_map_iff in J. destruct J as ([a b] & <- & _). apply Rabs_pos. }
    assert (B : Rabs x <= rsum (map Rabs (skipn (length c) input))).
    { apply rsum_bound; [|apply in_map; exact I]. intros y J. apply in_map_iff in J. destruct J as (a & <- & _). apply Rabs_pos. }
    pose proof (Rle_abs x). lra.
  - unfold CheckLeptonMasses, lepton_sum. rewrite Z. fold input. rewrite map_length, Nat.ltb_irrefl, skipn_all. cbn [map fold_left]. rewrite differences, total_some. unfold ZeroMass.
    apply verdict_pass. replace (rsum _) with 0; [lra|]. clear. induction input as [|x l IH]; [reflexivity|]. cbn [combine map rsum fold_right]. rewrite Rminus_diag_eq, Rabs_R0, Rplus_0_l by reflexivity.
    exact IH.
Qed.
(** no quark at all passes, whatever the masses of the input are *)
Lemma no_quarks : exists quarks, quarks = [2 / 1000; 127 / 100; 1725 / 10; 5 / 1000; 95 / 1000; 418 / 100] /\ forall NLepton leptons, CheckQuarkMasses NLepton leptons quarks [] = Pass.
Proof.
  eexists. split; [reflexivity|]. intros NLepton leptons. unfold CheckQuarkMasses. match goal with |- context [sorted ?l] => generalize (sorted l) end. intros l.
  destruct (Nat.ltb_spec (length l) (length (@nil dbl))) as [L|_]; [cbn in L; lia|]. cbn [combine map total fold_left]. apply verdict_pass. lra.
Qed.
(** a massless electron passes *)
Lemma massless_electron : exists e mu tau, 0 < e /\ e = 511 / 10 ^ 6 /\ CheckLeptonMasses 9 [e; mu; tau] (map Some [0; 0; 0; 0; 0; mu ^ 2; mu ^ 2; tau ^ 2; tau ^ 2]) = Pass.
Proof.
  exists (511 / 10 ^ 6), (1 / 10), (17 / 10). split; [lra|]. split; [reflexivity|]. unfold CheckLeptonMasses, lepton_sum. cbn [Nat.eqb lepton_input doubled flat_map app].
  set (e := 511 / 10 ^ 6). replace ((- e) ^ 2) with (e ^ 2) by ring. replace ((- (1 / 10)) ^ 2) with ((1 / 10) ^ 2) by ring. replace ((- (17 / 10)) ^ 2) with ((17 / 10) ^ 2) by ring.
  assert (E0 : 0 <= e ^ 2) by (unfold e; lra). assert (E1 : e ^ 2 <= 4 / 10 ^ 6) by (unfold e; lra).
  rewrite sorted_id by (repeat first [apply SSorted_nil|apply SSorted_cons|apply Forall_nil|apply Forall_cons]; lra). rewrite map_length, differences, total_some. cbn [length Nat.ltb Nat.leb skipn map fold_left]. unfold ZeroMass. apply verdict_pass.
  cbn [combine map rsum fold_right]. assert (X : forall x, x - x = 0) by (intros; ring). rewrite !X, !Rabs_R0, !Rplus_0_l. rewrite Rminus_0_l, Rabs_Ropp, (Rabs_right (e ^ 2)) by lra. lra.
Qed.

(** ** vacuum and derivatives *)
Lemma vacuum_compared given c : length c = length given -> CheckTreeLevelMin given (map Some c) = Pass ->
  forall i, (i < length given)%nat -> Rabs (Rabs (nth i c 0) - Rabs (nth i given 0)) <= 1 / 2.
Proof.
  intros L H i I. unfold CheckTreeLevelMin in H. rewrite map_length in H. destruct (Nat.ltb_spec (length c) (length given)); [lia|].
  replace (map (fun '(c, g) => dabs (dsub (dabs c) (Some (Rabs g)))) (combine (map Some c) given)) with (map Some (map (fun '(a, b) => Rabs (Rabs a - Rabs b)) (combine c given))) in H.
  2:{ clear. revert given. induction c as [|a c IH]; intros [|b g]; try reflexivity. cbn [map combine]. rewrite IH. reflexivity. }
  rewrite total_some, verdict_pass in H. apply Rle_trans with (2 := H). apply rsum_bound.
  - intros y J. apply in_map_iff in J. destruct J as ([a b] & <- & _). apply Rabs_pos.
  - apply in_map_iff. exists (nth i c 0, nth i given 0). split; [reflexivity|]. rewrite <- combine_nth by exact L. apply nth_In. rewrite combine_length, L, Nat.min_id. lia.
Qed.
Lemma other_sign : exists v w, CheckTreeLevelMin [v; w] [Some v; Some (- w)] = Pass /\ 100 <= Rabs (w - - w).
Proof.
  exists 100, 200. split; [|rewrite Rabs_right; lra]. unfold CheckTreeLevelMin. cbn [length Nat.ltb Nat.leb combine map dabs dsub lift1 lift2 total fold_left dadd].
  apply verdict_pass. rewrite Rabs_Ropp, !Rminus_diag_eq, Rabs_R0 by reflexivity. lra.
Qed.
Lemma tadpoles_compared c : CheckTadpoleRelations (map Some c) = Pass -> forall x, In x c -> Rabs x <= 1 / 10 ^ 5.
Proof.
  intros H x I. unfold CheckTadpoleRelations in H. rewrite map_map in H. replace (map (fun x => dabs (Some x)) c) with (map Some (map Rabs c)) in H by (rewrite map_map; reflexivity).
  rewrite total_some, verdict_pass in H. apply Rle_trans with (2 := H). apply rsum_bound; [|apply in_map; exact I]. intros y J. apply in_map_iff in J. destruct J as (a & <- & _). apply Rabs_pos.
Qed.
Lemma tadpoles_nan l : In None l -> CheckTadpoleRelations l = Pass.
Proof. intros I. unfold CheckTadpoleRelations, total. rewrite fold_nan; [reflexivity|]. apply in_map_iff. exists None. split; [reflexivity|exact I]. Qed.
Lemma conditions_iff l : CheckCTConditions (map (fun '(a, b) => (Some a, Some b)) l) = Pass <-> forall a b, In (a, b) l -> Rabs (a + b) <= 1 / 10 ^ 5.
Proof.
  unfold CheckCTConditions. rewrite (fold_pass (fun p => verdict (gtb (dabs (dadd (fst p) (snd p))) (Some (1 / 10 ^ 5))))). split.
  - intros H a b I. assert (J : In (Some a, Some b) (map (fun '(a, b) => (Some a, Some b)) l)) by (apply in_map_iff; exists (a, b); split; [reflexivity|exact I]).
    specialize (H _ J). cbn [fst snd dadd lift2 dabs lift1] in H. apply verdict_pass. exact H.
  - intros H p I. apply in_map_iff in I. destruct I as ([a b] & <- & I). cbn [fst snd dadd lift2 dabs lift1]. apply verdict_pass, H, I.
Qed.
Lemma conditions_nan l : (forall p, In p l -> fst p = None) -> CheckCTConditions l = Pass.
Proof. intros H. unfold CheckCTConditions. rewrite (fold_pass (fun p => verdict (gtb (dabs (dadd (fst p) (snd p))) (Some (1 / 10 ^ 5))))). intros p I. rewrite (H p I). reflexivity. Qed.
Lemma relative_some s t : s <> 0 \/ t <> 0 -> relative (Some s, Some t) = Some (Rabs (t - s) / (Rabs t + Rabs s)).
Proof.
  intros N. unfold relative. cbn [fst snd dsub lift2 dabs lift1 dadd ddiv]. destruct (Req_EM_T (Rabs t + Rabs s) 0) as [E|_]; [|reflexivity]. exfalso.
  pose proof (Rabs_pos s). pose proof (Rabs_pos t). destruct N as [N|N]; apply Rabs_no_R0 in N; lra.
Qed.
Lemma relative_sum l : (forall s t, In (s, t) l -> s <> 0 \/ t <> 0) ->
  map relative (map (fun '(a, b) => (Some a, Some b)) l) = map Some (map (fun '(s, t) => Rabs (t - s) / (Rabs t + Rabs s)) l).
Proof.
  induction l as [|[s t] l IH]; intros H; [reflexivity|]. cbn [map]. rewrite relative_some by (apply H; left; reflexivity). rewrite IH; [reflexivity|]. intros a b I. apply H. right. exact I.
Qed.
Lemma simplified_compared l : (forall s t, In (s, t) l -> s <> 0 \/ t <> 0) -> CheckVTreeSimplified (map (fun '(a, b) => (Some a, Some b)) l) = Pass ->
  forall s t, In (s, t) l -> Rabs (t - s) <= (Rabs t + Rabs s) / 10 ^ 5.
Proof.
  intros N H s t I. unfold CheckVTreeSimplified in H. rewrite relative_sum, total_some, verdict_pass in H by exact N.
  assert (D : 0 < Rabs t + Rabs s).
  { pose proof (Rabs_pos s). pose proof (Rabs_pos t). destruct (N s t I) as [M|M]; apply Rabs_pos_lt in M; lra. }
  assert (B : Rabs (t - s) / (Rabs t + Rabs s) <= 1 / 10 ^ 5).
  { apply Rle_trans with (2 := H). apply rsum_bound.
    - intros y J. apply in_map_iff in J. destruct J as ([a b] & <- & J). pose proof (Rabs_pos a). pose proof (Rabs_pos b). destruct (Req_dec (Rabs b + Rabs a) 0) as [E|E].
      + exfalso. destruct (N a b J) as [M|M]; apply Rabs_no_R0 in M; lra.
      + apply Rmult_le_pos; [apply Rabs_pos|]. left. apply Rinv_0_lt_compat. lra.
    - apply in_map_iff. exists (s, t). split; [reflexivity|exact I]. }
  apply Rmult_le_compat_r with (r := Rabs t + Rabs s) in B; [|lra]. unfold Rdiv in B at 1. rewrite Rmult_assoc, Rinv_l, Rmult_1_r in B by lra. lra.
Qed.
Lemma simplified_nan l : In (None, None) l \/ (exists t, In (None, t) l) -> CheckVTreeSimplified l = Pass /\ CheckVCounterSimplified l = Pass.
Proof.
  intros H. assert (I : In None (map relative l)).
  { destruct H as [H|[t H]]; apply in_map_iff; eexists; (split; [|exact H]); unfold relative; cbn; try reflexivity. destruct t; reflexivity. }
  unfold CheckVTreeSimplified, CheckVCounterSimplified, total. rewrite fold_nan by exact I. split; reflexivity.
Qed.
(** a counterterm potential that is wrong by a fifth passes *)
Lemma counter_wrong l : length l = 10%nat -> (forall t, In t l -> t <> 0) -> CheckVCounterSimplified (map (fun t => (Some (6 / 5 * t), Some t)) l) = Pass.
Proof.
  intros L N. unfold CheckVCounterSimplified. replace (map (fun t => (Some (6 / 5 * t), Some t)) l) with (map (fun '(a, b) => (Some a, Some b)) (map (fun t => (6 / 5 * t, t)) l)) by (rewrite map_map; reflexivity).
  rewrite relative_sum.
  2:{ intros s t I. apply in_map_iff in I. destruct I as (x & E & I). inversion E; subst. right. apply N. exact I. }
  rewrite total_some, verdict_pass, map_map. replace (map _ l) with (map (fun _ => 1 / 11) l).
  2:{ apply map_ext_in. intros t I. specialize (N t I). replace (t - 6 / 5 * t) with (- (1 / 5) * t) by field. rewrite !Rabs_mult. replace (Rabs (- (1 / 5))) with (1 / 5) by (rewrite Rabs_left; lra).
      rewrite (Rabs_right (6 / 5)) by lra. apply Rabs_no_R0 in N. field. try lra; try exact N. }
  destruct l as [|x1 [|x2 [|x3 [|x4 [|x5 [|x6 [|x7 [|x8 [|x9 [|x10 [|x11 l]]]]]]]]]]]; try discriminate. cbn [map rsum fold_right]. lra.
Qed.
(** values of the opposite sign pass only alone *)
Lemma counter_opposite l : (forall t, In t l -> t <> 0) -> CheckVCounterSimplified (map (fun t => (Some (- t), Some t)) l) = Pass <-> (length l <= 1)%nat.
Proof.
  intros N. unfold CheckVCounterSimplified. replace (map (fun t => (Some (- t), Some t)) l) with (map (fun '(a, b) => (Some a, Some b)) (map (fun t => (- t, t)) l)) by (rewrite map_map; reflexivity).
  rewrite relative_sum.
  2:{ intros s t I. apply in_map_iff in I. destruct I as (x & E & I). inversion E; subst. right. apply N. exact I. }
  rewrite total_some, verdict_pass, map_map. replace (map _ l) with (map (fun _ => 1) l).
  2:{ apply map_ext_in. intros t I. specialize (N t I). replace (t - - t) with (2 * t) by ring. rewrite Rabs_mult, Rabs_Ropp, (Rabs_right 2) by lra. apply Rabs_no_R0 in N. field. lra. }
  assert (E : rsum (map (fun _ => 1) l) = INR (length l)).
  { clear. induction l as [|x l IH]; [reflexivity|]. change (rsum (map (fun _ : R => 1) (x :: l))) with (1 + rsum (map (fun _ : R => 1) l)). rewrite IH. cbn [length]. rewrite S_INR. ring. }
  rewrite E. split; intros G.
  - apply INR_le. cbn. exact G.
  - apply le_INR in G. cbn in G. exact G.
Qed.
Lemma dmax_some a b : dmax (Some a) (Some b) = Some (Rmax a b).
Proof. unfold dmax, gtb. destruct (Rlt_dec a b); [rewrite Rmax_right by lra|rewrite Rmax_left by lra]; reflexivity. Qed.
Lemma cut_some x : cut (Some x) = Some (if Rlt_dec (Rabs x) (1 / 10 ^ 5) then 0 else x).
Proof. unfold cut, ZeroMass. cbn [dabs lift1 gtb]. destruct (Rlt_dec (Rabs x) (1 / 10 ^ 5)); reflexivity. Qed.
Lemma higgs_masses l : CheckNLOMasses (map (fun '(a, b) => (Some a, Some b)) l) = Pass -> forall tree nlo, In (tree, nlo) l ->
  1 / 10 ^ 5 <= Rabs tree -> 1 / 10 ^ 5 <= Rabs nlo -> Rabs (Rabs nlo - tree) <= Rmax (Rabs nlo) (Rabs tree) / 2.
Proof.
  intros H tree nlo I T0 N0. unfold CheckNLOMasses in H.
  assert (G : forall l, exists r, flat_map mass_deviation (map (fun '(a, b) => (Some a, Some b)) l) = map Some r /\ (forall x, In x r -> 0 <= x) /\
    forall a b, In (a, b) l -> 1 / 10 ^ 5 <= Rabs a -> 1 / 10 ^ 5 <= Rabs b -> In (Rabs (Rabs b - a) / Rmax (Rabs b) (Rabs a)) r).
  { clear. induction l as [|[a b] l (r & E & P & Q)]; [exists []; split; [reflexivity|split; [intros x []|intros a b []]]|]. cbn [map flat_map]. rewrite E.
    unfold mass_deviation. cbn [fst snd]. rewrite !cut_some. set (u := if Rlt_dec (Rabs a) (1 / 10 ^ 5) then 0 else a). set (v := if Rlt_dec (Rabs b) (1 / 10 ^ 5) then 0 else b).
    cbn [dabs lift1 dsub lift2]. rewrite dmax_some. cbn [neqb]. destruct (Req_EM_T (Rmax (Rabs v) (Rabs u)) 0) as [Z|Z].
    - exists r. split; [reflexivity|]. split; [exact P|]. intros x y [X|X] A B; [|apply Q; assumption]. exfalso. inversion X; subst.
      unfold u, v in Z. destruct (Rlt_dec (Rabs x) (1 / 10 ^ 5)); [lra|]. pose proof (Rmax_r (Rabs (if Rlt_dec (Rabs y) (1 / 10 ^ 5) then 0 else y)) (Rabs x)). lra.
    - exists (Rabs (Rabs v - u) / Rmax (Rabs v) (Rabs u) :: r). cbn [ddiv]. destruct (Req_EM_T (Rmax (Rabs v) (Rabs u)) 0); [contradiction|]. split; [reflexivity|]. split.
      + intros x [<-|X]; [|apply P; exact X]. pose proof (Rmax_l (Rabs v) (Rabs u)). pose proof (Rabs_pos v). apply Rmult_le_pos; [apply Rabs_pos|]. left. apply Rinv_0_lt_compat. lra.
      + intros x y [X|X] A B; [|right; apply Q; assumption]. left. inversion X; subst. unfold u, v. destruct (Rlt_dec (Rabs x) (1 / 10 ^ 5)); [lra|]. destruct (Rlt_dec (Rabs y) (1 / 10 ^ 5)); [lra|]. reflexivity. }
  destruct (G l) as (r & E & P & Q). rewrite E, total_some, verdict_pass in H. specialize (Q tree nlo I T0 N0). pose proof (rsum_bound r _ P Q) as B.
  pose proof (Rmax_l (Rabs nlo) (Rabs tree)). set (m := Rmax (Rabs nlo) (Rabs tree)) in *. assert (D : 0 < m) by lra.
  assert (C : Rabs (Rabs nlo - tree) / m <= 1 / 2) by lra. apply Rmult_le_compat_r with (r := m) in C; [|lra]. unfold Rdiv in C at 1. rewrite Rmult_assoc, Rinv_l, Rmult_1_r in C by lra. lra.
Qed.
Lemma tachyon m : 1 / 10 ^ 5 < m -> CheckNLOMasses [(Some m, Some (- m))] = Pass.
Proof.
  intros M. unfold CheckNLOMasses. cbn [flat_map]. unfold mass_deviation. cbn [fst snd]. rewrite !cut_some, Rabs_Ropp, (Rabs_right m) by lra. destruct (Rlt_dec m (1 / 10 ^ 5)); [lra|].
  cbn [dabs lift1 dsub lift2]. rewrite dmax_some, Rabs_Ropp, (Rabs_right m), Rmax_left by lra. cbn [neqb]. destruct (Req_EM_T m 0); [lra|]. cbn [ddiv]. destruct (Req_EM_T m 0); [lra|].
  cbn [app total fold_left dadd lift2]. apply verdict_pass. rewrite Rminus_diag_eq, Rabs_R0 by reflexivity. unfold Rdiv. lra.
Qed.
Lemma one_mass a b : 1 / 10 ^ 5 <= a -> 1 / 10 ^ 5 <= b -> CheckNLOMasses [(Some a, Some b)] = Pass <-> Rabs (b - a) <= Rmax a b / 2.
Proof.
  intros A B. unfold CheckNLOMasses. cbn [flat_map]. unfold mass_deviation. cbn [fst snd]. rewrite !cut_some, (Rabs_right a), (Rabs_right b) by lra.
  destruct (Rlt_dec a (1 / 10 ^ 5)); [lra|]. destruct (Rlt_dec b (1 / 10 ^ 5)); [lra|]. cbn [dabs lift1 dsub lift2]. rewrite dmax_some, (Rabs_right a), (Rabs_right b), (Rmax_comm b a) by lra.
  pose proof (Rmax_l a b). set (m := Rmax a b) in *. cbn [neqb]. destruct (Req_EM_T m 0); [lra|]. cbn [ddiv]. destruct (Req_EM_T m 0); [lra|].
  cbn [app total fold_left dadd lift2]. rewrite verdict_pass. assert (M : 0 < m) by lra. assert (E : Rabs (b - a) / m * m = Rabs (b - a)) by (field; lra).
  split; intro G.
  - rewrite <- E. apply Rmult_le_compat_r with (r := m) in G; lra.
  - apply Rmult_le_reg_r with m; lra.
Qed.

(** ** the report and the program *)
Lemma report p passes n good : CheckImplementation p = Some (passes, n, good) -> n = length (tests p) /\ (passes <= n)%nat /\ (good = true <-> forall o, In o (tests p) -> o = Pass).
Proof.
  unfold CheckImplementation. generalize (tests p). intros l. destruct (existsb _ l); [discriminate|]. intros H. inversion H; subst. clear H. split; [reflexivity|]. split.
  - induction l as [|o l IH]; [cbn; lia|]. cbn [filter length]. destruct (is_pass o); cbn [length]; lia.
  - assert (F : (length (filter is_pass l) <= length l)%nat).
    { clear. induction l as [|o l IH]; [cbn; lia|]. cbn [filter length]. destruct (is_pass o); cbn [length]; lia. }
    rewrite Nat.eqb_eq. split.
    + intros E. revert E F. induction l as [|o l IH]; [intros _ _ o []|]. cbn [filter length].
      assert (F' : (length (filter is_pass l) <= length l)%nat).
      { clear. induction l as [|o l IH]; [cbn; lia|]. cbn [filter length]. destruct (is_pass o); cbn [length]; lia. }
      intros E F. destruct o; cbn [is_pass length] in E; try lia. intros o [<-|I]; [reflexivity|]. apply IH; [lia|exact F'|exact I].
    + intros H. clear F. induction l as [|o l IH]; [reflexivity|]. cbn [filter length]. rewrite (H o (or_introl eq_refl)). cbn [is_pass length]. f_equal. apply IH. intros x I. apply H. right. exact I.
Qed.
Lemma throws p : CheckImplementation p = None <-> In Throw (tests p).
Proof.
  unfold CheckImplementation. destruct (existsb _ (tests p)) eqn:E.
  - split; [|reflexivity]. intros _. apply existsb_exists in E. destruct E as (o & I & O). destruct o; try discriminate. exact I.
  - split; [discriminate|]. intros I. assert (existsb (fun o => match o with Throw => true | _ => false end) (tests p) = true); [|congruence]. apply existsb_exists. exists Throw. split; [exact I|reflexivity].
Qed.

Lemma run_after {L} (read : L -> point) Line c lines : (Line < c)%Z -> run read Line c lines = (true, []).
Proof. intros H. destruct lines as [|l r]; [reflexivity|]. cbn [run]. apply Z.ltb_lt in H. rewrite H. reflexivity. Qed.
Lemma run_line {L} (read : L -> point) Line c lines d : (1 < Line)%Z -> (c <= Line < c + Z.of_nat (length lines))%Z ->
  run read Line c lines = let p := read (nth (Z.to_nat (Line - c)) lines d) in (match CheckImplementation p with None => false | _ => true end, [(p, CheckImplementation p)]).
Proof.
  intros H. revert c. induction lines as [|l r IH]; intros c B; cbn [length] in B; [lia|]. cbn [run]. destruct (Z.ltb_spec Line c); [lia|].
  destruct (Z.eq_dec c Line) as [->|N].
  - rewrite Z.eqb_refl. destruct (Z.eqb_spec Line 1); [lia|]. cbn [andb negb]. rewrite Z.sub_diag. cbn [Z.to_nat nth]. cbn zeta.
    destruct (CheckImplementation (read l)); [|reflexivity]. rewrite run_after by lia. reflexivity.
  - destruct (Z.eqb_spec c Line); [contradiction|]. cbn [andb]. rewrite IH by lia. replace (Z.to_nat (Line - c)) with (S (Z.to_nat (Line - (c + 1)))) by lia. reflexivity.
Qed.
Lemma program {L} (read : L -> point) Line lines d : (2 <= Line <= Z.of_nat (length lines))%Z ->
  let p := read (nth (Z.to_nat (Line - 1)) lines d) in
  test_main read Line lines = (match CheckImplementation p with None => false | _ => true end, [(p, CheckImplementation p)]).
Proof. intros H. unfold test_main. destruct (Z.ltb_spec Line 1); [lia|]. apply (run_line read Line 1 lines d); lia. Qed.
Lemma run_none {L} (read : L -> point) Line c lines : (0 < c)%Z -> (Line = 1 \/ c + Z.of_nat (length lines) <= Line)%Z -> run read Line c lines = (true, []).
Proof.
  revert c. induction lines as [|l r IH]; intros c C H; [reflexivity|]. cbn [run length] in *. destruct (Z.ltb_spec Line c); [reflexivity|].
  destruct (Z.eqb_spec c Line); [destruct (Z.eqb_spec c 1); [|lia]|]; cbn [andb negb]; (apply IH; [lia|destruct H; [left; assumption|right; lia]]).
Qed.
Lemma line_refused {L} (read : L -> point) Line lines : (Line < 1)%Z -> test_main read Line lines = (false, []).
Proof. intros H. unfold test_main. destruct (Z.ltb_spec Line 1); [reflexivity|lia]. Qed.
Lemma nothing {L} (read : L -> point) Line lines : (Line = 1 \/ Z.of_nat (length lines) < Line)%Z -> test_main read Line lines = (true, []).
Proof. intros H. unfold test_main. destruct (Z.ltb_spec Line 1); [lia|]. apply run_none; lia. Qed.

(** ** a point that passes everything *)
Definition wrong : point := {|
  NHiggs := 1; nVEV := 2; nParCT := 1; NLepton := 9; labelsCT := 1; labelsVEV := 2; labelsTemp := 5; labelsTriple := 3;
  CKM := Pass; mW := 80; mZ := 91; leptons := [1 / 2000; 1 / 10; 17 / 10]; quarks := [2 / 1000; 127 / 100; 1725 / 10; 5 / 1000; 95 / 1000; 418 / 100];
  gaugeMasses := map Some [0; 80 ^ 2; 80 ^ 2; 91 ^ 2]; leptonMasses := map Some (sorted (lepton_input [1 / 2000; 1 / 10; 17 / 10])); quarkMasses := [];
  vacuum := [100; 200]; minimum := [Some 100; Some (- 200)]; tadpoles := [None]; higgsMasses := [(Some (125 ^ 2), Some (- (125 ^ 2)))];
  UseVTreeSimplified := true; VTree := repeat (None, Some 1) 10; UseVCounterSimplified := true; VCounter := map (fun t => (Some (6 / 5 * t), Some t)) (repeat 1 10);
  second := [(None, Some 0)]; first := [(None, Some 0)]; L2 := [[Some 1]]; L3 := [[[Some 1]]]; L4 := [[[[Some 1]]]]; G2H2 := [[[[Some 1]]]];
  LeptonF2H1 := [[[(Some 1, Some 0)]]]; LeptonF2 := [[(Some 0, Some 0)]]; QuarkF2H1 := []; QuarkF2 := [] |}.
Lemma same_some r : same (Some (Some r)) (Some (Some r)).
Proof. exists r. split; reflexivity. Qed.
Lemma wrong_tests o : In o (tests wrong) -> o = Pass.
Proof.
  assert (C : compare neqb (Some (Some 1)) (Some (Some 1)) = Pass) by (apply compare_pass, same_some).
  assert (C1 : compare cneqb (Some (Some 1, Some 0)) (Some (Some 1, Some 0)) = Pass) by (apply compare_cpass; exists 1, 0; split; reflexivity).
  assert (C0 : compare cneqb (Some (Some 0, Some 0)) (Some (Some 0, Some 0)) = Pass) by (apply compare_cpass; exists 0, 0; split; reflexivity).
  unfold tests. cbn [UseVTreeSimplified UseVCounterSimplified wrong app]. cbn [In].
  cbn [NHiggs nVEV nParCT NLepton labelsCT labelsVEV labelsTemp labelsTriple CKM mW mZ leptons quarks gaugeMasses leptonMasses quarkMasses vacuum minimum tadpoles higgsMasses VTree VCounter second first L2 L3 L4 G2H2 LeptonF2H1 LeptonF2 QuarkF2H1 QuarkF2 wrong].
  intros H. repeat (destruct H as [H|H]; [rewrite <- H; clear H|]); [..|destruct H].
  1-5: reflexivity.
  - apply gauge_masses; [lra|]. exists 0, (80 ^ 2), (80 ^ 2), (91 ^ 2). split; [reflexivity|]. rewrite !Rminus_diag_eq, Rabs_R0 by reflexivity. lra.
  - destruct (lepton_masses 9 [1 / 2000; 1 / 10; 17 / 10]) as (_ & _); [lia|]. unfold CheckLeptonMasses, lepton_sum. cbn [Nat.eqb]. rewrite map_length, Nat.ltb_irrefl, skipn_all. cbn [map fold_left].
    rewrite differences, total_some. unfold ZeroMass. apply verdict_pass. replace (rsum _) with 0; [lra|]. generalize (sorted (lepton_input [1 / 2000; 1 / 10; 17 / 10])).
    induction l as [|x l IH]; [reflexivity|]. cbn [combine map rsum fold_right]. rewrite Rminus_diag_eq, Rabs_R0, Rplus_0_l by reflexivity. exact IH.
  - destruct no_quarks as (q & -> & H). apply H.
  - unfold CheckTreeLevelMin. cbn [length Nat.ltb Nat.leb combine map dabs dsub lift1 lift2 total fold_left dadd].
    apply verdict_pass. rewrite (Rabs_left (-200)), (Rabs_right 100), (Rabs_right 200) by lra. rewrite !Rabs_right; lra.
  - apply tadpoles_nan. left. reflexivity.
  - apply tachyon. lra.
  - apply simplified_nan. right. exists (Some 1). left. reflexivity.
  - apply counter_wrong; [reflexivity|]. intros t I. apply repeat_spec in I. subst. lra.
  - apply conditions_nan. intros p [<-|[]]. reflexivity.
  - apply conditions_nan. intros p [<-|[]]. reflexivity.
  - cbn [CheckSymmetricTensorScalarSecond length Nat.eqb negb sizes forallb andb]. unfold loop. cbn [seq fold_right Nat.ltb Nat.leb at2 nth_error at1]. rewrite C. reflexivity.
  - cbn [CheckSymmetricTensorScalarThird length Nat.eqb negb sizes forallb andb]. unfold loop. cbn [seq fold_right at3 at2 nth_error at1]. rewrite C. reflexivity.
  - apply fourth_correct. split; [split; [reflexivity|intros r [<-|[]]; split; [reflexivity|intros r [<-|[]]; split; [reflexivity|intros r [<-|[]]; reflexivity]]]|].
    intros i j k l i' j' k' l' I J K L P. assert (B : forall x, In x [i'; j'; k'; l'] -> (x < 1)%nat).
    { apply (perm_bound [i; j; k; l]); [exact P|]. intros x. cbn [In]. intros [<-|[<-|[<-|[<-|[]]]]]; assumption. }
    cbn [length] in I, J, K, L. pose proof (B i' ltac:(cbn; tauto)). pose proof (B j' ltac:(cbn; tauto)). pose proof (B k' ltac:(cbn; tauto)). pose proof (B l' ltac:(cbn; tauto)).
    replace i with 0%nat by lia. replace j with 0%nat by lia. replace k with 0%nat by lia. replace l with 0%nat by lia. replace i' with 0%nat by lia. replace j' with 0%nat by lia. replace k' with 0%nat by lia. replace l' with 0%nat by lia.
    apply same_some.
  - cbn [CheckSymmetricTensorGauge length Nat.eqb negb sizes forallb andb at2 nth_error at1]. unfold loop. cbn [seq fold_right at4 at3 at2 nth_error at1]. rewrite C. reflexivity.
  - cbn [CheckSymmetricTensorLeptonsThird length Nat.eqb negb sizes forallb andb at2 nth_error at1]. unfold loop. cbn [seq fold_right at3 at2 nth_error at1]. rewrite C1. reflexivity.
  - cbn [CheckSymmetricTensorLeptons length Nat.eqb negb sizes forallb andb]. unfold loop. cbn [seq fold_right at2 nth_error at1]. rewrite C0. reflexivity.
  - reflexivity.
  - reflexivity.
Qed.
Lemma all_pass p : (forall o, In o (tests p) -> o = Pass) -> CheckImplementation p = Some (length (tests p), length (tests p), true).
Proof.
  intros H. unfold CheckImplementation. revert H. generalize (tests p). intros l H. assert (E : l = repeat Pass (length l)).
  { induction l as [|o l IH]; [reflexivity|]. cbn [length repeat]. rewrite (H o (or_introl eq_refl)). f_equal. apply IH. intros x I. apply H. right. exact I. }
  rewrite E. generalize (length l). clear. intros n. rewrite repeat_length.
  assert (X : existsb (fun o => match o with Throw => true | _ => false end) (repeat Pass n) = false) by (induction n; [reflexivity|exact IHn]).
  assert (Y : length (filter is_pass (repeat Pass n)) = n) by (induction n; [reflexivity|cbn; f_equal; apply IHn; exact X]). rewrite X, Y, Nat.eqb_refl. reflexivity.
Qed.
Lemma some_fail p : In Fail (tests p) -> ~ In Throw (tests p) -> exists passes n, CheckImplementation p = Some (passes, n, false) /\ (passes < n)%nat.
Proof.
  intros F T. rewrite <- throws in T. unfold CheckImplementation in *. revert F T. generalize (tests p). intros l F T. destruct (existsb _ l); [contradiction T; reflexivity|].
  exists (length (filter is_pass l)), (length l). assert (G : (length (filter is_pass l) < length l)%nat).
  { clear T. induction l as [|o l IH]; [destruct F|]. assert (M : (length (filter is_pass l) <= length l)%nat).
    { clear. induction l as [|o l IH]; [cbn; lia|]. cbn [filter length]. destruct (is_pass o); cbn [length]; lia. }
    destruct F as [->|F]; cbn [filter length is_pass]; [lia|]. specialize (IH F). destruct (is_pass o); cbn [length]; lia. }
  split; [|exact G]. do 2 f_equal. apply Nat.eqb_neq. lia.
Qed.
Lemma good_to_go : CheckImplementation wrong = Some (23%nat, 23%nat, true).
Proof. exact (all_pass wrong wrong_tests). Qed.
(** a model that fails a test ends with EXIT_SUCCESS *)
Definition failing : point := {|
  NHiggs := 1; nVEV := 2; nParCT := 1; NLepton := 9; labelsCT := 0; labelsVEV := 2; labelsTemp := 5; labelsTriple := 3;
  CKM := Pass; mW := 80; mZ := 91; leptons := []; quarks := [];
  gaugeMasses := []; leptonMasses := []; quarkMasses := [];
  vacuum := []; minimum := []; tadpoles := []; higgsMasses := [];
  UseVTreeSimplified := false; VTree := []; UseVCounterSimplified := false; VCounter := [];
  second := []; first := []; L2 := []; L3 := []; L4 := []; G2H2 := []; LeptonF2H1 := []; LeptonF2 := []; QuarkF2H1 := []; QuarkF2 := [] |}.
Lemma failing_tests o : In o (tests failing) -> o <> Throw.
Proof.
  unfold tests. cbn [UseVTreeSimplified UseVCounterSimplified failing app]. cbn [In].
  cbn [NHiggs nVEV nParCT NLepton labelsCT labelsVEV labelsTemp labelsTriple CKM mW mZ leptons quarks gaugeMasses leptonMasses quarkMasses vacuum minimum tadpoles higgsMasses VTree VCounter second first L2 L3 L4 G2H2 LeptonF2H1 LeptonF2 QuarkF2H1 QuarkF2 failing].
  intros H. repeat (destruct H as [H|H]; [rewrite <- H; clear H|]); [..|destruct H]; try discriminate.
  - unfold CheckGaugeBosonMasses, gauge_input. rewrite sorted_length. discriminate.
  - unfold CheckLeptonMasses, verdict. cbn [Nat.eqb]. destruct (gtb _ _); discriminate.
  - unfold CheckQuarkMasses, verdict. destruct (Nat.ltb_spec (length (sorted (doubled [] ++ (if Nat.eqb 9 0 then lepton_input [] else [])))) (length (@nil dbl))) as [L|_]; [cbn in L; lia|]. destruct (gtb _ _); discriminate.
  - unfold CheckTreeLevelMin, verdict. cbn [length Nat.ltb Nat.leb]. destruct (gtb _ _); discriminate.
  - unfold CheckTadpoleRelations, verdict. destruct (gtb _ _); discriminate.
  - unfold CheckNLOMasses, verdict. destruct (gtb _ _); discriminate.
Qed.
Lemma failing_success : exists p passes n, CheckImplementation p = Some (passes, n, false) /\ (passes < n)%nat /\ test_main (fun _ : unit => p) 2 [tt; tt] = (true, [(p, Some (passes, n, false))]).
Proof.
  destruct (some_fail failing) as (passes & n & E & L).
  - unfold tests. left. reflexivity.
  - intros T. apply failing_tests in T. contradiction T. reflexivity.
  - exists failing, passes, n. split; [exact E|]. split; [exact L|]. rewrite (program (fun _ => failing) 2 [tt; tt] tt) by (cbn; lia). rewrite E. reflexivity.
Qed.
