(** Proofs about the worker threads of the GSL minimiser. *)
From Coq Require Import Permutation.
From Verif.Model Require Import Base Minim.
From Verif.Spec Require Import WorkersSpec.

Lemma split_at {A} (l : list A) i a : nth_error l i = Some a -> l = firstn i l ++ a :: skipn (S i) l.
Proof.
  revert i. induction l as [|x l IH]; intros [|i] H; cbn in *; try discriminate.
  - now inversion H.
  - f_equal. apply IH. exact H.
Qed.
Definition sumf {A} (w : A -> nat) (l : list A) : nat := fold_right (fun a s => w a + s) 0 l.
Lemma sumf_app {A} (w : A -> nat) l r : sumf w (l ++ r) = sumf w l + sumf w r.
Proof. induction l as [|a l IH]; cbn; [reflexivity|]. fold (sumf w (l ++ r)). rewrite IH. fold (sumf w l). lia. Qed.
Lemma sumf_set {A} (w : A -> nat) l i a b : nth_error l i = Some a -> sumf w (set_nth l i b) + w a = sumf w l + w b.
Proof.
  intro H. rewrite (split_at l i a H) at 2. unfold set_nth. rewrite !sumf_app. cbn.
  fold (sumf w (skipn (S i) l)). lia.
Qed.
Lemma perm_xfy {B} (x f y : list B) : Permutation ((x ++ f) ++ y) ((y ++ f) ++ x).
Proof.
  rewrite <- app_assoc. etransitivity; [apply Permutation_app_comm|]. apply Permutation_app_tail, Permutation_app_comm.
Qed.
Lemma perm_set {A B} (g : A -> list B) l i a b : nth_error l i = Some a ->
  Permutation (flat_map g (set_nth l i b) ++ g a) (flat_map g l ++ g b).
Proof.
  intro H. rewrite (split_at l i a H) at 2. unfold set_nth. rewrite !flat_map_app. cbn [flat_map].
  rewrite <- (app_assoc (flat_map g (firstn i l)) _ (g a)), <- (app_assoc (flat_map g (firstn i l)) _ (g b)).
  apply Permutation_app_head. apply perm_xfy.
Qed.
Lemma perm_filter {A} (f : A -> bool) l r : Permutation l r -> Permutation (filter f l) (filter f r).
Proof.
  induction 1 as [|x l r P IH|x y l|l m r P1 IH1 P2 IH2]; cbn.
  - constructor.
  - destruct (f x); [now constructor|exact IH].
  - destruct (f x), (f y); try apply Permutation_refl. apply perm_swap.
  - etransitivity; eassumption.
Qed.
Lemma set_nth_length {A} (l : list A) i a b : nth_error l i = Some a -> length (set_nth l i b) = length l.
Proof. intro H. rewrite (split_at l i a H) at 2. unfold set_nth. rewrite !app_length. reflexivity. Qed.
Lemma set_nth_in {A} (l : list A) i b x : In x (set_nth l i b) -> x = b \/ In x l.
Proof.
  unfold set_nth. rewrite in_app_iff. cbn. intros [H|[H|H]]; [right|left; congruence|right].
  - rewrite <- (firstn_skipn i l). apply in_app_iff. now left.
  - rewrite <- (firstn_skipn (S i) l). apply in_app_iff. now right.
Qed.

Definition work (t : wpc) : list nat := match t with WWork p => [p] | _ => [] end.
Definition popping (t : wpc) : nat := match t with WPop => 1 | _ => 0 end.
Definition busy (t : wpc) : nat := match t with WPop | WWork _ => 1 | _ => 0 end.
Definition weight (t : wpc) : nat := match t with WDone => 0 | WCheck => 2 | WPop => 1 | WWork _ => 3 end.

Section W.
  Variable good : nat -> bool.
  Variables max n : nat.
  Variable starts : list nat.

  Definition winv (s : wstate) : Prop :=
    length (w_threads s) = n /\
    w_found s = length (w_results s) /\
    (exists failed, Permutation starts (failed ++ w_results s ++ flat_map work (w_threads s) ++ w_queue s) /\
       Forall (fun p => good p = true) (w_results s) /\ Forall (fun p => good p = false) failed /\
       length failed + w_found s + sumf busy (w_threads s) <= max + (n - 1) + failures good starts) /\
    (In WDone (w_threads s) -> max <= w_found s \/ w_queue s = []).

  Lemma busy_split l : sumf busy l = length (flat_map work l) + sumf popping l.
  Proof.
    induction l as [|t l IH]; [reflexivity|]. cbn [flat_map sumf fold_right]. fold (sumf busy l). fold (sumf popping l).
    rewrite app_length, IH. destruct t; cbn; lia.
  Qed.
  Lemma busy_le l : sumf busy l <= length l.
  Proof. induction l as [|t l IH]; [cbn; lia|]. cbn. fold (sumf busy l). destruct t; cbn; lia. Qed.
  Lemma failed_le failed r : Permutation starts (failed ++ r) -> Forall (fun p => good p = false) failed ->
    length failed <= failures good starts.
  Proof.
    intros P F. unfold failures. 
    assert (Q : Permutation (filter (fun p => negb (good p)) starts) (filter (fun p => negb (good p)) (failed ++ r))).
    { now apply perm_filter. }
    rewrite (Permutation_length Q), filter_app, app_length.
    assert (E : filter (fun p => negb (good p)) failed = failed).
    { clear P Q. induction F as [|p l H F IH]; [reflexivity|]. cbn. rewrite H. cbn. now rewrite IH. }
    rewrite E. lia.
  Qed.

  Lemma step_cases i s : winv s -> winv (wstep good max i s).
  Proof.
    intros (L & F & (failed & P & G & B & Bd) & D). unfold wstep.
    destruct (nth_error (w_threads s) i) as [[| |p|]|] eqn:E.
    - (* check *)
      destruct (Nat.ltb (w_found s) max && _) eqn:C.
      + split; [cbn; now rewrite (set_nth_length _ _ _ _ E)|]. split; [exact F|]. split.
        * exists failed. cbn [w_results w_threads w_queue w_found].
          pose proof (perm_set work _ _ _ WPop E) as PS. cbn in PS. rewrite !app_nil_r in PS.
          split; [rewrite PS; exact P|]. split; [exact G|]. split; [exact B|].
          pose proof (sumf_set busy _ _ _ WPop E) as SS. cbn [busy] in SS.
          apply andb_true_iff in C as [C _]. apply Nat.ltb_lt in C.
          pose proof (failed_le failed _ P B).
          pose proof (busy_le (firstn i (w_threads s))). pose proof (busy_le (skipn (S i) (w_threads s))).
          pose proof (split_at _ _ _ E) as SA. assert (LL := f_equal (@length _) SA). rewrite app_length in LL. cbn [length] in LL.
          assert (SB := f_equal (sumf busy) SA). rewrite sumf_app in SB. change (sumf busy (WCheck :: skipn (S i) (w_threads s))) with (sumf busy (skipn (S i) (w_threads s))) in SB.
          lia.
        * cbn [w_threads w_found w_queue]. intro I. apply set_nth_in in I as [I|I]; [discriminate|]. now apply D.
      + split; [cbn; now rewrite (set_nth_length _ _ _ _ E)|]. split; [exact F|]. split.
        * exists failed. cbn [w_results w_threads w_queue w_found].
          pose proof (perm_set work _ _ _ WDone E) as PS. cbn in PS. rewrite !app_nil_r in PS.
          split; [rewrite PS; exact P|]. split; [exact G|]. split; [exact B|].
          pose proof (sumf_set busy _ _ _ WDone E) as SS. cbn [busy] in SS. lia.
        * cbn [w_threads w_found w_queue]. intros _. apply andb_false_iff in C as [C|C].
          -- left. apply Nat.ltb_ge. exact C.
          -- right. destruct (w_queue s); [reflexivity|discriminate].
    - (* pop *)
      destruct (w_queue s) as [|p q] eqn:Q.
      + split; [exact L|]. split; [exact F|]. split; [exists failed; auto|]. cbn. auto.
      + split; [cbn; now rewrite (set_nth_length _ _ _ _ E)|]. split; [exact F|]. split.
        * exists failed. cbn [w_results w_threads w_queue w_found].
          pose proof (perm_set work _ _ _ (WWork p) E) as PS. cbn in PS. rewrite app_nil_r in PS.
          split; [|split; [exact G|split; [exact B|]]].
          -- rewrite P. apply Permutation_app_head, Permutation_app_head. rewrite PS. rewrite <- app_assoc. reflexivity.
          -- pose proof (sumf_set busy _ _ _ (WWork p) E) as SS. cbn [busy] in SS. lia.
        * cbn [w_threads w_found w_queue]. intro I. apply set_nth_in in I as [I|I]; [discriminate|].
          destruct (D I) as [|H]; [now left|discriminate].
    - (* work *)
      destruct (good p) eqn:GP.
      + split; [cbn; now rewrite (set_nth_length _ _ _ _ E)|]. split; [cbn; rewrite app_length, F; cbn; lia|]. split.
        * exists failed. cbn [w_results w_threads w_queue w_found].
          pose proof (perm_set work _ _ _ WCheck E) as PS. cbn in PS. rewrite app_nil_r in PS.
          split; [|split; [|split; [exact B|]]].
          -- rewrite P. apply Permutation_app_head. rewrite <- app_assoc. apply Permutation_app_head. rewrite <- PS.
             rewrite <- app_assoc. cbn. symmetry. apply Permutation_middle.
          -- apply Forall_app. split; [exact G|]. now constructor.
          -- pose proof (sumf_set busy _ _ _ WCheck E) as SS. cbn [busy] in SS. lia.
        * cbn [w_threads w_found w_queue]. intro I. apply set_nth_in in I as [I|I]; [discriminate|].
          destruct (D I) as [|H]; [left; lia|now right].
      + split; [cbn; now rewrite (set_nth_length _ _ _ _ E)|]. split; [exact F|]. split.
        * exists (p :: failed). cbn [w_results w_threads w_queue w_found].
          pose proof (perm_set work _ _ _ WCheck E) as PS. cbn in PS. rewrite app_nil_r in PS.
          split; [|split; [exact G|split; [now constructor|]]].
          -- rewrite P. rewrite <- PS. set (ws := flat_map work (set_nth (w_threads s) i WCheck)).
             transitivity (((failed ++ w_results s) ++ ws) ++ p :: w_queue s).
             ++ rewrite <- !app_assoc. reflexivity.
             ++ etransitivity; [symmetry; apply Permutation_middle|]. rewrite <- !app_assoc. reflexivity.
          -- pose proof (sumf_set busy _ _ _ WCheck E) as SS. cbn [busy] in SS. cbn [length]. lia.
        * cbn [w_threads w_found w_queue]. intro I. apply set_nth_in in I as [I|I]; [discriminate|]. now apply D.
    - split; [exact L|]. split; [exact F|]. split; [exists failed; auto|exact D].
    - split; [exact L|]. split; [exact F|]. split; [exists failed; auto|exact D].
  Qed.
End W.

Lemma winv_init good max n starts : winv good max n starts (winit n starts).
Proof.
  assert (W : flat_map work (repeat WCheck n) = []) by (induction n as [|k IH]; [reflexivity|exact IH]).
  assert (Z : sumf busy (repeat WCheck n) = 0) by (clear W; induction n as [|k IH]; [reflexivity|exact IH]).
  split; [apply repeat_length|]. split; [reflexivity|]. split.
  - exists []. cbn [winit w_threads w_results w_queue w_found]. rewrite W, Z. cbn. repeat split; try constructor; try lia. apply Permutation_refl.
  - cbn. intro I. apply repeat_spec in I. discriminate.
Qed.
Lemma winv_run good max n starts sched : forall s, winv good max n starts s -> winv good max n starts (wrun good max sched s).
Proof. induction sched as [|i sched IH]; intros s I; [exact I|]. apply IH, step_cases, I. Qed.

(** enough starting points: nobody pops from an empty queue *)
Lemma step_safe good max n starts i s : winv good max n starts s -> max + (n - 1) + failures good starts <= length starts ->
  w_ub s = false -> w_ub (wstep good max i s) = false.
Proof.
  intros (L & F & (failed & P & G & B & Bd) & D) H U. unfold wstep.
  destruct (nth_error (w_threads s) i) as [[| |p|]|] eqn:E; try exact U.
  - destruct (w_queue s) as [|p q] eqn:Q; [|exact U]. exfalso.
    apply Permutation_length in P. rewrite !app_length in P. cbn in P.
    rewrite busy_split in Bd.
    assert (1 <= sumf popping (w_threads s)).
    { rewrite (split_at _ _ _ E), sumf_app. cbn. lia. }
    lia.
  - destruct (good p); exact U.
Qed.
Lemma run_safe good max n starts sched : forall s, winv good max n starts s ->
  max + (n - 1) + failures good starts <= length starts -> w_ub s = false -> w_ub (wrun good max sched s) = false.
Proof.
  induction sched as [|i sched IH]; intros s I H U; [exact U|]. apply IH; [now apply step_cases|exact H|eapply step_safe; eassumption].
Qed.

(** one worker *)
Lemma single_safe good max sched : forall q f r t, (t = WPop -> q <> []) ->
  let s := wrun good max sched {| w_queue := q; w_found := f; w_results := r; w_threads := [t]; w_ub := false |} in w_ub s = false.
Proof.
  induction sched as [|i sched IH]; intros q f r t H; [reflexivity|]. unfold wrun. cbn [fold_left].
  assert (St : exists q' f' r' t', (t' = WPop -> q' <> []) /\
    wstep good max i {| w_queue := q; w_found := f; w_results := r; w_threads := [t]; w_ub := false |}
    = {| w_queue := q'; w_found := f'; w_results := r'; w_threads := [t']; w_ub := false |}).
  { unfold wstep. cbn [w_threads w_queue w_found w_results w_ub]. destruct i as [|i]; cbn [nth_error].
    2:{ destruct i; exists q, f, r, t; auto. }
    destruct t as [| |p|].
    - destruct (Nat.ltb f max && _) eqn:C; unfold set_nth; cbn.
      + exists q, f, r, WPop. split; [|reflexivity]. intros _ Z. subst q. rewrite andb_false_r in C. discriminate.
      + exists q, f, r, WDone. split; [discriminate|reflexivity].
    - destruct q as [|p q]; [exfalso; now apply H|]. exists q, f, r, (WWork p). split; [discriminate|reflexivity].
    - destruct (good p); [exists q, (S f), (r ++ [p]), WCheck|exists q, f, r, WCheck]; (split; [discriminate|reflexivity]).
    - exists q, f, r, WDone. split; [discriminate|reflexivity]. }
  destruct St as (q' & f' & r' & t' & H' & ->). apply IH. exact H'.
Qed.

(** at most max + n - 1 solutions *)
Lemma found_bound good max n sched : forall s, length (w_threads s) = n -> w_found s + sumf busy (w_threads s) <= max + (n - 1) ->
  w_found (wrun good max sched s) <= max + (n - 1).
Proof.
  induction sched as [|i sched IH]; intros s L H; [cbn; lia|]. apply IH.
  - unfold wstep. destruct (nth_error (w_threads s) i) as [[| |p|]|] eqn:E; try exact L.
    + cbn [w_threads]. now rewrite (set_nth_length _ _ _ _ E).
    + destruct (w_queue s); [exact L|]. cbn [w_threads]. now rewrite (set_nth_length _ _ _ _ E).
    + destruct (good p); cbn [w_threads]; now rewrite (set_nth_length _ _ _ _ E).
  - unfold wstep. destruct (nth_error (w_threads s) i) as [[| |p|]|] eqn:E; try exact H.
    + cbn [w_threads w_found]. destruct (Nat.ltb (w_found s) max && _) eqn:C.
      * apply andb_true_iff in C as [C _]. apply Nat.ltb_lt in C.
        pose proof (sumf_set busy _ _ _ WPop E) as SS. cbn [busy] in SS.
        pose proof (busy_le (firstn i (w_threads s))). pose proof (busy_le (skipn (S i) (w_threads s))).
        pose proof (split_at _ _ _ E) as SA. assert (LL := f_equal (@length _) SA). rewrite app_length in LL. cbn [length] in LL.
        assert (SB := f_equal (sumf busy) SA). rewrite sumf_app in SB. change (sumf busy (WCheck :: skipn (S i) (w_threads s))) with (sumf busy (skipn (S i) (w_threads s))) in SB.
        lia.
      * pose proof (sumf_set busy _ _ _ WDone E) as SS. cbn [busy] in SS. lia.
    + destruct (w_queue s) as [|p q]; [exact H|]. cbn [w_threads w_found].
      pose proof (sumf_set busy _ _ _ (WWork p) E) as SS. cbn [busy] in SS. lia.
    + pose proof (sumf_set busy _ _ _ WCheck E) as SS. cbn [busy] in SS. destruct (good p); cbn [w_threads w_found]; lia.
Qed.

(** every enabled move decreases the measure *)
Definition measure (s : wstate) : nat := 3 * length (w_queue s) + sumf weight (w_threads s).
Lemma step_measure good max i s t : nth_error (w_threads s) i = Some t -> t <> WDone ->
  w_ub (wstep good max i s) = false -> S (measure (wstep good max i s)) <= measure s.
Proof.
  intros E N U. unfold measure, wstep in *. rewrite E in *. destruct t as [| |p|]; [| | |congruence].
  - cbn [w_queue w_threads].
    destruct (_ && _); [pose proof (sumf_set weight _ _ _ WPop E) as SS|pose proof (sumf_set weight _ _ _ WDone E) as SS]; cbn [weight] in SS; lia.
  - destruct (w_queue s) as [|p q]; [discriminate|]. cbn [w_queue w_threads length].
    pose proof (sumf_set weight _ _ _ (WWork p) E) as SS. cbn [weight] in SS. lia.
  - pose proof (sumf_set weight _ _ _ WCheck E) as SS. cbn [weight] in SS. destruct (good p); cbn [w_queue w_threads]; lia.
Qed.
(** [progress s sched]: every scheduled thread exists and has not finished when it is scheduled *)
Fixpoint progress (good : nat -> bool) (max : nat) (s : wstate) (sched : list nat) : Prop :=
  match sched with
  | [] => True
  | i :: r => (exists t, nth_error (w_threads s) i = Some t /\ t <> WDone) /\ progress good max (wstep good max i s) r
  end.
Lemma ub_sticky good max i s : w_ub s = true -> w_ub (wstep good max i s) = true.
Proof.
  intro U. unfold wstep. destruct (nth_error (w_threads s) i) as [[| |p|]|]; try exact U.
  - destruct (w_queue s); [reflexivity|exact U].
  - destruct (good p); exact U.
Qed.
Lemma ub_sticky_run good max sched : forall s, w_ub (wrun good max sched s) = false -> w_ub s = false.
Proof.
  induction sched as [|i sched IH]; intros s H; [exact H|]. apply (IH (wstep good max i s)) in H.
  destruct (w_ub s) eqn:U; [|reflexivity]. now rewrite (ub_sticky good max i s U) in H.
Qed.
Lemma terminates good max sched : forall s, progress good max s sched -> w_ub (wrun good max sched s) = false ->
  length sched + measure (wrun good max sched s) <= measure s.
Proof.
  induction sched as [|i sched IH]; intros s P U; [cbn; lia|]. destruct P as [(t & E & N) P].
  pose proof (ub_sticky_run good max sched (wstep good max i s) U) as U1.
  pose proof (step_measure good max i s t E N U1).
  pose proof (IH (wstep good max i s) P U). unfold wrun in *. cbn [fold_left length]. lia.
Qed.
Lemma measure_init n starts : measure (winit n starts) = 3 * length starts + 2 * n.
Proof.
  unfold measure. cbn [winit w_queue w_threads].
  assert (E : sumf weight (repeat WCheck n) = 2 * n) by (induction n as [|k IH]; [reflexivity|]; cbn in *; fold (sumf weight (repeat WCheck k)); lia).
  rewrite E. reflexivity.
Qed.

(** ** the race *)
Definition wst q f r ts := {| w_queue := q; w_found := f; w_results := r; w_threads := ts; w_ub := false |}.
Lemma burn good max p q ts : good p = false -> 0 < max ->
  wrun good max [0; 0; 0] (wst (p :: q) 0 [] (WCheck :: ts)) = wst q 0 [] (WCheck :: ts).
Proof.
  intros G M. unfold wrun. cbn [fold_left]. unfold wstep at 3. cbn [wst w_threads w_found w_queue nth_error negb].
  destruct max as [|m]; [lia|]. cbn. rewrite G. reflexivity.
Qed.
Lemma race good max n : forall starts, 2 <= n -> 0 < max -> starts <> [] -> Forall (fun p => good p = false) starts ->
  exists sched, w_ub (wrun good max sched (winit n starts)) = true.
Proof.
  intros starts N M NE F. destruct n as [|[|n]]; [lia|lia|]. unfold winit. cbn [repeat].
  change (exists sched, w_ub (wrun good max sched (wst starts 0 [] (WCheck :: WCheck :: repeat WCheck n))) = true).
  clear N. induction starts as [|p [|p' starts] IH]; [congruence| |].
  - exists [0; 1; 0; 1]. unfold wrun. cbn [fold_left]. destruct max as [|m]; [lia|]. reflexivity.
  - apply Forall_cons_iff in F as [Fp F]. destruct IH as (sched & H); [discriminate|exact F|].
    exists ([0; 0; 0] ++ sched). unfold wrun. rewrite fold_left_app. fold (wrun good max [0; 0; 0] (wst (p :: p' :: starts) 0 [] (WCheck :: WCheck :: repeat WCheck n))).
    rewrite burn; [exact H|exact Fp|exact M].
Qed.
