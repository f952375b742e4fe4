(** Proofs about the derivatives of eigenvalues. *)
From Coq Require Import Reals List Lra Lia ZArith.
From Coquelicot Require Import Coquelicot.
From Verif Require Import Model.Base Model.EigenDeriv Spec.EigenSpec Proofs.DerivLib.
Import ListNotations.
Open Scope R_scope.

(** * sums *)
Lemma csum_ext : forall n f g, (forall i, (i < n)%nat -> f i = g i) -> csum n f = csum n g.
Proof. induction n as [|n IH]; intros f g H; [reflexivity|]. cbn [csum]. rewrite (IH f g) by (intros; apply H; lia). rewrite H by lia. reflexivity. Qed.
Lemma totalC_ok : forall n f, totalC n f = csum n f.
Proof.
  intros n f. unfold totalC. induction n as [|n IH]; [reflexivity|]. cbn [csum]. rewrite seq_S, map_app, fold_right_app. cbn [map fold_right].
  rewrite <- IH. rewrite Nat.add_0_l. generalize (map f (seq 0 n)). intro l. induction l as [|x l IHl]; cbn [fold_right]; [ring|]. rewrite IHl. ring.
Qed.
Lemma totalR_ok : forall n f, totalR n f = rsum n f.
Proof.
  intros n f. unfold totalR. induction n as [|n IH]; [reflexivity|]. cbn [rsum]. rewrite seq_S, map_app, fold_right_app. cbn [map fold_right].
  rewrite <- IH. rewrite Nat.add_0_l. generalize (map f (seq 0 n)). intro l. induction l as [|x l IHl]; cbn [fold_right]; [ring|]. rewrite IHl. ring.
Qed.
Lemma csum_zero : forall n, csum n (fun _ => RtoC 0) = RtoC 0.
Proof. induction n as [|n IH]; [reflexivity|]. cbn [csum]. rewrite IH. ring. Qed.
Lemma csum_plus : forall n f g, csum n (fun i => Cplus (f i) (g i)) = Cplus (csum n f) (csum n g).
Proof. induction n as [|n IH]; intros f g; cbn [csum]; [ring|]. rewrite IH. ring. Qed.
Lemma csum_scal : forall n z f, csum n (fun i => Cmult z (f i)) = Cmult z (csum n f).
Proof. induction n as [|n IH]; intros z f; cbn [csum]; [ring|]. rewrite IH. ring. Qed.
Lemma csum_scal_r : forall n z f, csum n (fun i => Cmult (f i) z) = Cmult (csum n f) z.
Proof. induction n as [|n IH]; intros z f; cbn [csum]; [ring|]. rewrite IH. ring. Qed.
Lemma csum_swap : forall n m f, csum n (fun i => csum m (fun j => f i j)) = csum m (fun j => csum n (fun i => f i j)).
Proof.
  induction n as [|n IH]; intros m f; cbn [csum]; [symmetry; apply csum_zero|]. rewrite IH, <- csum_plus. reflexivity.
Qed.
Lemma Cconj_mult' : forall a b, Cconj (Cmult a b) = Cmult (Cconj a) (Cconj b).
Proof. intros [a b] [c d]. unfold Cconj, Cmult. cbn. f_equal; ring. Qed.
Lemma Cconj_plus' : forall a b, Cconj (Cplus a b) = Cplus (Cconj a) (Cconj b).
Proof. intros [a b] [c d]. unfold Cconj, Cplus. cbn. f_equal; ring. Qed.
Lemma Cconj_conj' : forall a, Cconj (Cconj a) = a.
Proof. intros [a b]. unfold Cconj. cbn. f_equal; ring. Qed.
Lemma Cconj_R : forall r, Cconj (RtoC r) = RtoC r.
Proof. intro r. unfold Cconj, RtoC. cbn. f_equal; ring. Qed.
Lemma csum_conj : forall n f, Cconj (csum n f) = csum n (fun i => Cconj (f i)).
Proof. induction n as [|n IH]; intro f; cbn [csum]; [apply Cconj_R|]. rewrite Cconj_plus', IH. reflexivity. Qed.
Lemma csum_delta : forall n k f, (k < n)%nat -> csum n (fun i => Cmult (delta k i) (f i)) = f k.
Proof.
  induction n as [|n IH]; intros k f H; [lia|]. cbn [csum]. unfold delta at 2. destruct (Nat.eqb_spec k n) as [->|N].
  - rewrite (csum_ext n _ (fun _ => RtoC 0)); [rewrite csum_zero; ring|]. intros i I. unfold delta. destruct (Nat.eqb_spec n i); [lia|ring].
  - rewrite IH by lia. ring.
Qed.
Lemma csum_app : forall n m f, csum (n + m) f = Cplus (csum n f) (csum m (fun i => f (n + i)%nat)).
Proof.
  intros n m f. induction m as [|m IH]; [rewrite Nat.add_0_r; cbn [csum]; ring|]. rewrite Nat.add_succ_r. cbn [csum]. rewrite IH. ring.
Qed.

(** * sandwiches *)
Section Sandwich.
  Variable n : nat.
  Definition inner (u w : nat -> C) : C := csum n (fun a => Cmult (Cconj (u a)) (w a)).
  Lemma sandwich_apply : forall D u w, sandwich n D u w = inner u (fun a => csum n (fun b => Cmult (D a b) (w b))).
  Proof.
    intros D u w. unfold sandwich, inner. apply csum_ext. intros a A. rewrite <- csum_scal. apply csum_ext. intros b B. ring.
  Qed.
  Lemma inner_ext : forall u u' w w', (forall a, (a < n)%nat -> u a = u' a) -> (forall a, (a < n)%nat -> w a = w' a) -> inner u w = inner u' w'.
  Proof. intros u u' w w' U W. apply csum_ext. intros a A. rewrite U, W by exact A. reflexivity. Qed.
  Lemma sandwich_ext : forall D u u' w w', (forall a, (a < n)%nat -> u a = u' a) -> (forall a, (a < n)%nat -> w a = w' a) -> sandwich n D u w = sandwich n D u' w'.
  Proof. intros D u u' w w' U W. apply csum_ext. intros a A. apply csum_ext. intros b B. rewrite U, W by assumption. reflexivity. Qed.
  Lemma inner_conj : forall u w, Cconj (inner u w) = inner w u.
  Proof. intros u w. unfold inner. rewrite csum_conj. apply csum_ext. intros a A. rewrite Cconj_mult', Cconj_conj'. ring. Qed.
  Lemma sandwich_hermitian : forall D u w, hermitian n D -> Cconj (sandwich n D u w) = sandwich n D w u.
  Proof.
    intros D u w H. unfold sandwich. rewrite csum_conj. rewrite (csum_ext n _ (fun a => csum n (fun b => Cmult (Cmult (Cconj (w b)) (D b a)) (u a)))).
    - rewrite csum_swap. reflexivity.
    - intros a A. rewrite csum_conj. apply csum_ext. intros b B. rewrite !Cconj_mult', Cconj_conj', (H b a B A). ring.
  Qed.
  Lemma sandwich_scaled : forall D u c, sandwich n D (fun a => Cmult c (u a)) (fun a => Cmult c (u a)) = Cmult (Cmult (Cconj c) c) (sandwich n D u u).
  Proof.
    intros D u c. unfold sandwich. rewrite <- csum_scal. apply csum_ext. intros a A. rewrite <- csum_scal. apply csum_ext. intros b B. rewrite Cconj_mult'. ring.
  Qed.
  (** D x = l x *)
  Lemma sandwich_eigen : forall D u x l, (forall a, (a < n)%nat -> csum n (fun b => Cmult (D a b) (x b)) = Cmult l (x a)) ->
    sandwich n D u x = Cmult l (inner u x).
  Proof.
    intros D u x l H. rewrite sandwich_apply. unfold inner. rewrite <- csum_scal. apply csum_ext. intros a A. rewrite H by exact A. ring.
  Qed.
  Lemma sandwich_eigen_left : forall D u x l, hermitian n D -> (forall a, (a < n)%nat -> csum n (fun b => Cmult (D a b) (u b)) = Cmult (RtoC l) (u a)) ->
    sandwich n D u x = Cmult (RtoC l) (inner u x).
  Proof.
    intros D u x l Hm H. rewrite <- (sandwich_hermitian D x u Hm). rewrite (sandwich_eigen D x u _ H). rewrite Cconj_mult', Cconj_R, inner_conj. reflexivity.
  Qed.
End Sandwich.

Section Unitary.
  Variables (n : nat) (V : cmat).
  Hypothesis complete : forall a b, (a < n)%nat -> (b < n)%nat -> totalC n (fun p => Cmult (V a p) (Cconj (V b p))) = delta a b.
  Lemma trace_columns : forall D, csum n (fun p => sandwich n D (fun a => V a p) (fun a => V a p)) = csum n (fun a => D a a).
  Proof using complete.
    intro D. unfold sandwich. rewrite csum_swap. apply csum_ext. intros a A. rewrite csum_swap.
    rewrite (csum_ext n _ (fun b => Cmult (delta a b) (D a b))); [apply (csum_delta n a (fun b => D a b) A)|].
    intros b B. rewrite (csum_ext n _ (fun p => Cmult (D a b) (Cmult (V b p) (Cconj (V a p))))) by (intros; ring).
    rewrite csum_scal, <- totalC_ok, (complete b a B A). unfold delta. rewrite Nat.eqb_sym. ring.
  Qed.
  Lemma expansion : forall x a, (a < n)%nat -> x a = csum n (fun p => Cmult (V a p) (inner n (fun b => V b p) x)).
  Proof using complete.
    intros x a A. unfold inner. rewrite (csum_ext n _ (fun p => csum n (fun b => Cmult (Cmult (V a p) (Cconj (V b p))) (x b)))).
    - rewrite csum_swap. rewrite (csum_ext n _ (fun b => Cmult (delta a b) (x b))); [symmetry; apply (csum_delta n a x A)|].
      intros b B. rewrite csum_scal_r, <- totalC_ok, (complete a b A B). reflexivity.
    - intros p P. rewrite <- csum_scal. apply csum_ext. intros b B. ring.
  Qed.
End Unitary.

Lemma diagonal_entry : forall n M dec p q, diagonalises n M dec -> (p < n)%nat -> (q < n)%nat ->
  sandwich n M (fun a => snd dec a p) (fun a => snd dec a q) = Cmult (RtoC (nth q (fst dec) 0)) (delta p q).
Proof.
  intros n M dec p q [L [S [E [O K]]]] P Q. rewrite (sandwich_eigen n M _ _ (RtoC (nth q (fst dec) 0))).
  - unfold inner. rewrite <- totalC_ok, (O p q P Q). reflexivity.
  - intros a A. rewrite <- totalC_ok. apply E; assumption.
Qed.
Lemma sum_eigenvalues : forall n M dec, diagonalises n M dec ->
  csum n (fun p => RtoC (nth p (fst dec) 0)) = csum n (fun a => M a a).
Proof.
  intros n M dec H. pose proof H as [L [S [E [O K]]]]. rewrite <- (trace_columns n (snd dec) K M). apply csum_ext. intros p P.
  rewrite (diagonal_entry n M dec p p H P P). unfold delta. rewrite Nat.eqb_refl. ring.
Qed.

(** * the loop *)
Lemma filter_prefix : forall (f : nat -> bool) k s, (forall i j, (s <= j <= i)%nat -> (i < s + k)%nat -> f i = true -> f j = true) ->
  exists r, (r <= k)%nat /\ filter f (seq s k) = seq s r.
Proof.
  intros f k. induction k as [|k IH]; intros s H; [exists 0%nat; split; [lia|reflexivity]|]. cbn [seq filter]. destruct (f s) eqn:F.
  - destruct (IH (S s)) as [r [R E]].
    { intros i j J I T. apply (H i j); [lia|lia|exact T]. }
    exists (S r). split; [lia|]. cbn [seq]. rewrite E. reflexivity.
  - exists 0%nat. split; [lia|]. cbn [seq]. assert (N : forall x, In x (seq (S s) k) -> f x = false).
    { intros x X. apply in_seq in X. destruct (f x) eqn:G; [|reflexivity]. rewrite (H x s ltac:(lia) ltac:(lia) G) in F. discriminate. }
    revert N. generalize (seq (S s) k). intros l N. induction l as [|x l IHl]; [reflexivity|]. cbn [filter]. rewrite (N x (or_introl eq_refl)). apply IHl. intros y Y. apply N. right. exact Y.
Qed.
Lemma clipped_mono : forall x y, x <= y -> clipped x <= clipped y.
Proof.
  intros x y H. unfold clipped. assert (0 < threshold) by (unfold threshold; apply Rinv_0_lt_compat, pow_lt; lra).
  destruct (Rlt_dec (Rabs x) threshold) as [X|X], (Rlt_dec (Rabs y) threshold) as [Y|Y]; try lra.
  - apply Rnot_lt_le in Y. apply Rabs_def2 in X. unfold Rabs in Y. destruct (Rcase_abs y); lra.
  - apply Rnot_lt_le in X. apply Rabs_def2 in Y. unfold Rabs in X. destruct (Rcase_abs x); lra.
Qed.
Lemma threshold_pos : 0 < threshold.
Proof. unfold threshold. apply Rinv_0_lt_compat, pow_lt. lra. Qed.

Section Loop.
  Variable solver : nat -> cmat -> list R * cmat.
  Variables (n : nat) (M D : cmat).
  Let same := same solver n M.
  Let eigenvalue := eigenvalue solver n M.
  Let column := column solver n M.
  Let members := members solver n M.
  Let work := work solver n M D.
  Let step := step solver n M D.

  Lemma same_sym : forall i j, same i j = same j i.
  Proof. intros i j. unfold same, EigenDeriv.same. rewrite Rabs_minus_sym. reflexivity. Qed.
  Lemma same_refl : forall i, same i i = true.
  Proof. intro i. unfold same, EigenDeriv.same. rewrite Rminus_eq_0, Rabs_R0. pose proof threshold_pos. destruct (Rlt_dec threshold 0); [lra|reflexivity]. Qed.

  Lemma fold_update_other : forall l (st : nat -> option C) q, ~ In q (map fst l) -> fold_left (fun s x => update s (fst x) (RtoC (snd x))) l st q = st q.
  Proof.
    induction l as [|x l IH]; intros st q N; [reflexivity|]. cbn [fold_left]. rewrite IH by (intro I; apply N; right; exact I).
    unfold update. destruct (Nat.eqb_spec q (fst x)) as [E|E]; [|reflexivity]. exfalso. apply N. left. symmetry. exact E.
  Qed.
  Lemma in_combine_fst : forall (l : list nat) (m : list R) q, In q (map fst (combine l m)) -> In q l.
  Proof. induction l as [|x l IH]; intros [|y m] q H; cbn in H; try contradiction. destruct H as [H|H]; [left; exact H|right; apply (IH m q H)]. Qed.

  (** ** an isolated eigenvalue *)
  Section Isolated.
    Variable p : nat.
    Hypothesis P : (p < n)%nat.
    Hypothesis alone : forall j, (j < n)%nat -> j <> p -> same p j = false.
    Lemma step_other : forall st q, (q < n)%nat -> q <> p -> step st q p = st p.
    Proof using P alone.
      intros st q Q N. unfold step, EigenDeriv.step. destruct (st q) as [z|]; [reflexivity|].
      destruct (existsb (EigenDeriv.same solver n M q) (seq (S q) (n - S q))).
      - rewrite fold_update_other; [reflexivity|]. intro I. apply in_combine_fst in I. unfold EigenDeriv.members in I. apply filter_In in I. destruct I as [_ I].
        assert (F : same p q = false) by (apply alone; assumption). rewrite same_sym in F. unfold same in F. rewrite F in I. discriminate.
      - unfold update. destruct (Nat.eqb_spec p q); [congruence|reflexivity].
    Qed.
    Lemma fold_step_other : forall l st, (forall q, In q l -> (q < n)%nat /\ q <> p) -> fold_left step l st p = st p.
    Proof using P alone.
      induction l as [|q l IH]; intros st H; [reflexivity|]. cbn [fold_left]. rewrite IH by (intros r R; apply H; right; exact R).
      destruct (H q (or_introl eq_refl)). apply step_other; assumption.
    Qed.
    Lemma isolated_value : derivatives solver n M D p = Some (sandwich n D (column p) (column p)).
    Proof using P alone.
      unfold derivatives. fold step. replace n with (p + S (n - S p))%nat at 1 by lia. rewrite seq_app, fold_left_app. cbn [seq fold_left].
      rewrite Nat.add_0_l. rewrite fold_step_other by (intros q Q; apply in_seq in Q; lia).
      unfold step at 1, EigenDeriv.step. rewrite fold_step_other by (intros q Q; apply in_seq in Q; lia).
      destruct (existsb (EigenDeriv.same solver n M p) (seq (S p) (n - S p))) eqn:X.
      - apply existsb_exists in X. destruct X as [j [J T]]. apply in_seq in J. pose proof (alone j ltac:(lia) ltac:(lia)) as F. unfold same in F. congruence.
      - unfold update. rewrite Nat.eqb_refl. reflexivity.
    Qed.
  End Isolated.

  (** ** all of them *)
  Hypothesis dec : diagonalises n M (solver n M).
  Lemma eigenvalue_sorted : forall i j, (i <= j < n)%nat -> eigenvalue i <= eigenvalue j.
  Proof using dec. intros i j I. apply clipped_mono. destruct dec as [_ [S _]]. apply S. exact I. Qed.
  Lemma same_between : forall p i j, (p <= j <= i)%nat -> (i < n)%nat -> same p i = true -> same p j = true.
  Proof using dec.
    intros p i j J I T. unfold same, EigenDeriv.same in T |- *. fold eigenvalue in T |- *.
    pose proof (eigenvalue_sorted p j ltac:(lia)). pose proof (eigenvalue_sorted j i ltac:(lia)).
    destruct (Rlt_dec threshold (Rabs (eigenvalue p - eigenvalue i))) as [X|X]; [discriminate|].
    destruct (Rlt_dec threshold (Rabs (eigenvalue p - eigenvalue j))) as [Y|Y]; [|reflexivity]. exfalso. apply X.
    rewrite Rabs_minus_sym in Y |- *. rewrite Rabs_pos_eq in Y by lra. rewrite Rabs_pos_eq by lra. lra.
  Qed.
  Lemma members_block : forall p, (p < n)%nat -> exists r, (0 < r)%nat /\ (p + r <= n)%nat /\ members p = seq p r.
  Proof using dec.
    intros p P. destruct (filter_prefix (same p) (n - p) p) as [r [R E]].
    { intros i j J I T. apply (same_between p i j J ltac:(lia) T). }
    exists r. repeat split; [|lia|exact E]. destruct r; [|lia]. exfalso.
    assert (I : In p (filter (same p) (seq p (n - p)))) by (apply filter_In; split; [apply in_seq; lia|apply same_refl]). rewrite E in I. contradiction.
  Qed.
  (** the blocks that occur *)
  Definition block (p : nat) : cmat := fun a b => sandwich n D (column (p + a)) (column (p + b)).
  Hypothesis blocks : forall p r, (p + r <= n)%nat -> (1 < r)%nat -> members p = seq p r -> diagonalises r (work p) (solver r (work p)).
  Variable w : nat -> R.
  Hypothesis weight : forall i j, (i < n)%nat -> (j < n)%nat -> same i j = true -> w i = w j.
  Definition value (st : nat -> option C) (i : nat) : C := match st i with Some z => z | None => RtoC 0 end.
  Definition inv (k : nat) (st : nat -> option C) : Prop :=
    exists m, (k <= m <= n)%nat /\ (forall i, st i <> None <-> (i < m)%nat) /\
      csum m (fun i => Cmult (RtoC (w i)) (value st i)) = csum m (fun i => Cmult (RtoC (w i)) (sandwich n D (column i) (column i))).

  Lemma fold_update_block : forall (mu : list R) p (st : nat -> option C) i, 
    fold_left (fun s x => update s (fst x) (RtoC (snd x))) (combine (seq p (length mu)) mu) st i =
    if (Nat.leb p i && Nat.ltb i (p + length mu))%bool then Some (RtoC (nth (i - p) mu 0)) else st i.
  Proof.
    induction mu as [|x mu IH]; intros p st i; cbn [length seq combine fold_left].
    - rewrite Nat.add_0_r. destruct (Nat.leb_spec p i), (Nat.ltb_spec i p); cbn; try reflexivity; lia.
    - rewrite IH. cbn [fst snd]. destruct (Nat.leb_spec (S p) i), (Nat.leb_spec p i), (Nat.ltb_spec i (S p + length mu)), (Nat.ltb_spec i (p + S (length mu))); cbn [andb]; try lia.
      + replace (i - p)%nat with (S (i - S p)) by lia. reflexivity.
      + unfold update. destruct (Nat.eqb_spec i p); [lia|reflexivity].
      + assert (i = p) by lia. subst i. unfold update. rewrite Nat.eqb_refl, Nat.sub_diag. reflexivity.
      + unfold update. destruct (Nat.eqb_spec i p); [lia|reflexivity].
  Qed.
  Lemma inv_step : forall k st, (k < n)%nat -> inv k st -> inv (S k) (step st k).
  Proof using dec blocks weight.
    intros k st K [m [Hm [Hs E]]]. unfold step, EigenDeriv.step. destruct (st k) as [z|] eqn:SK.
    - exists m. split; [|split; assumption]. assert (k < m)%nat by (apply Hs; congruence). lia.
    - assert (m = k). { assert (~ (k < m)%nat) by (intro H; apply Hs in H; contradiction). lia. } subst m.
      destruct (existsb (EigenDeriv.same solver n M k) (seq (S k) (n - S k))) eqn:X.
      + destruct (members_block k K) as [r [R0 [R1 MB]]].
        assert (R2 : (1 < r)%nat).
        { apply existsb_exists in X. destruct X as [j [J T]]. apply in_seq in J.
          assert (I : In j (members k)) by (apply filter_In; split; [apply in_seq; lia|exact T]). rewrite MB in I. apply in_seq in I. lia. }
        pose proof (blocks k r R1 R2 MB) as B. fold members work. rewrite MB, seq_length.
        destruct (solver r (work k)) as [mu W] eqn:SV. cbn [fst]. pose proof B as [LB _]. cbn [fst] in LB.
        rewrite <- LB at 1. set (st' := fold_left _ _ st).
        assert (V : forall i, st' i = if (Nat.leb k i && Nat.ltb i (k + r))%bool then Some (RtoC (nth (i - k) mu 0)) else st i).
        { intro i. unfold st'. rewrite fold_update_block, LB. reflexivity. }
        exists (k + r)%nat. split; [lia|]. split.
        * intro i. rewrite V. destruct (Nat.leb_spec k i), (Nat.ltb_spec i (k + r)); cbn [andb]; [split; [lia|discriminate]|rewrite Hs; lia|rewrite Hs; lia|rewrite Hs; lia].
        * rewrite !csum_app. f_equal.
          -- rewrite <- E. apply csum_ext. intros i I. unfold value. rewrite V. destruct (Nat.leb_spec k i); [lia|reflexivity].
          -- rewrite (csum_ext r _ (fun i => Cmult (RtoC (w k)) (RtoC (nth i mu 0)))).
             2:{ intros i I. unfold value. rewrite V. destruct (Nat.leb_spec k (k + i)), (Nat.ltb_spec (k + i) (k + r)); try lia. cbn [andb].
                 replace (k + i - k)%nat with i by lia. rewrite (weight (k + i) k); [reflexivity|lia|lia|]. rewrite same_sym.
                 assert (J : In (k + i)%nat (members k)) by (rewrite MB; apply in_seq; lia). apply filter_In in J. exact (proj2 J). }
             rewrite csum_scal. pose proof (sum_eigenvalues r (work k) _ B) as T. cbn [fst] in T. rewrite T.
             rewrite <- csum_scal. apply csum_ext. intros i I. f_equal.
             ++ rewrite (weight (k + i) k); [reflexivity|lia|lia|]. rewrite same_sym.
                assert (J : In (k + i)%nat (members k)) by (rewrite MB; apply in_seq; lia). apply filter_In in J. exact (proj2 J).
             ++ unfold work, EigenDeriv.work. fold members. rewrite MB, seq_nth by exact I. reflexivity.
      + exists (S k). split; [lia|]. split.
        * intro i. unfold update. destruct (Nat.eqb_spec i k) as [->|N]; [split; [lia|discriminate]|]. rewrite Hs. lia.
        * cbn [csum]. f_equal.
          -- rewrite <- E. apply csum_ext. intros i I. unfold value, update. destruct (Nat.eqb_spec i k); [lia|reflexivity].
          -- unfold value, update. rewrite Nat.eqb_refl. reflexivity.
  Qed.
  Lemma inv_run : forall j k st, (k + j <= n)%nat -> inv k st -> inv (k + j) (fold_left step (seq k j) st).
  Proof using dec blocks weight.
    induction j as [|j IH]; intros k st L H; [rewrite Nat.add_0_r; exact H|]. cbn [seq fold_left]. rewrite Nat.add_succ_r, <- Nat.add_succ_l. apply IH; [lia|]. apply inv_step; [lia|exact H].
  Qed.
  Lemma all_values : (forall i, (i < n)%nat -> derivatives solver n M D i <> None) /\
    csum n (fun i => Cmult (RtoC (w i)) (value (derivatives solver n M D) i)) = csum n (fun i => Cmult (RtoC (w i)) (sandwich n D (column i) (column i))).
  Proof using dec blocks weight.
    destruct (inv_run n 0 (fun _ => None)) as [m [Hm [Hs E]]].
    - lia.
    - exists 0%nat. split; [lia|]. split; [|reflexivity]. intro i. split; [intro H; contradiction|lia].
    - assert (m = n) by lia. subst m. split; [|exact E]. intros i I. apply Hs. exact I.
  Qed.
End Loop.
