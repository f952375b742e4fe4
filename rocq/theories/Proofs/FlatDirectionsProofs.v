(** Flat directions. *)
From Coq Require Import Reals List Arith Bool Lra Lia FinFun FunctionalExtensionality.
From Verif Require Import Spec.FlatDirectionsSpec Model.FlatDirections.
Import ListNotations.
Open Scope R_scope.

Lemma same_refl : forall r, same r r = true.
Proof.
  intros r; unfold same. destruct (Rlt_dec (Rabs r) (/ 10 ^ 10)) as [A|A]; cbn [andb]; [reflexivity|].
  destruct (Rlt_dec (Rabs (r - r)) (Rabs (r + r) / 2 * / 10 ^ 8)) as [B|B]; [reflexivity|]. exfalso; apply B.
  replace (r - r) with 0 by ring. rewrite Rabs_R0. replace (r + r) with (2 * r) by ring. rewrite Rabs_mult, (Rabs_right 2) by lra.
  assert (0 < / 10 ^ 10) by (apply Rinv_0_lt_compat, pow_lt; lra). assert (0 < / 10 ^ 8) by (apply Rinv_0_lt_compat, pow_lt; lra).
  apply Rmult_lt_0_compat; lra.
Qed.
Lemma in_unique : forall A (eqb : A -> A -> bool), (forall a b, eqb a b = true -> a = b) -> forall xs x, In x (unique eqb xs) <-> In x xs.
Proof.
  intros A eqb H. induction xs as [|a xs IH]; intros x; [tauto|]. cbn [unique]. destruct xs as [|b xs]; [tauto|].
  destruct (eqb a b) eqn:E.
  - rewrite IH. apply H in E. subst. cbn [In]. tauto.
  - cbn [In]. rewrite IH. cbn [In]. tauto.
Qed.
Lemma unique_id : forall A (eqb : A -> A -> bool), (forall a b, eqb a b = true -> a = b) -> forall xs, NoDup xs -> unique eqb xs = xs.
Proof.
  intros A eqb H. induction xs as [|a xs IH]; intros N; [reflexivity|]. cbn [unique]. inversion N as [|? ? NI N']; subst.
  destruct xs as [|b xs]; [reflexivity|]. destruct (eqb a b) eqn:E; [|rewrite IH by exact N'; reflexivity].
  exfalso. apply H in E. subst. apply NI; now left.
Qed.
Lemma put_eq : forall p i x, put p i x i = x.
Proof. intros; unfold put. now rewrite Nat.eqb_refl. Qed.
Lemma put_ne : forall p i x k, k <> i -> put p i x k = p k.
Proof. intros p i x k H; unfold put. destruct (Nat.eqb_spec k i); [contradiction|reflexivity]. Qed.

Ltac pc := unfold put; repeat match goal with |- context [Nat.eqb ?a ?b] => destruct (Nat.eqb_spec a b) end; try congruence; try lia.
Section Flat.
  Variables (n : nat) (V : point -> R).
  Lemma pair_eqb : forall a b : nat * nat, Nat.eqb (fst a) (fst b) && Nat.eqb (snd a) (snd b) = true -> a = b.
  Proof using. intros [a1 a2] [b1 b2] H; cbn in H. apply andb_prop in H. destruct H as [A B]. apply Nat.eqb_eq in A, B. now subst. Qed.
  Lemma in_2D : forall i j, In (i, j) (flat_2D n V) <-> (i < j < n)%nat /\ test2 V i j = true.
  Proof using.
    intros i j. unfold flat_2D. rewrite in_unique by exact pair_eqb. rewrite in_flat_map. split.
    - intros (a & A & B). rewrite in_map_iff in B. destruct B as (b & E & B). injection E as -> ->. rewrite filter_In, in_seq in B. rewrite in_seq in A. split; [lia|tauto].
    - intros [A T]. exists i. split; [rewrite in_seq; lia|]. rewrite in_map_iff. exists j. split; [reflexivity|]. rewrite filter_In, in_seq. split; [lia|exact T].
  Qed.
  Lemma in_1D : forall i, In i (flat_1D n V) <-> (i < n)%nat /\ test1 V i = true.
  Proof using.
    intros i. unfold flat_1D. rewrite in_unique by (intros a b; apply Nat.eqb_eq). rewrite filter_In, in_seq. split; intros [A B]; (split; [lia|exact B]).
  Qed.
  Lemma triple_eqb : forall a b : nat * nat * nat, Nat.eqb (fst (fst a)) (fst (fst b)) && Nat.eqb (snd (fst a)) (snd (fst b)) && Nat.eqb (snd a) (snd b) = true -> a = b.
  Proof using.
    intros [[a1 a2] a3] [[b1 b2] b3] H; cbn in H. apply andb_prop in H. destruct H as [H C]. apply andb_prop in H. destruct H as [A B].
    apply Nat.eqb_eq in A, B, C. now subst.
  Qed.
  Lemma in_3D : forall i j k, In (i, j, k) (flat_3D n V) <-> (i < j <= k)%nat /\ (k < n)%nat /\ test3 V i j k = true.
  Proof using.
    intros i j k. unfold flat_3D. rewrite in_unique by exact triple_eqb. rewrite in_flat_map. split.
    - intros (a & A & B). rewrite in_flat_map in B. destruct B as (b & B & C). rewrite in_map_iff in C. destruct C as (c & E & C). injection E as -> -> ->.
      rewrite filter_In, in_seq in C. rewrite in_seq in A, B. repeat split; try lia; tauto.
    - intros (A & K & T). exists i. split; [rewrite in_seq; lia|]. rewrite in_flat_map. exists j. split; [rewrite in_seq; lia|].
      rewrite in_map_iff. exists k. split; [reflexivity|]. rewrite filter_In, in_seq. split; [lia|exact T].
  Qed.
  (** completeness *)
  Lemma complete2 : forall i j, (i < j < n)%nat -> rotation_invariant V i j -> In (i, j) (flat_2D n V).
  Proof using.
    intros i j H R. apply in_2D. split; [exact H|]. unfold test2, at2.
    rewrite (R (put (put ones i 2) j 100) (put (put ones i 100) j 2)); [apply same_refl| |].
    - intros k A B. rewrite !put_ne by assumption. reflexivity.
    - rewrite !put_eq. rewrite !(put_ne _ j _ i) by lia. rewrite !put_eq. ring.
  Qed.
  Lemma complete1 : forall i, (i < n)%nat -> independent V i -> In i (flat_1D n V).
  Proof using.
    intros i H R. apply in_1D. split; [exact H|]. unfold test1, at1. rewrite (R (put ones i 2) (put ones i 100)); [apply same_refl|].
    intros k K. now rewrite !put_ne by exact K.
  Qed.
  Lemma complete3 : forall i j k, (i < j < k)%nat -> (k < n)%nat -> sphere_invariant V i j k -> In (i, j, k) (flat_3D n V).
  Proof using.
    intros i j k H K R. apply in_3D. split; [lia|]. split; [exact K|].
    assert (E : forall x y z x' y' z', x ^ 2 + y ^ 2 + z ^ 2 = x' ^ 2 + y' ^ 2 + z' ^ 2 -> at3 V i j k x y z = at3 V i j k x' y' z').
    { intros. unfold at3. apply R.
      - intros m A B C. rewrite !put_ne by assumption. reflexivity.
      - rewrite !put_eq. rewrite !(put_ne _ k _ i), !(put_ne _ k _ j), !(put_ne _ j _ i) by lia. rewrite !put_eq. assumption. }
    unfold test3.
    rewrite (E 2 200 100 2 100 200), (E 100 2 200 2 100 200), (E 100 200 2 2 100 200), (E 200 2 100 2 100 200), (E 200 100 2 2 100 200) by ring.
    rewrite same_refl. reflexivity.
  Qed.
End Flat.

(** rotations compose *)
Lemma rot_sym : forall V i j, rotation_invariant V i j -> rotation_invariant V j i.
Proof. intros V i j H p q A B. apply H; [intros; apply A; assumption|lra]. Qed.
Lemma rot_trans : forall V i j k, i <> j -> j <> k -> i <> k -> rotation_invariant V i j -> rotation_invariant V j k -> rotation_invariant V i k.
Proof.
  intros V i j k IJ JK IK RIJ RJK.
  assert (C : forall p, V p = V (put (put (put p j 0) k 0) i (sqrt (p i ^ 2 + p j ^ 2 + p k ^ 2)))).
  { intros p. pose proof (pow2_ge_0 (p i)). pose proof (pow2_ge_0 (p j)). pose proof (pow2_ge_0 (p k)).
    set (s := sqrt (p i ^ 2 + p j ^ 2)). assert (S : s ^ 2 = p i ^ 2 + p j ^ 2) by (unfold s; rewrite pow2_sqrt; lra).
    set (t := sqrt (p i ^ 2 + p j ^ 2 + p k ^ 2)). assert (T : t ^ 2 = p i ^ 2 + p j ^ 2 + p k ^ 2) by (unfold t; rewrite pow2_sqrt; lra).
    rewrite (RIJ p (put (put p i s) j 0)).
    2: intros m A B; pc.
    2: pc; rewrite S; ring.
    rewrite (RJK (put (put p i s) j 0) (put (put (put p i s) j (p k)) k 0)).
    2: intros m A B; pc.
    2: pc; ring.
    apply RIJ.
    - intros m A B. pc.
    - pc. rewrite S, T. ring. }
  intros p q A B. rewrite (C p), (C q).
  assert (E : put (put (put p j 0) k 0) i (sqrt (p i ^ 2 + p j ^ 2 + p k ^ 2)) = put (put (put q j 0) k 0) i (sqrt (q i ^ 2 + q j ^ 2 + q k ^ 2))).
  { apply functional_extensionality; intros m. unfold put. destruct (Nat.eqb_spec m i).
    - f_equal. rewrite (A j) by auto. lra.
    - destruct (Nat.eqb_spec m k); [reflexivity|]. destruct (Nat.eqb_spec m j); [reflexivity|]. apply A; assumption. }
  rewrite E. reflexivity.
Qed.

(** * Conversion *)
Lemma turn_i : forall p i j, i <> j -> turn p (i, j) i = sqrt (p i * p i + p j * p j).
Proof. intros p i j H; unfold turn. rewrite put_ne by exact H. apply put_eq. Qed.
Lemma turn_j : forall p i j, turn p (i, j) j = 0.
Proof. intros; unfold turn. apply put_eq. Qed.
Lemma turn_k : forall p i j k, k <> i -> k <> j -> turn p (i, j) k = p k.
Proof. intros; unfold turn. rewrite !put_ne by assumption. reflexivity. Qed.
Fixpoint squares (js : list nat) (p : point) : R := match js with [] => 0 | j :: js => p j ^ 2 + squares js p end.
Lemma squares_ext : forall js p q, (forall j, In j js -> p j = q j) -> squares js p = squares js q.
Proof. induction js as [|a js IH]; intros p q H; cbn; [reflexivity|]. rewrite (H a) by now left. rewrite (IH p q); [reflexivity|intros; apply H; now right]. Qed.
Lemma squares_nonneg : forall js p, 0 <= squares js p.
Proof. induction js as [|a js IH]; intros p; cbn [squares]; [lra|]. pose proof (IH p). pose proof (pow2_ge_0 (p a)). lra. Qed.
Lemma fan : forall i js p, NoDup js -> ~ In i js -> let q := fold_left turn (map (fun j => (i, j)) js) p in
  (js <> [] -> q i = sqrt (p i ^ 2 + squares js p)) /\ (forall j, In j js -> q j = 0) /\ (forall k, (k <> i \/ js = []) -> ~ In k js -> q k = p k).
Proof.
  intros i. induction js as [|j js IH]; intros p N I; cbn [map fold_left].
  - split; [congruence|]. split; [intros j []|reflexivity].
  - inversion N as [|? ? NJ N']; subst. assert (IJ : i <> j) by (intros ->; apply I; now left). assert (I' : ~ In i js) by (intros H; apply I; now right).
    destruct (IH (turn p (i, j)) N' I') as (A & B & C). cbn zeta in *. set (q := fold_left turn (map (fun j => (i, j)) js) (turn p (i, j))) in *.
    split; [|split].
    + intros _. assert (SQ : squares js (turn p (i, j)) = squares js p).
      { apply squares_ext. intros m M. apply turn_k; intros ->; contradiction. }
      destruct js as [|a js'] eqn:EJ.
      * rewrite C by (auto; right; reflexivity). rewrite turn_i by exact IJ. f_equal. cbn [squares]. ring.
      * rewrite A by discriminate. rewrite SQ, turn_i by exact IJ. rewrite pow2_sqrt; [|pose proof (pow2_ge_0 (p i)); pose proof (pow2_ge_0 (p j)); lra].
        f_equal. cbn [squares]. ring.
    + intros m [<-|M]; [|apply B, M]. rewrite C by (auto; left; auto). apply turn_j.
    + intros k [K|K]; [|discriminate]. intros NK. rewrite C by (auto; intros M; apply NK; now right). apply turn_k; [exact K|]. intros ->; apply NK; now left.
Qed.
Section Outer.
  Variables (n : nat) (test : nat -> nat -> bool).
  Let partners i := filter (test i) (seq (S i) (n - S i)).
  Let rel i j := (i < j < n)%nat /\ test i j = true.
  Hypothesis T1 : forall a i j, rel a i -> rel i j -> rel a j.
  Hypothesis T2 : forall a i j, (a < i)%nat -> rel a j -> rel i j -> rel a i.
  Lemma in_partners : forall i j, In j (partners i) <-> rel i j.
  Proof using. intros i j. unfold partners, rel. rewrite filter_In, in_seq. split; intros [A B]; (split; [lia|exact B]). Qed.
  Lemma partners_nodup : forall i, NoDup (partners i) /\ ~ In i (partners i).
  Proof using. intros i. split; [apply NoDup_filter, seq_NoDup|]. rewrite in_partners. unfold rel. lia. Qed.
  Let pairs m := flat_map (fun i => map (fun j => (i, j)) (partners i)) (seq 0 m).
  Lemma pairs_S : forall m, pairs (S m) = pairs m ++ map (fun j => (m, j)) (partners m).
  Proof using. intros m. unfold pairs. rewrite seq_S, flat_map_app. cbn [flat_map Nat.add]. rewrite app_nil_r. reflexivity. Qed.
  Lemma outer : forall m p, (m <= n)%nat -> let q := fold_left turn (pairs m) p in
    (forall k, (exists a, (a < m)%nat /\ rel a k) -> q k = 0) /\
    (forall k, (forall a, (a < m)%nat -> ~ rel a k) ->
       q k = if Nat.ltb k m then match partners k with [] => p k | _ => sqrt (p k ^ 2 + squares (partners k) p) end else p k).
  Proof using T1 T2.
    induction m as [|m IH]; intros p M.
    - cbn. split; [intros k (a & A & _); lia|]. reflexivity.
    - rewrite pairs_S, fold_left_app. destruct (IH p ltac:(lia)) as [Z F]. cbn zeta in *. set (s := fold_left turn (pairs m) p) in *.
      destruct (partners_nodup m) as [N I]. destruct (fan m (partners m) s N I) as (A & B & C). cbn zeta in *. set (q := fold_left turn _ s) in *.
      assert (NR : (forall k, (k < n)%nat -> (exists a, (a < m)%nat /\ rel a k) \/ (forall a, (a < m)%nat -> ~ rel a k))).
      { intros k _. clear. induction m as [|m IH]; [right; lia|]. destruct IH as [(a & A & R)|H]; [left; exists a; split; [lia|exact R]|].
        assert (D : rel m k \/ ~ rel m k).
        { unfold rel. destruct (test m k); [|right; intros [_ E]; discriminate]. destruct (lt_dec m k); [|right; lia]. destruct (lt_dec k n); [left; split; [lia|reflexivity]|right; lia]. }
        destruct D as [D|D]; [left; exists m; split; [lia|exact D]|]. right. intros a L. destruct (Nat.eq_dec a m) as [->|]; [exact D|apply H; lia]. }
      assert (QM : (exists a, (a < m)%nat /\ rel a m) -> q m = 0 /\ forall j, rel m j -> s j = 0).
      { intros (a & AM & RA).
        assert (ZJ : forall j, rel m j -> s j = 0) by (intros j RJ; apply Z; exists a; split; [exact AM|apply (T1 a m j RA RJ)]).
        assert (SM : s m = 0) by (apply Z; exists a; split; assumption). split; [|exact ZJ].
        destruct (partners m) as [|j js] eqn:E; [rewrite C; [exact SM|right; reflexivity|intros []]|].
        rewrite A by discriminate. rewrite SM. rewrite (squares_ext (j :: js) s (fun _ => 0)).
        - assert (X : forall l, squares l (fun _ => 0) = 0) by (induction l as [|b l IL]; cbn [squares]; [reflexivity|rewrite IL; ring]).
          rewrite X. replace (0 ^ 2 + 0) with 0 by ring. apply sqrt_0.
        - intros b HB. apply ZJ. apply in_partners. rewrite E. exact HB. }
      split.
      + intros k (a & AM & RA). destruct (Nat.eq_dec a m) as [->|NE]; [apply B, in_partners, RA|].
        destruct (Nat.eq_dec k m) as [->|KM].
        { apply QM. exists a; split; [lia|exact RA]. }
        destruct (in_dec Nat.eq_dec k (partners m)) as [IN|NIN]; [apply B, IN|].
        rewrite C by auto. apply Z. exists a; split; [lia|exact RA].
      + intros k NK.
        assert (NIN : ~ In k (partners m)) by (rewrite in_partners; apply NK; lia).
        assert (SK : s k = if Nat.ltb k m then match partners k with [] => p k | _ => sqrt (p k ^ 2 + squares (partners k) p) end else p k) by (apply F; intros a L; apply NK; lia).
        destruct (Nat.eq_dec k m) as [->|KM].
        * rewrite (proj2 (Nat.ltb_lt m (S m))) by lia. rewrite Nat.ltb_irrefl in SK.
          destruct (partners m) as [|j js] eqn:E; [rewrite C; [exact SK|right; reflexivity|exact NIN]|].
          rewrite A by discriminate. rewrite SK. f_equal. f_equal. apply squares_ext. intros b HB.
          assert (RB : rel m b) by (apply in_partners; rewrite E; exact HB).
          rewrite F; [|intros a L RA; apply (NK a ltac:(lia)); apply (T2 a m b L RA RB)].
          destruct (Nat.ltb_spec b m); [|reflexivity]. exfalso. unfold rel in RB. lia.
        * rewrite C by auto. rewrite SK. destruct (Nat.ltb_spec k m), (Nat.ltb_spec k (S m)); try lia; reflexivity.
  Qed.
End Outer.
Lemma nodup_app : forall A (l1 l2 : list A), NoDup l1 -> NoDup l2 -> (forall x, In x l1 -> ~ In x l2) -> NoDup (l1 ++ l2).
Proof.
  intros A. induction l1 as [|a l1 IH]; intros l2 N1 N2 D; [exact N2|]. inversion N1 as [|? ? NI N']; subst. cbn. constructor.
  - rewrite in_app_iff. intros [H|H]; [contradiction|]. apply (D a); [now left|exact H].
  - apply IH; [exact N'|exact N2|]. intros x X. apply D; now right.
Qed.
Lemma pairs_nodup : forall n test m, NoDup (flat_map (fun i => map (fun j => (i, j)) (filter (test i) (seq (S i) (n - S i)))) (seq 0 m)).
Proof.
  intros n test. induction m as [|m IH]; [constructor|]. rewrite seq_S, flat_map_app. cbn [flat_map Nat.add]. rewrite app_nil_r.
  apply nodup_app; [exact IH| |].
  - apply FinFun.Injective_map_NoDup; [intros a b E; congruence|]. apply NoDup_filter, seq_NoDup.
  - intros [a b] A B. rewrite in_flat_map in A. destruct A as (x & X & A). rewrite in_map_iff in A, B. destruct A as (y & E & _). destruct B as (z & F & _).
    rewrite in_seq in X. injection E as E1 E2. injection F as F1 F2. lia.
Qed.
Lemma convert_fold : forall n V p, convert n V p = fold_left turn (flat_map (fun i => map (fun j => (i, j)) (filter (test2 V i) (seq (S i) (n - S i)))) (seq 0 n)) p.
Proof.
  intros n V p. unfold convert. assert (E : flat_2D n V = flat_map (fun i => map (fun j => (i, j)) (filter (test2 V i) (seq (S i) (n - S i)))) (seq 0 n)).
  { unfold flat_2D. apply unique_id; [apply pair_eqb|]. apply pairs_nodup. }
  unfold flat_dirs_found. rewrite <- E. destruct (flat_3D n V); [|reflexivity]. destruct (flat_2D n V); [|reflexivity]. destruct (flat_1D n V); reflexivity.
Qed.
Lemma squares_app : forall a b p, squares (a ++ b) p = squares a p + squares b p.
Proof. induction a as [|x a IH]; intros b p; cbn [app squares]; [ring|]. rewrite IH; ring. Qed.
Lemma squares_pull : forall js j, In j js -> NoDup js -> exists l, NoDup l /\ ~ In j l /\ (forall k, In k js <-> k = j \/ In k l) /\ forall p, squares js p = p j ^ 2 + squares l p.
Proof.
  intros js j I N. apply in_split in I. destruct I as (l1 & l2 & ->). exists (l1 ++ l2).
  split; [apply NoDup_remove_1 in N; exact N|]. split; [apply NoDup_remove_2 in N; exact N|]. split.
  - intros k. rewrite !in_app_iff. cbn [In]. intuition congruence.
  - intros p. rewrite !squares_app. cbn [squares]. ring.
Qed.

Section Canonical.
  Variables (n : nat) (V : point -> R).
  Hypothesis H : forall i j, In (i, j) (flat_2D n V) -> rotation_invariant V i j.
  Let rel i j := (i < j < n)%nat /\ test2 V i j = true.
  Lemma rel_rot : forall i j, rel i j <-> (i < j < n)%nat /\ rotation_invariant V i j.
  Proof using H.
    intros i j. unfold rel. rewrite <- in_2D. split.
    - intros I. split; [apply in_2D in I; tauto|apply H, I].
    - intros [A B]. apply complete2; assumption.
  Qed.
  Let partners k := filter (test2 V k) (seq (S k) (n - S k)).
  Lemma canonical : forall p k,
    ((exists a, rel a k) -> convert n V p k = 0) /\
    ((forall a, ~ rel a k) -> convert n V p k = match partners k with [] => p k | _ => sqrt (p k ^ 2 + squares (partners k) p) end).
  Proof using H.
    intros p k. rewrite convert_fold.
    assert (T1 : forall a i j, rel a i -> rel i j -> rel a j).
    { intros a i j A B. apply rel_rot in A, B. apply rel_rot. destruct A as [A RA], B as [B RB]. split; [lia|]. apply (rot_trans V a i j); try lia; assumption. }
    assert (T2 : forall a i j, (a < i)%nat -> rel a j -> rel i j -> rel a i).
    { intros a i j L A B. apply rel_rot in A, B. apply rel_rot. destruct A as [A RA], B as [B RB]. split; [lia|]. apply (rot_trans V a j i); try lia; [exact RA|apply rot_sym, RB]. }
    destruct (outer n (test2 V) T1 T2 n p (le_n n)) as [A B]. cbn zeta in *. split.
    - intros (a & RA). apply A. exists a. split; [unfold rel in RA; lia|exact RA].
    - intros NR. rewrite B by (intros a _; apply NR). destruct (Nat.ltb_spec k n) as [L|L]; [reflexivity|].
      unfold partners. replace (n - S k)%nat with 0%nat by lia. reflexivity.
  Qed.
  Lemma convert_V : forall p, V (convert n V p) = V p.
  Proof using H.
    intros p. unfold convert. destruct (flat_dirs_found n V); [|reflexivity].
    assert (G : forall l q, (forall d, In d l -> In d (flat_2D n V)) -> V (fold_left turn l q) = V q).
    { induction l as [|[i j] l IH]; intros q D; [reflexivity|]. cbn [fold_left]. rewrite IH by (intros; apply D; now right).
      assert (I : In (i, j) (flat_2D n V)) by (apply D; now left). pose proof (H i j I) as R. apply in_2D in I. symmetry. apply R.
      - intros k A B. symmetry; apply turn_k; assumption.
      - rewrite turn_i, turn_j by lia. rewrite pow2_sqrt; [ring|]. pose proof (Rle_0_sqr (q i)) as P; pose proof (Rle_0_sqr (q j)) as Q; unfold Rsqr in P, Q; lra. }
    apply G. auto.
  Qed.
  Lemma partners_in : forall k j, In j (partners k) <-> rel k j.
  Proof using. intros k j. apply (in_partners n (test2 V)). Qed.
  Lemma dec_rep : forall k, (exists a, rel a k) \/ (forall a, ~ rel a k).
  Proof using.
    intros k. assert (G : forall m, (exists a, (a < m)%nat /\ rel a k) \/ (forall a, (a < m)%nat -> ~ rel a k)).
    { induction m as [|m IH]; [right; lia|]. destruct IH as [(a & A & R)|IH]; [left; exists a; split; [lia|exact R]|].
      destruct (in_dec Nat.eq_dec k (partners m)) as [I|I]; rewrite partners_in in I; [left; exists m; split; [lia|exact I]|].
      right. intros a L. destruct (Nat.eq_dec a m) as [->|]; [exact I|apply IH; lia]. }
    destruct (G n) as [(a & _ & R)|N]; [left; exists a; exact R|]. right. intros a R. apply (N a); [unfold rel in R; lia|exact R].
  Qed.
  Lemma convert_same : forall i j, (i < j < n)%nat -> rotation_invariant V i j -> forall p q,
    (forall k, k <> i -> k <> j -> p k = q k) -> p i ^ 2 + p j ^ 2 = q i ^ 2 + q j ^ 2 -> forall k, convert n V p k = convert n V q k.
  Proof using H.
    intros i j IJ R p q A B k. destruct (canonical p k) as [P1 P2]. destruct (canonical q k) as [Q1 Q2].
    destruct (dec_rep k) as [E|E]; [rewrite P1, Q1 by exact E; reflexivity|]. rewrite P2, Q2 by exact E.
    assert (RIJ : rel i j) by (apply rel_rot; split; assumption).
    assert (KJ : k <> j) by (intros ->; apply (E i RIJ)).
    assert (ND : NoDup (partners k)) by (apply NoDup_filter, seq_NoDup).
    assert (IP : In i (partners k) <-> In j (partners k) /\ k <> i).
    { rewrite !partners_in. split.
      - intros RK. split; [|unfold rel in RK; lia]. apply rel_rot in RK. apply rel_rot. destruct RK as [L RK]. split; [lia|]. apply (rot_trans V k i j); try lia; assumption.
      - intros [RK NE]. apply rel_rot in RK. destruct RK as [L RK]. destruct (lt_dec k i) as [KI|KI].
        + apply rel_rot. split; [lia|]. apply (rot_trans V k j i); try lia; [exact RK|apply rot_sym, R].
        + exfalso. apply (E i). apply rel_rot. split; [lia|]. apply (rot_trans V i j k); try lia; [exact R|apply rot_sym, RK]. }
    destruct (Nat.eq_dec k i) as [->|KI].
    - assert (IJP : In j (partners i)) by (apply partners_in; exact RIJ).
      destruct (squares_pull _ _ IJP ND) as (l & _ & NJ & M & S).
      destruct (partners i) as [|x xs] eqn:EP; [destruct IJP|]. rewrite !S. f_equal.
      assert (SL : squares l p = squares l q).
      { apply squares_ext. intros m HM. apply A; [|intros ->; contradiction]. intros ->.
        assert (In i (x :: xs)) as II by (apply M; right; exact HM). rewrite <- EP in II. apply partners_in in II. unfold rel in II. lia. }
      rewrite SL. lra.
    - assert (PK : p k = q k) by (apply A; assumption). rewrite PK.
      assert (SL : squares (partners k) p = squares (partners k) q).
      { destruct (in_dec Nat.eq_dec i (partners k)) as [II|NI].
        - destruct (squares_pull _ _ II ND) as (l & NL & NIl & M & S). assert (IJ' : In j l).
          { destruct IP as [IP _]. destruct (IP II) as [JP _]. apply M in JP. destruct JP as [->|JP]; [lia|exact JP]. }
          destruct (squares_pull _ _ IJ' NL) as (l' & _ & NJ & M' & S'). rewrite !S, !S'.
          rewrite (squares_ext l' p q); [lra|]. intros m HM. apply A; [intros ->; apply NIl, M'; right; exact HM|intros ->; contradiction].
        - apply squares_ext. intros m HM. apply A; intros ->; [contradiction|]. apply NI, IP. split; assumption. }
      rewrite SL. reflexivity.
  Qed.
  Lemma convert_facts : forall p,
    (forall i j, (i < j < n)%nat -> rotation_invariant V i j -> convert n V p j = 0) /\
    (forall i j, (i < j < n)%nat -> rotation_invariant V i j -> 0 <= convert n V p i) /\
    (forall k, (forall i j, (i < j < n)%nat -> rotation_invariant V i j -> k <> i /\ k <> j) -> convert n V p k = p k) /\
    (forall k, convert n V (convert n V p) k = convert n V p k).
  Proof using H.
    intros p. split; [|split; [|split]].
    - intros i j L R. apply canonical. exists i. apply rel_rot; split; assumption.
    - intros i j L R. destruct (canonical p i) as [A B]. destruct (dec_rep i) as [E|E]; [rewrite A by exact E; lra|]. rewrite B by exact E.
      assert (J : In j (partners i)) by (apply partners_in, rel_rot; split; assumption). destruct (partners i); [destruct J|]. apply sqrt_pos.
    - intros k K. destruct (canonical p k) as [_ B]. rewrite B.
      + destruct (partners k) as [|j js] eqn:E; [reflexivity|]. exfalso. assert (R : rel k j) by (apply partners_in; rewrite E; now left). apply rel_rot in R. destruct R as [L R]. destruct (K k j L R); contradiction.
      + intros a R. apply rel_rot in R. destruct R as [L R]. destruct (K a k L R); contradiction.
    - intros k. set (q := convert n V p). destruct (canonical q k) as [A B]. destruct (dec_rep k) as [E|E].
      + rewrite A by exact E. unfold q. symmetry. apply canonical, E.
      + rewrite B by exact E. destruct (partners k) as [|j js] eqn:EP; [reflexivity|].
        rewrite (squares_ext (j :: js) q (fun _ => 0)).
        * assert (X : forall l, squares l (fun _ => 0) = 0) by (induction l as [|b l IL]; cbn [squares]; [reflexivity|rewrite IL; ring]).
          rewrite X, Rplus_0_r. apply sqrt_pow2. unfold q. destruct (canonical p k) as [_ B']. rewrite B' by exact E. rewrite EP. apply sqrt_pos.
        * intros m M. unfold q. apply canonical. exists k. apply partners_in. rewrite EP. exact M.
  Qed.
End Canonical.
Lemma convert_length : forall n V p, sum_below n (fun k => convert n V p k ^ 2) = sum_below n (fun k => p k ^ 2).
Proof.
  intros n V p. unfold convert. destruct (flat_dirs_found n V); [|reflexivity].
  assert (ST : forall i j, (i < j < n)%nat -> forall q, sum_below n (fun k => turn q (i, j) k ^ 2) = sum_below n (fun k => q k ^ 2)).
  { intros i j L q.
    assert (G : forall m, sum_below m (fun k => turn q (i, j) k ^ 2) =
      sum_below m (fun k => q k ^ 2) + (if Nat.ltb i m then q j ^ 2 else 0) - (if Nat.ltb j m then q j ^ 2 else 0)).
    { induction m as [|m IH]; cbn [sum_below]; [cbn; ring|]. rewrite IH.
      destruct (Nat.eq_dec m i) as [->|MI]; [|destruct (Nat.eq_dec m j) as [->|MJ]].
      - rewrite turn_i by lia. rewrite pow2_sqrt by (pose proof (Rle_0_sqr (q i)) as P; pose proof (Rle_0_sqr (q j)) as Q; unfold Rsqr in P, Q; lra).
        destruct (Nat.ltb_spec i i), (Nat.ltb_spec j i), (Nat.ltb_spec i (S i)), (Nat.ltb_spec j (S i)); try lia; ring.
      - rewrite turn_j. destruct (Nat.ltb_spec i j), (Nat.ltb_spec j j), (Nat.ltb_spec i (S j)), (Nat.ltb_spec j (S j)); try lia; ring.
      - rewrite turn_k by assumption. destruct (Nat.ltb_spec i m), (Nat.ltb_spec j m), (Nat.ltb_spec i (S m)), (Nat.ltb_spec j (S m)); try lia; ring. }
    rewrite G. destruct (Nat.ltb_spec i n), (Nat.ltb_spec j n); try lia; ring. }
  assert (G : forall l q, (forall d, In d l -> In d (flat_2D n V)) -> sum_below n (fun k => fold_left turn l q k ^ 2) = sum_below n (fun k => q k ^ 2)).
  { induction l as [|[i j] l IH]; intros q D; [reflexivity|]. cbn [fold_left]. rewrite IH by (intros; apply D; now right). apply ST.
    assert (I : In (i, j) (flat_2D n V)) by (apply D; now left). apply in_2D in I. tauto. }
  apply G. auto.
Qed.

(** * Witnesses *)
(** exchange is not rotation *)
Definition quartic : point -> R := fun p => p 0%nat ^ 4 + p 1%nat ^ 4.
Lemma quartic_flat : In (0%nat, 1%nat) (flat_2D 2 quartic) /\ quartic (convert 2 quartic (fun _ => 1)) <> quartic (fun _ => 1).
Proof.
  assert (T : test2 quartic 0 1 = true).
  { unfold test2. replace (at2 quartic 0 1 100 2) with (at2 quartic 0 1 2 100); [apply same_refl|]. unfold at2, quartic; cbn; ring. }
  split; [apply in_2D; split; [lia|exact T]|].
  rewrite convert_fold. cbn [seq flat_map Nat.sub filter app]. rewrite T. cbn [map fold_left app].
  unfold quartic. rewrite turn_i, turn_j by lia.
  assert (E : sqrt (1 * 1 + 1 * 1) ^ 4 = 4).
  { replace (sqrt (1 * 1 + 1 * 1) ^ 4) with ((sqrt (1 * 1 + 1 * 1) * sqrt (1 * 1 + 1 * 1)) * (sqrt (1 * 1 + 1 * 1) * sqrt (1 * 1 + 1 * 1))) by ring. rewrite sqrt_sqrt by lra. lra. }
  rewrite E. lra.
Qed.
Lemma same_far : forall a b, 1 <= a -> 2 * a <= b -> same a b = false /\ same b a = false.
Proof.
  intros a b A B. assert (0 < / 10 ^ 10 < 1 / 2) by (split; [apply Rinv_0_lt_compat, pow_lt; lra|]; replace (10 ^ 10) with 10000000000 by ring; lra).
  assert (0 < / 10 ^ 8 < 1 / 10) by (split; [apply Rinv_0_lt_compat, pow_lt; lra|]; replace (10 ^ 8) with 100000000 by ring; lra).
  assert (M : (a + b) / 2 * / 10 ^ 8 <= (a + b) / 2 * (1 / 10)) by (apply Rmult_le_compat_l; lra).
  unfold same. rewrite (Rabs_right a), (Rabs_right b) by lra. destruct (Rlt_dec a (/ 10 ^ 10)); [lra|]. destruct (Rlt_dec b (/ 10 ^ 10)); [lra|]. cbn [andb].
  rewrite (Rabs_left1 (a - b)), (Rabs_right (b - a)), (Rabs_right (a + b)), (Rabs_right (b + a)) by lra.
  split; [destruct (Rlt_dec _ _); [lra|reflexivity]|]. rewrite (Rplus_comm b a). destruct (Rlt_dec _ _); [lra|reflexivity].
Qed.
(** a potential that does not depend on field 0 *)
Definition well : point -> R := fun p => p 1%nat ^ 2.
Lemma well_flat : In 0%nat (flat_1D 2 well) /\ independent well 0 /\ convert 2 well (fun _ => 5) 0%nat <> convert 2 well (put (fun _ => 5) 0 7) 0%nat.
Proof.
  assert (I : independent well 0) by (intros p q H; unfold well; rewrite H by lia; reflexivity).
  split; [apply complete1; [lia|exact I]|]. split; [exact I|].
  assert (T : test2 well 0 1 = false).
  { unfold test2, at2, well. rewrite !put_eq. apply same_far; lra. }
  rewrite !convert_fold. cbn [seq flat_map Nat.sub filter app]. rewrite T. cbn. lra.
Qed.
Lemma triple_twice : In (0%nat, 1%nat, 1%nat) (flat_3D 2 (fun _ => 0)).
Proof. apply in_3D. split; [lia|]. split; [lia|]. unfold test3, at3. rewrite same_refl. reflexivity. Qed.
(** the example for the hypotheses: rotations of fields 0 and 2 of three *)
Definition ring3 : point -> R := fun p => p 0%nat ^ 2 + p 2%nat ^ 2 + 3 * p 1%nat ^ 4.
Lemma ring3_ok : forall i j, In (i, j) (flat_2D 3 ring3) -> rotation_invariant ring3 i j.
Proof.
  intros i j I. apply in_2D in I. destruct I as [L T].
  assert (C : ((i = 0 /\ j = 1) \/ (i = 0 /\ j = 2) \/ (i = 1 /\ j = 2))%nat) by lia.
  destruct C as [[-> ->]|[[-> ->]|[-> ->]]].
  - exfalso. unfold test2, at2, ring3 in T. cbn [put Nat.eqb] in T. unfold put in T; cbn [Nat.eqb] in T.
    destruct (same_far (100 ^ 2 + ones 2%nat ^ 2 + 3 * 2 ^ 4) (2 ^ 2 + ones 2%nat ^ 2 + 3 * 100 ^ 4)) as [_ F]; unfold ones in *; try lra. rewrite F in T. discriminate.
  - intros p q A B. unfold ring3. rewrite (A 1%nat) by lia. lra.
  - exfalso. unfold test2, at2, ring3 in T. unfold put in T; cbn [Nat.eqb] in T.
    destruct (same_far (ones 0%nat ^ 2 + 100 ^ 2 + 3 * 2 ^ 4) (ones 0%nat ^ 2 + 2 ^ 2 + 3 * 100 ^ 4)) as [F _]; unfold ones in *; try lra. rewrite F in T. discriminate.
Qed.
Lemma same_close : forall a b, same a b = true <-> close a b.
Proof.
  intros a b. unfold same, close. destruct (Rlt_dec (Rabs a) (/ 10 ^ 10)); destruct (Rlt_dec (Rabs b) (/ 10 ^ 10)); cbn [andb];
  destruct (Rlt_dec (Rabs (a - b)) (Rabs (a + b) / 2 * / 10 ^ 8)); split; intros; try reflexivity; try discriminate; tauto.
Qed.
Lemma found : forall n V,
  (forall i, In i (flat_1D n V) <-> (i < n)%nat /\ close (V (point1 i 2)) (V (point1 i 100))) /\
  (forall i j, In (i, j) (flat_2D n V) <-> (i < j < n)%nat /\ close (V (point2 i j 2 100)) (V (point2 i j 100 2))) /\
  (forall i j k, In (i, j, k) (flat_3D n V) <-> (i < j <= k)%nat /\ (k < n)%nat /\
     close (V (point3 i j k 2 100 200)) (V (point3 i j k 2 200 100)) /\ close (V (point3 i j k 100 2 200)) (V (point3 i j k 2 200 100)) /\
     close (V (point3 i j k 100 2 200)) (V (point3 i j k 100 200 2)) /\ close (V (point3 i j k 200 2 100)) (V (point3 i j k 100 200 2)) /\
     close (V (point3 i j k 200 2 100)) (V (point3 i j k 200 100 2))).
Proof.
  intros n V. split; [|split].
  - intros i. rewrite in_1D. unfold test1. rewrite same_close. reflexivity.
  - intros i j. rewrite in_2D. unfold test2. rewrite same_close. reflexivity.
  - intros i j k. rewrite in_3D. unfold test3. rewrite !andb_true_iff, !same_close. unfold at3.
    unfold point3, put, ones. tauto.
Qed.
