(** Proofs about the table of the potential. *)
From Coq Require Import Reals List ZArith Ascii Lia Lra Arith.
From Verif Require Import Model.StartPath Model.PotPlotter Spec.StartPathSpec Spec.PotPlotterSpec Proofs.StartPathProofs.
Import ListNotations.
Local Open Scope R_scope.

(** * Lists *)
Lemma set_at_nth : forall k a, (k < length a)%nat -> set_at k (nth k a 0) a = a.
Proof.
  unfold set_at. induction k as [|k IH]; intros [|x a] H; cbn in H; try lia; [reflexivity|]. cbn [firstn nth skipn app].
  f_equal. apply IH. lia.
Qed.
Lemma firstn_set_at : forall k x a, (k < length a)%nat -> firstn (S k) (set_at k x a) = firstn k a ++ [x].
Proof.
  unfold set_at. induction k as [|k IH]; intros x [|y a] H; cbn in H; try lia; [reflexivity|].
  cbn [firstn app]. rewrite <- IH by lia. reflexivity.
Qed.
Lemma grid1_values : forall a k lo hi n, (0 <= n)%Z -> (k < length a)%nat ->
  Grid1 a k lo hi n = Some (map (fun x => set_at k x a) (values lo hi (nth k a 0) (Z.to_nat n))).
Proof.
  intros a k lo hi n N K. unfold Grid1, values. destruct (Z.eqb_spec n 0).
  - subst n. cbn. rewrite set_at_nth by exact K. reflexivity.
  - destruct (Z.ltb_spec n 0); [lia|]. destruct (Nat.ltb_spec k (length a)); [|lia].
    destruct (Z.to_nat n) as [|m] eqn:E; [lia|]. rewrite map_map. f_equal. apply map_ext. intros j. f_equal.
    replace (IZR n) with (INR (S m)) by (rewrite <- E, INR_IZR_INZ, Z2Nat.id by lia; reflexivity).
    field. apply not_0_INR. lia.
Qed.
Lemma each_rows : forall (body : vec -> outcome) (f : vec -> list vec) l, (forall a, In a l -> body a = Rows (f a)) ->
  each l body = Rows (flat_map f l).
Proof.
  intros body f. induction l as [|a l IH]; intros H; [reflexivity|]. unfold each in *. cbn [fold_right flat_map].
  rewrite (H a) by (left; reflexivity). rewrite IH by (intros; apply H; right; assumption). reflexivity.
Qed.
Lemma flat_map_map : forall {A B C} (f : A -> B) (g : B -> list C) l, flat_map g (map f l) = flat_map (fun x => g (f x)) l.
Proof. intros A B C f g l. induction l as [|x l IH]; [reflexivity|]. cbn. rewrite IH. reflexivity. Qed.
Lemma map_flat_map : forall {A B C} (f : B -> C) (g : A -> list B) l, map f (flat_map g l) = flat_map (fun x => map f (g x)) l.
Proof. intros A B C f g l. induction l as [|x l IH]; [reflexivity|]. cbn. rewrite map_app, IH. reflexivity. Qed.
Lemma flat_map_ext_in : forall {A B} (f g : A -> list B) l, (forall x, In x l -> f x = g x) -> flat_map f l = flat_map g l.
Proof.
  intros A B f g l. induction l as [|x l IH]; intros H; [reflexivity|]. cbn. rewrite H by (left; reflexivity).
  rewrite IH by (intros; apply H; right; assumption). reflexivity.
Qed.

(** * The nested loops *)
Section Levels.
  Variable V : vec -> R.
  Variable n : nat.
  Variable o : options.
  Hypothesis small : (n <= 6)%nat.
  Hypothesis steps : forall k, (0 <= nth k (npointsi o) 0)%Z.
  Notation ax r k := (values (IZR (nth k (low o) 0%Z)) (IZR (nth k (high o) 0%Z)) r (Z.to_nat (nth k (npointsi o) 0%Z))).

  Lemma values_ref : forall lo hi r r' m, (m = 0%nat -> r = r') -> values lo hi r m = values lo hi r' m.
  Proof. intros lo hi r r' [|m] H; [rewrite (H eq_refl)|]; reflexivity. Qed.

  Lemma level_first : forall fuel d s a, (fuel + d = 5)%nat -> (d < n)%nat -> length a = n ->
    (forall k, (d <= k)%nat -> nth k (npointsi o) 0%Z = 0%Z -> nth k a 0 = nth k s 0) ->
    level V n o fuel d 0 s a =
      Rows (map (fun t => row V o s (firstn d a ++ t)) (combinations (map (fun k => ax (nth k s 0) k) (seq d (n - d))))).
  Proof.
    induction fuel as [|fuel IH]; intros d s a F D L R.
    - cbn [level Nat.add]. rewrite grid1_values by (try apply steps; lia). destruct (Nat.eqb_spec n (S d)) as [E|E]; [|lia].
      rewrite (values_ref _ _ (nth d a 0) (nth d s 0)).
      2: { intros Z. apply R; [lia|]. specialize (steps d). lia. }
      replace (n - d)%nat with 1%nat by lia. cbn [seq map combinations]. f_equal. rewrite map_flat_map, map_map.
      cbn [map]. set (l := values _ _ _ _). clearbody l. clear R.
      induction l as [|x l IHl]; [reflexivity|]. cbn [map flat_map app]. f_equal; [|exact IHl]. f_equal.
      rewrite <- (firstn_all (set_at d x a)). rewrite set_at_length by lia. rewrite L, E. apply firstn_set_at. lia.
    - cbn [level Nat.add]. rewrite grid1_values by (try apply steps; lia).
      rewrite (values_ref _ _ (nth d a 0) (nth d s 0)).
      2: { intros Z. apply R; [lia|]. specialize (steps d). lia. }
      destruct (Nat.eqb_spec n (S d)) as [E|E].
      + replace (n - d)%nat with 1%nat by lia. cbn [seq map combinations]. f_equal. rewrite map_flat_map, map_map.
        cbn [map]. set (l := values _ _ _ _). clearbody l. clear R.
        induction l as [|x l IHl]; [reflexivity|]. cbn [map flat_map app]. f_equal; [|exact IHl]. f_equal.
        rewrite <- (firstn_all (set_at d x a)). rewrite set_at_length by lia. rewrite L, E. apply firstn_set_at. lia.
      + destruct (Nat.ltb_spec (S d) n); [|lia].
        rewrite (each_rows _ (fun b => map (fun t => row V o s (firstn (S d) b ++ t)) (combinations (map (fun k => ax (nth k s 0) k) (seq (S d) (n - S d)))))).
        * f_equal. rewrite flat_map_map. replace (n - d)%nat with (S (n - S d)) by lia. cbn [seq map combinations].
          rewrite map_flat_map. apply flat_map_ext_in. intros x _. rewrite map_map. apply map_ext. intros t.
          rewrite firstn_set_at by lia. rewrite <- app_assoc. reflexivity.
        * intros b B. apply in_map_iff in B. destruct B as [x [<- X]]. apply IH; [lia|lia|rewrite set_at_length; lia|].
          intros k K Z. rewrite set_at_other by lia. apply R; [lia|exact Z].
  Qed.

  Lemma level_other : forall fuel d i s a, (fuel + d = 5)%nat -> (0 < i)%nat -> (i + d < n)%nat -> length a = n ->
    level V n o fuel d i s a = Rows [].
  Proof.
    induction fuel as [|fuel IH]; intros d i s a F I D L; [lia|]. cbn [level]. rewrite grid1_values by (try apply steps; lia).
    destruct (Nat.eqb_spec n (S d)); [lia|]. destruct (Nat.ltb_spec (i + S d) n); [|reflexivity].
    rewrite (each_rows _ (fun _ => [])).
    - f_equal. set (l := map _ _). clearbody l. induction l; [reflexivity|exact IHl].
    - intros b B. apply in_map_iff in B. destruct B as [x [<- X]]. apply IH; [lia|lia|lia|rewrite set_at_length; lia].
  Qed.
End Levels.

Lemma reset_spec : forall o v k, (k + length v <= length (npointsi o))%nat ->
  exists r, reset o k v = Some r /\ length r = length v /\
    forall j, nth (k + j) (npointsi o) 0%Z = 0%Z -> nth j r 0 = nth j v 0.
Proof.
  intros o. induction v as [|x v IH]; intros k K; cbn [reset length] in *.
  - exists []. split; [reflexivity|]. split; [reflexivity|]. intros; reflexivity.
  - destruct (IH (S k)) as [r [Er [Lr Nr]]]; [lia|]. rewrite Er.
    destruct (nth_error (npointsi o) k) as [m|] eqn:E; [|apply nth_error_None in E; lia].
    eexists. split; [reflexivity|]. split; [cbn; lia|]. intros [|j] Z.
    + rewrite Nat.add_0_r in Z. cbn [nth]. destruct (Z.ltb_spec 0 m) as [M|M]; [|reflexivity].
      rewrite (nth_error_nth _ _ _ E) in Z. lia.
    + cbn [nth]. apply Nr. replace (S k + j)%nat with (k + S j)%nat by lia. exact Z.
Qed.
Lemma reset_throws : forall o v k, (k <= length (npointsi o) < k + length v)%nat -> reset o k v = None.
Proof.
  intros o. induction v as [|x v IH]; intros k K; cbn [length reset] in *; [lia|].
  destruct (nth_error (npointsi o) k) eqn:E; [|reflexivity].
  assert (k < length (npointsi o))%nat by (apply nth_error_Some; congruence). rewrite IH by lia. reflexivity.
Qed.

(** * The options *)
Lemma good_spec : forall o, good o = true ->
  model_set o = true /\ 0 <= Temperature o /\ (forall k, (0 <= nth k (npointsi o) 0)%Z) /\ (0 <= npoints o)%Z /\
  (use_slice_plotter o = true -> min_start o <> [] /\ min_end o <> []) /\
  (length (low o) = length (high o) -> forall k, (nth k (low o) 0 <= nth k (high o) 0)%Z) /\
  (length (npointsi o) = length (low o) -> length (low o) = length (high o) ->
   forall k, (0 < nth k (npointsi o) 0)%Z -> nth k (low o) 0%Z <> (-1)%Z /\ nth k (high o) 0%Z <> (-1)%Z).
Proof.
  intros o H. unfold good in H. destruct (model_set o); [|discriminate]. cbn [negb] in H.
  destruct (Rlt_dec (Temperature o) 0) as [|T]; [discriminate|].
  destruct (andb (use_slice_plotter o) _) eqn:S; [discriminate|].
  destruct (orb (existsb _ (npointsi o)) _) eqn:N; [discriminate|].
  destruct (existsb _ (combine (low o) _)) eqn:LH; [discriminate|].
  destruct (existsb _ (combine (npointsi o) _)) eqn:M; [discriminate|]. clear H.
  apply Bool.orb_false_iff in N. destruct N as [N1 N2].
  assert (X : forall (A : Type) (f : A -> bool) l, existsb f l = false -> forall x, In x l -> f x = false).
  { intros A f l E x I. destruct (f x) eqn:Fx; [|reflexivity].
    assert (existsb f l = true) by (apply existsb_exists; exists x; split; assumption). congruence. }
  split; [reflexivity|]. split; [apply Rnot_lt_le; exact T|]. split.
  { intros k. destruct (Nat.lt_ge_cases k (length (npointsi o))) as [K|K].
    - assert (Q := X _ _ _ N1 _ (nth_In _ 0%Z K)). cbv beta in Q. apply Z.ltb_ge in Q. exact Q.
    - rewrite nth_overflow by exact K. lia. }
  split; [apply Z.ltb_ge; exact N2|]. split.
  { intros U. rewrite U in S. cbn [andb] in S. apply Bool.orb_false_iff in S. destruct S as [S1 S2].
    split; intros E; [rewrite E in S1|rewrite E in S2]; discriminate. }
  split.
  { intros L k. destruct (Nat.lt_ge_cases k (length (low o))) as [K|K].
    - assert (I : In (nth k (low o) 0%Z, nth k (high o) 0%Z) (combine (low o) (high o))).
      { rewrite <- combine_nth by exact L. apply nth_In. rewrite combine_length. lia. }
      apply (X _ _ _ LH) in I. cbn [fst snd] in I. apply Z.ltb_ge in I. exact I.
    - rewrite !nth_overflow by lia. lia. }
  { intros L1 L2 k P. destruct (Nat.lt_ge_cases k (length (npointsi o))) as [K|K]; [|rewrite nth_overflow in P by exact K; lia].
    assert (I : In (nth k (npointsi o) 0%Z, (nth k (low o) 0%Z, nth k (high o) 0%Z)) (combine (npointsi o) (combine (low o) (high o)))).
    { rewrite <- combine_nth by exact L2. rewrite <- combine_nth by (rewrite combine_length; lia). apply nth_In. rewrite !combine_length. lia. }
    apply (X _ _ _ M) in I. cbn [fst snd] in I. destruct (Z.ltb_spec 0 (nth k (npointsi o) 0%Z)); [|lia]. cbn [andb] in I.
    apply Bool.orb_false_iff in I. destruct I as [I1 I2]. apply Z.eqb_neq in I1, I2. split; assumption. }
Qed.

(** * The table *)
Lemma fold_nothing : forall (f : nat -> outcome) l, (forall i, In i l -> f i = Rows []) -> fold_right (fun i => after (f i)) (Rows []) l = Rows [].
Proof.
  intros f. induction l as [|i l IH]; intros H; [reflexivity|]. cbn. rewrite H by (left; reflexivity).
  rewrite IH by (intros; apply H; right; assumption). reflexivity.
Qed.
Lemma grid_table : forall V n o s, (1 <= n <= 6)%nat -> length (npointsi o) = 6%nat -> good o = true -> vevStart n o = Some s -> length s = n ->
  grid_plot V n o = Rows (map (row V o s) (combinations (map (fun k => values (IZR (nth k (low o) 0%Z)) (IZR (nth k (high o) 0%Z)) (nth k s 0) (Z.to_nat (nth k (npointsi o) 0%Z))) (seq 0 n)))).
Proof.
  intros V n o s N L6 G S Ls. destruct (good_spec o G) as [_ [_ [St _]]]. unfold grid_plot. rewrite S.
  destruct (reset_spec o s 0) as [r [Er [Lr Nr]]]; [lia|]. rewrite Er.
  destruct n as [|n]; [lia|]. cbn [seq fold_right].
  rewrite (level_first V (Datatypes.S n) o) with (d := 0%nat); try lia; [|exact St|intros k _ Z; apply Nr; exact Z].
  rewrite fold_nothing.
  - cbn [after]. rewrite app_nil_r. cbn [firstn app]. rewrite Nat.sub_0_r. reflexivity.
  - intros i I. apply in_seq in I. apply level_other; try lia. exact St.
Qed.
Lemma start_length : forall n o s, vevStart n o = Some s -> length s = n.
Proof.
  intros n o s H. unfold vevStart in H. destruct (point o) as [|x p] eqn:E.
  - injection H as <-. apply repeat_length.
  - destruct (Nat.eqb_spec (length (x :: p)) n) as [L|]; [|discriminate]. injection H as <-. exact L.
Qed.
Lemma start_none : forall n o, vevStart n o = None <-> point o <> [] /\ length (point o) <> n.
Proof.
  intros n o. unfold vevStart. destruct (point o) as [|x p].
  - split; [discriminate|]. intros [H _]. contradiction.
  - destruct (Nat.eqb_spec (length (x :: p)) n); split; intros H; try discriminate; try reflexivity.
    + destruct H as [_ H]. contradiction.
    + split; [discriminate|assumption].
Qed.
Lemma too_many : forall V n o, length (npointsi o) = 6%nat -> (7 <= n)%nat -> (point o = [] \/ length (point o) = n) -> grid_plot V n o = OutOfRange.
Proof.
  intros V n o L N P. unfold grid_plot. destruct (vevStart n o) as [s|] eqn:E.
  - rewrite reset_throws; [reflexivity|]. rewrite (start_length _ _ _ E). lia.
  - apply start_none in E. destruct P; tauto.
Qed.

(** * Combinations *)
Lemma combinations_in : forall axes a, In a (combinations axes) <-> Forall2 (fun x l => In x l) a axes.
Proof.
  induction axes as [|l axes IH]; intros a; cbn [combinations].
  - split; [intros [<-|[]]; constructor|intros H; inversion H; left; reflexivity].
  - rewrite in_flat_map. split.
    + intros [x [X H]]. apply in_map_iff in H. destruct H as [t [<- T]]. constructor; [exact X|apply IH; exact T].
    + intros H. inversion H as [|x y t ? X T]; subst. exists x. split; [exact X|]. apply in_map. apply IH. exact T.
Qed.
Lemma F2_length : forall {A B} (P : A -> B -> Prop) l m, Forall2 P l m -> length l = length m.
Proof. intros A B P l m H. induction H; cbn; congruence. Qed.
Lemma combinations_length : forall axes, length (combinations axes) = fold_right (fun l c => (length l * c)%nat) 1%nat axes.
Proof.
  induction axes as [|l axes IH]; [reflexivity|]. cbn [combinations fold_right]. rewrite <- IH. generalize (combinations axes). intros r.
  induction l as [|x l IHl]; [reflexivity|]. cbn [flat_map length]. rewrite app_length, map_length, IHl. reflexivity.
Qed.
Lemma values_length : forall lo hi r n, length (values lo hi r n) = S n.
Proof. intros lo hi r [|n]; [reflexivity|]. cbn [values]. rewrite map_length, seq_length. reflexivity. Qed.
Lemma values_in : forall lo hi r n x, (0 < n)%nat -> lo <= hi -> In x (values lo hi r n) -> lo <= x <= hi.
Proof.
  intros lo hi r n x N H I. destruct n as [|n]; [lia|]. cbn [values] in I. apply in_map_iff in I. destruct I as [j [<- J]]. apply in_seq in J.
  assert (0 < INR (S n)) by (apply lt_0_INR; lia). assert (0 <= INR j) by apply pos_INR. assert (INR j <= INR (S n)) by (apply le_INR; lia).
  assert (0 <= INR j / INR (S n)) by (apply Rmult_le_pos; [lra|left; apply Rinv_0_lt_compat; lra]).
  assert (INR j / INR (S n) <= 1) by (apply Rmult_le_reg_r with (INR (S n)); [lra|]; field_simplify; lra).
  split; nra.
Qed.
Lemma values_ends : forall lo hi r n, (0 < n)%nat -> hd 0 (values lo hi r n) = lo /\ last (values lo hi r n) 0 = hi.
Proof.
  intros lo hi r n N. destruct n as [|n]; [lia|]. split.
  - cbn [values seq map hd]. unfold Rdiv. cbn [INR]. ring.
  - cbn [values]. rewrite seq_S, map_app. cbn [map]. rewrite last_last. replace (0 + S n)%nat with (S n) by lia. field. apply not_0_INR. lia.
Qed.

(** * The line *)
Lemma read_after : forall L lines c, (1 < c)%Z ->
  read_loop L c lines = if andb (Z.leb c L) (Z.ltb L (c + Z.of_nat (length lines))) then [InitModel (nth (Z.to_nat (L - c)) lines [])] else [].
Proof.
  intros L. induction lines as [|l lines IH]; intros c C; cbn [read_loop length].
  - destruct (Z.leb_spec c L), (Z.ltb_spec L (c + Z.of_nat 0)); try reflexivity; lia.
  - destruct (Z.eqb_spec c 1); [lia|]. destruct (Z.eqb_spec c L).
    + subst L. rewrite IH by lia. destruct (Z.leb_spec (c + 1) c); [lia|]. cbn [andb].
      destruct (Z.leb_spec c c); [|lia]. destruct (Z.ltb_spec c (c + Z.of_nat (S (length lines)))); [|lia]. cbn [andb]. rewrite Z.sub_diag. reflexivity.
    + destruct (Z.ltb_spec L c).
      * destruct (Z.leb_spec c L); [lia|]. reflexivity.
      * rewrite IH by lia. destruct (Z.leb_spec (c + 1) L); [|lia]. destruct (Z.leb_spec c L); [|lia]. cbn [andb].
        replace (c + Z.of_nat (S (length lines)))%Z with (c + 1 + Z.of_nat (length lines))%Z by lia.
        destruct (Z.ltb_spec L (c + 1 + Z.of_nat (length lines))); [|reflexivity].
        replace (Z.to_nat (L - c)) with (S (Z.to_nat (L - (c + 1)))) by lia. reflexivity.
Qed.
Lemma getlines_nonempty : forall t c, getlines c t <> [].
Proof. induction t as [|x t IH]; intros c; cbn [getlines]; [discriminate|]. destruct (Ascii.eqb x (ascii_of_nat 10)); [discriminate|apply IH]. Qed.
Lemma read_file_calls : forall L text, let lines := getlines [] text in
  read_file L text = UseIndexCol (hd [] lines) ::
    if andb (Z.leb 2 L) (Z.leb L (Z.of_nat (length lines))) then [InitModel (nth (Z.to_nat L - 1) lines [])] else [].
Proof.
  intros L text lines. unfold read_file. fold lines. assert (N := getlines_nonempty text []). fold lines in N.
  destruct lines as [|l rest]; [contradiction|]. cbn [read_loop]. change (Z.eqb 1 1) with true. cbn iota. cbn [hd]. f_equal.
  rewrite read_after by lia. change (1 + 1)%Z with 2%Z. cbn [length].
  destruct (Z.leb_spec 2 L); cbn [andb]; [|reflexivity].
  destruct (Z.ltb_spec L (2 + Z.of_nat (length rest))), (Z.leb_spec L (Z.of_nat (S (length rest)))); try lia; [|reflexivity].
  replace (Z.to_nat L - 1)%nat with (S (Z.to_nat (L - 2))) by lia. reflexivity.
Qed.
Lemma found_line : forall L text, found (read_file L text) = true <-> (2 <= L <= Z.of_nat (length (getlines [] text)))%Z.
Proof.
  intros L text. rewrite read_file_calls. cbn [found existsb orb].
  destruct (Z.leb_spec 2 L), (Z.leb_spec L (Z.of_nat (length (getlines [] text)))); cbn; split; intros H1; try discriminate; try reflexivity; try lia.
Qed.
(** the lines joined with line ends are the text *)
Lemma getlines_text : forall t c, concat (map (fun l => l ++ [ascii_of_nat 10]) (getlines c t)) = rev c ++ t ++ [ascii_of_nat 10].
Proof.
  induction t as [|x t IH]; intros c; cbn [getlines].
  - cbn. rewrite app_nil_r. reflexivity.
  - destruct (Ascii.eqb_spec x (ascii_of_nat 10)).
    + cbn [map concat]. rewrite IH. cbn [rev app]. subst x. rewrite <- app_assoc. reflexivity.
    + rewrite IH. cbn [rev]. rewrite <- app_assoc. reflexivity.
Qed.
Lemma getlines_clean : forall t c, ~ In (ascii_of_nat 10) c -> Forall (fun l => ~ In (ascii_of_nat 10) l) (getlines c t).
Proof.
  induction t as [|x t IH]; intros c C; cbn [getlines].
  - constructor; [|constructor]. rewrite <- in_rev. exact C.
  - destruct (Ascii.eqb_spec x (ascii_of_nat 10)).
    + constructor; [rewrite <- in_rev; exact C|]. apply IH. intros [].
    + apply IH. intros [H|H]; [congruence|contradiction].
Qed.

(** * Numbers *)
Lemma digit_spec : forall c, (is_digit c -> digit c = Some (Z.of_nat (nat_of_ascii c) - 48)%Z) /\ (~ is_digit c -> digit c = None).
Proof.
  intros c. unfold is_digit, digit. cbv zeta. destruct (Z.leb_spec 48 (Z.of_nat (nat_of_ascii c))), (Z.leb_spec (Z.of_nat (nat_of_ascii c)) 57); cbn [andb]; split; intros; try reflexivity; lia.
Qed.
Lemma digits_spec : forall s rest a, Forall is_digit s -> (forall c t, rest = c :: t -> ~ is_digit c) ->
  digits (Some a) (s ++ rest) = Some (fold_left (fun a c => (10 * a + (Z.of_nat (nat_of_ascii c) - 48))%Z) s a).
Proof.
  induction s as [|c s IH]; intros rest a F R; cbn [app fold_left].
  - destruct rest as [|c t]; [reflexivity|]. cbn [digits]. rewrite (proj2 (digit_spec c)) by (apply (R c t eq_refl)). reflexivity.
  - inversion F as [|? ? D F']; subst. cbn [digits]. rewrite (proj1 (digit_spec c) D). apply IH; assumption.
Qed.
Lemma stoi_number : forall s rest, s <> [] -> Forall is_digit s -> (forall c t, rest = c :: t -> ~ is_digit c) -> (number s <= 2147483647)%Z ->
  stoi (s ++ rest) = Some (number s) /\ stoi ("-"%char :: s ++ rest) = Some (- number s)%Z.
Proof.
  intros s rest N F R B. destruct s as [|c s]; [contradiction|]. inversion F as [|? ? D F']; subst.
  assert (P : forall l a, Forall is_digit l -> (0 <= a)%Z -> (0 <= fold_left (fun a c => (10 * a + (Z.of_nat (nat_of_ascii c) - 48))%Z) l a)%Z).
  { induction l as [|x l IH]; intros a Fl A; cbn [fold_left]; [exact A|]. inversion Fl as [|? ? Dx Fl']; subst. apply IH; [exact Fl'|]. unfold is_digit in Dx. lia. }
  assert (NN : (0 <= number (c :: s))%Z) by (apply P; [exact F|lia]).
  assert (E : digits None (c :: s ++ rest) = Some (number (c :: s))).
  { cbn [digits]. rewrite (proj1 (digit_spec c) D). rewrite digits_spec by assumption. reflexivity. }
  assert (I : forall z, (- 2147483648 <= z <= 2147483647)%Z -> int_range (Some z) = Some z).
  { intros z Z. unfold int_range. destruct (Z.leb_spec (- 2147483648) z), (Z.leb_spec z 2147483647); try reflexivity; lia. }
  split.
  - unfold stoi. cbn [app skip_blanks]. unfold is_digit in D.
    destruct (Nat.eqb_spec (nat_of_ascii c) 32); [lia|]. destruct (Nat.leb_spec 9 (nat_of_ascii c)), (Nat.leb_spec (nat_of_ascii c) 13); try lia. cbn [andb orb].
    destruct (Ascii.eqb_spec c "-") as [->|]; [cbn in D; lia|]. destruct (Ascii.eqb_spec c "+") as [->|]; [cbn in D; lia|].
    rewrite E. apply I. lia.
  - unfold stoi. cbn [skip_blanks]. change (nat_of_ascii "-") with 45%nat. cbn [Nat.eqb Nat.leb andb orb]. change (Ascii.eqb "-" "-") with true. cbn iota.
    change ((c :: s) ++ rest) with (c :: s ++ rest). rewrite E. cbn [option_map]. apply I. lia.
Qed.
