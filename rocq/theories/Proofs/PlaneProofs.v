(** Proofs about the minimisation plane. *)
From Coq Require Import Reals Lra.
From Verif.Model Require Import Base Plane.
From Verif.Spec Require Import PlaneSpec.
Open Scope R_scope.

Lemma dot_app n1 : forall v1 n2 v2, length n1 = length v1 -> dot (n1 ++ n2) (v1 ++ v2) = dot n1 v1 + dot n2 v2.
Proof.
  induction n1 as [|a n1 IH]; intros [|b v1] n2 v2 L; cbn in *; try discriminate; [lra|].
  rewrite IH by congruence. lra.
Qed.
Lemma nth_skipn0 {A} (l : list A) i d : (i < length l)%nat -> skipn i l = nth i l d :: skipn (S i) l.
Proof.
  revert i. induction l as [|a l IH]; intros [|i] H; cbn in *; try lia; [reflexivity|]. apply IH. lia.
Qed.
Lemma firstn_nth {A} (l : list A) : forall k i d, (i < k)%nat -> nth i (firstn k l) d = nth i l d.
Proof.
  induction l as [|a l IH]; intros [|k] [|i] d H; cbn; try lia; try reflexivity. apply IH. lia.
Qed.
(** the recursive scalar product is the plane form *)
Lemma dot_snoc n v a b : length n = length v -> dot (n ++ [a]) (v ++ [b]) = dot n v + a * b.
Proof. intro L. rewrite dot_app by exact L. cbn. lra. Qed.
Lemma firstn_S_snoc {A} (l : list A) k d : (k < length l)%nat -> firstn (S k) l = firstn k l ++ [nth k l d].
Proof.
  revert k. induction l as [|a l IH]; intros [|k] H; cbn in *; try lia; [reflexivity|]. f_equal. apply IH. lia.
Qed.
Lemma form_dot k n v P : (k <= length n)%nat -> (k <= length v)%nat -> (k <= length P)%nat ->
  plane_form k n v P = dot (firstn k n) (firstn k v) - dot (firstn k n) (firstn k P).
Proof.
  induction k as [|k IH]; intros A B C; [cbn; lra|].
  cbn [plane_form]. rewrite IH by lia.
  rewrite !(firstn_S_snoc _ _ 0) by lia. rewrite !dot_snoc by (rewrite !firstn_length; lia). lra.
Qed.

Lemma dot_put : forall n v i x, (i < length v)%nat -> length n = length v ->
  dot n (put v i x) = dot n v + nth i n 0 * (x - nth i v 0).
Proof.
  induction n as [|a n IH]; intros [|b v] [|i] x I L; cbn in I, L; try lia.
  - unfold put. cbn. ring.
  - change (put (b :: v) (S i) x) with (b :: put v i x). cbn [dot nth]. rewrite IH by lia. ring.
Qed.
Lemma put_length v i x : (i < length v)%nat -> length (put v i x) = length v.
Proof. intro H. unfold put. rewrite app_length. cbn [length]. rewrite firstn_length, skipn_length. lia. Qed.
Lemma insert_length (t : rvec) i m : length t = m -> (i <= m)%nat -> length (firstn i t ++ 0 :: skipn i t) = S m.
Proof. intros <- H. rewrite app_length. cbn [length]. rewrite firstn_length, skipn_length. lia. Qed.
Lemma insert_nth (t : rvec) i : (i <= length t)%nat -> nth i (firstn i t ++ 0 :: skipn i t) 0 = 0.
Proof.
  intro H. rewrite app_nth2; rewrite firstn_length, Nat.min_l by lia; [|lia]. now rewrite Nat.sub_diag.
Qed.
(** dropping the solved component gives back the plane coordinates *)
Definition drop (i : nat) (v : rvec) : rvec := firstn i v ++ skipn (S i) v.
Lemma drop_put t i x : (i <= length t)%nat -> drop i (put (firstn i t ++ 0 :: skipn i t) i x) = t.
Proof.
  intro H. unfold drop, put.
  assert (F : firstn i (firstn i t ++ 0 :: skipn i t) = firstn i t).
  { rewrite firstn_app, firstn_firstn, Nat.min_id, firstn_length, Nat.min_l, Nat.sub_diag by lia. cbn. apply app_nil_r. }
  assert (S1 : skipn (S i) (firstn i t ++ 0 :: skipn i t) = skipn i t).
  { rewrite skipn_app, firstn_length, Nat.min_l by lia. rewrite skipn_all2 by (rewrite firstn_length; lia).
    replace (S i - i)%nat with 1%nat by lia. reflexivity. }
  rewrite F, S1.
  assert (F2 : firstn i (firstn i t ++ x :: skipn i t) = firstn i t).
  { rewrite firstn_app, firstn_firstn, Nat.min_id, firstn_length, Nat.min_l, Nat.sub_diag by lia. cbn. apply app_nil_r. }
  assert (S2 : skipn (S i) (firstn i t ++ x :: skipn i t) = skipn i t).
  { rewrite skipn_app, firstn_length, Nat.min_l by lia. rewrite skipn_all2 by (rewrite firstn_length; lia).
    replace (S i - i)%nat with 1%nat by lia. reflexivity. }
  rewrite F2, S2. apply firstn_skipn.
Qed.
Lemma put_drop v i : (i < length v)%nat ->
  put (firstn i (drop i v) ++ 0 :: skipn i (drop i v)) i (nth i v 0) = v.
Proof.
  intro H. assert (LF : length (firstn i v) = i) by (rewrite firstn_length; lia).
  assert (D1 : firstn i (drop i v) = firstn i v).
  { unfold drop. rewrite firstn_app, LF, Nat.sub_diag. cbn. rewrite app_nil_r. apply firstn_all2. lia. }
  assert (D2 : skipn i (drop i v) = skipn (S i) v).
  { unfold drop. rewrite skipn_app, LF, Nat.sub_diag. rewrite skipn_all2 by lia. reflexivity. }
  rewrite D1, D2. unfold put.
  assert (F : firstn i (firstn i v ++ 0 :: skipn (S i) v) = firstn i v).
  { rewrite firstn_app, LF, Nat.sub_diag. rewrite app_nil_r. apply firstn_all2. lia. }
  assert (S1 : skipn (S i) (firstn i v ++ 0 :: skipn (S i) v) = skipn (S i) v).
  { rewrite skipn_app, LF. rewrite skipn_all2 by lia. replace (S i - i)%nat with 1%nat by lia. reflexivity. }
  rewrite F, S1. rewrite <- (nth_skipn0 v i 0) by exact H. apply firstn_skipn.
Qed.

Lemma transform_ok nVEV normal point idx tilde : (idx < nVEV)%nat -> S (length tilde) = nVEV ->
  (nVEV <= length normal)%nat -> (nVEV <= length point)%nat -> nth idx normal 0 <> 0 ->
  exists v, TransformCoordinates nVEV normal point idx tilde = Ok (Some v) /\
    in_plane nVEV normal point v /\ drop idx v = tilde.
Proof.
  intros I L N P Z. unfold TransformCoordinates. destruct nVEV as [|m]; [lia|].
  replace (Nat.eqb (length tilde) m) with true by (symmetry; apply Nat.eqb_eq; lia). cbn [negb].
  replace (Nat.leb (S m) idx) with false by (symmetry; apply Nat.leb_gt; lia).
  replace (Nat.ltb (length normal) (S m)) with false by (symmetry; apply Nat.ltb_ge; lia).
  replace (Nat.ltb (length point) (S m)) with false by (symmetry; apply Nat.ltb_ge; lia). cbn [orb].
  destruct (Req_EM_T (nth idx normal 0) 0) as [|_]; [contradiction|].
  assert (L' : length tilde = m) by lia.
  set (v0 := firstn idx tilde ++ 0 :: skipn idx tilde).
  assert (LV : length v0 = S m) by (apply insert_length; [exact L'|lia]).
  eexists. split; [reflexivity|]. split; [split|].
  - rewrite put_length; lia.
  - rewrite form_dot; try lia; [|rewrite put_length; lia].
    rewrite (firstn_all2 (put v0 idx _)) by (rewrite put_length; lia).
    rewrite dot_put; [|lia|rewrite firstn_length; lia].
    rewrite firstn_nth by exact I. unfold v0 at 3. rewrite insert_nth by lia. field. exact Z.
  - apply drop_put. lia.
Qed.
(** each point of the plane is the image of its own coordinates *)
Lemma transform_onto nVEV normal point idx v : (idx < nVEV)%nat ->
  (nVEV <= length normal)%nat -> (nVEV <= length point)%nat -> nth idx normal 0 <> 0 -> in_plane nVEV normal point v ->
  TransformCoordinates nVEV normal point idx (drop idx v) = Ok (Some v).
Proof.
  intros I N P Z [LV F]. unfold TransformCoordinates. destruct nVEV as [|m]; [lia|].
  assert (LD : length (drop idx v) = m) by (unfold drop; rewrite app_length, firstn_length, skipn_length; lia).
  replace (Nat.eqb (length (drop idx v)) m) with true by (symmetry; now apply Nat.eqb_eq). cbn [negb].
  replace (Nat.leb (S m) idx) with false by (symmetry; apply Nat.leb_gt; lia).
  replace (Nat.ltb (length normal) (S m)) with false by (symmetry; apply Nat.ltb_ge; lia).
  replace (Nat.ltb (length point) (S m)) with false by (symmetry; apply Nat.ltb_ge; lia). cbn [orb].
  destruct (Req_EM_T (nth idx normal 0) 0) as [|_]; [contradiction|].
  set (v0 := firstn idx (drop idx v) ++ 0 :: skipn idx (drop idx v)).
  assert (LV0 : length v0 = S m) by (apply insert_length; [exact LD|lia]).
  assert (E : put v0 idx (nth idx v 0) = v) by (apply put_drop; lia).
  assert (F' : dot (firstn (S m) normal) v - dot (firstn (S m) normal) (firstn (S m) point) = 0).
  { rewrite form_dot in F by lia. now rewrite (firstn_all2 v) in F by lia. }
  assert (D : dot (firstn (S m) normal) v = dot (firstn (S m) normal) v0 + nth idx normal 0 * nth idx v 0).
  { transitivity (dot (firstn (S m) normal) (put v0 idx (nth idx v 0))); [now rewrite E|].
    rewrite dot_put; [|lia|rewrite firstn_length; lia]. rewrite firstn_nth by exact I.
    assert (Z0 : nth idx v0 0 = 0) by (apply insert_nth; lia). rewrite Z0. ring. }
  do 2 f_equal. transitivity (put v0 idx (nth idx v 0)); [|exact E]. f_equal.
  replace (dot (firstn (S m) normal) (firstn (S m) point)) with (dot (firstn (S m) normal) v) by lra.
  rewrite D. field. exact Z.
Qed.
Lemma transform_size nVEV normal point idx tilde : S (length tilde) <> nVEV ->
  TransformCoordinates nVEV normal point idx tilde = Throw RuntimeError.
Proof.
  intro L. unfold TransformCoordinates. destruct nVEV as [|m]; [reflexivity|].
  replace (Nat.eqb (length tilde) m) with false by (symmetry; apply Nat.eqb_neq; lia). reflexivity.
Qed.

(** ** the whole search *)
Lemma normal_spec : forall broken symmetric normal, normal_of broken symmetric = Some normal ->
  length normal = length broken /\ (length broken <= length symmetric)%nat /\
  forall i, (i < length broken)%nat -> nth i normal 0 = nth i broken 0 - nth i symmetric 0.
Proof.
  induction broken as [|b broken IH]; intros symmetric normal E; cbn in E.
  - assert (normal = []) by (destruct symmetric; congruence). subst. cbn. repeat split; intros; lia.
  - destruct symmetric as [|s symmetric]; [discriminate|]. destruct (normal_of broken symmetric) as [n|] eqn:En; [|discriminate].
    cbn in E. assert (normal = (b - s) :: n) by congruence. subst. destruct (IH _ _ En) as (A & B & C).
    cbn. repeat split; try lia. intros [|i] I; [reflexivity|]. apply C. lia.
Qed.
Lemma find_index_spec : forall n i k, find_index n i = Some k ->
  (i <= k < i + length n)%nat /\ 1e-3 <= Rabs (nth (k - i) n 0).
Proof.
  induction n as [|a n IH]; intros i k E; cbn [find_index] in E; [discriminate|].
  destruct (Rle_dec _ _) as [H|H].
  - assert (k = i) by congruence. subst. cbn [length]. split; [lia|]. rewrite Nat.sub_diag. exact H.
  - destruct (IH _ _ E) as (A & B). cbn [length]. split; [lia|].
    replace (k - i)%nat with (S (k - S i)) by lia. exact B.
Qed.
Lemma find_index_none : forall n i, find_index n i = None <-> Forall (fun a => Rabs a < 1e-3) n.
Proof.
  induction n as [|a n IH]; intro i; cbn [find_index]; [split; [constructor|reflexivity]|].
  destruct (Rle_dec _ _) as [H|H].
  - split; [discriminate|]. intro F. apply Forall_cons_iff in F as [F _]. lra.
  - rewrite IH. split; [intro F; constructor; [lra|exact F]|]. intro F. now apply Forall_cons_iff in F as [_ F].
Qed.
Lemma transform_all_spec nVEV normal point idx : forall ts l, transform_all nVEV normal point idx ts = Ok l ->
  Forall2 (fun t v => TransformCoordinates nVEV normal point idx t = Ok (Some v)) ts l.
Proof.
  induction ts as [|t ts IH]; intros l E; cbn in E.
  - assert (l = []) by congruence. subst. constructor.
  - destruct (TransformCoordinates nVEV normal point idx t) as [[v|]| | |] eqn:T; cbn in E; try discriminate.
    destruct (transform_all nVEV normal point idx ts) as [l'| | |] eqn:TA; cbn in E; try discriminate.
    assert (l = v :: l') by congruence. subst. constructor; [exact T|now apply IH].
Qed.
Lemma fold_keep V (keep : rvec -> rvec -> rvec) : (forall b c, (keep b c = b \/ keep b c = c) /\ V (keep b c) <= V b /\ V (keep b c) <= V c) ->
  forall l b, (fold_left keep l b = b \/ In (fold_left keep l b) l) /\ V (fold_left keep l b) <= V b /\
    forall c, In c l -> V (fold_left keep l b) <= V c.
Proof.
  intros K. induction l as [|c l IH]; intro b; cbn [fold_left].
  - split; [now left|]. split; [lra|]. intros ? [].
  - destruct (IH (keep b c)) as (A & B & C). destruct (K b c) as (K1 & K2 & K3). split; [|split].
    + destruct A as [A|A]; [|right; now right]. rewrite A. destruct K1 as [-> | ->]; [now left|right; now left].
    + lra.
    + intros x [<-|X]; [lra|now apply C].
Qed.
Lemma keep_last_ok V b c : (keep_last V b c = b \/ keep_last V b c = c) /\ V (keep_last V b c) <= V b /\ V (keep_last V b c) <= V c.
Proof. unfold keep_last. destruct (Rle_dec (V c) (V b)); (split; [auto|lra]). Qed.
Lemma keep_first_ok V b c : (keep_first V b c = b \/ keep_first V b c = c) /\ V (keep_first V b c) <= V b /\ V (keep_first V b c) <= V c.
Proof. unfold keep_first. destruct (Rlt_dec (V c) (V b)); (split; [auto|lra]). Qed.
Lemma best_ok V keep l v : (forall b c, (keep b c = b \/ keep b c = c) /\ V (keep b c) <= V b /\ V (keep b c) <= V c) ->
  best keep l = Some v -> In v l /\ forall c, In c l -> V v <= V c.
Proof.
  intros K E. destruct l as [|b l]; [discriminate|]. cbn in E. assert (v = fold_left keep l b) by congruence. subst.
  destruct (fold_keep V keep K l b) as (A & B & C). split.
  - destruct A as [->|A]; [now left|now right].
  - intros c [<-|I]; [exact B|now apply C].
Qed.
Lemma best_none keep l : best keep l = None -> l = [].
Proof. destruct l; [reflexivity|discriminate]. Qed.
Lemma in_plane_of nVEV normal point idx ts l : (idx < nVEV)%nat -> nth idx normal 0 <> 0 ->
  transform_all nVEV normal point idx ts = Ok l -> forall v, In v l -> in_plane nVEV normal point v.
Proof.
  intros I Z E v Iv. apply transform_all_spec in E. induction E as [|t w ts l T E IH]; [contradiction|].
  destruct Iv as [<-|Iv]; [|now apply IH].
  destruct (Nat.eq_dec (S (length t)) nVEV) as [L|L]; [|rewrite transform_size in T by exact L; discriminate].
  assert (N : (nVEV <= length normal)%nat /\ (nVEV <= length point)%nat).
  { unfold TransformCoordinates in T. destruct nVEV as [|m]; [lia|]. destruct (negb _); [discriminate|].
    destruct (Nat.leb _ _); [discriminate|]. destruct (_ || _) eqn:O; [discriminate|].
    apply orb_false_iff in O as [O1 O2]. apply Nat.ltb_ge in O1, O2. now split. }
  destruct (transform_ok nVEV normal point idx t I L (proj1 N) (proj2 N) Z) as (x & Tx & P & _).
  assert (w = x) by congruence. now subst.
Qed.

Lemma plane_search nVEV V base symmetric broken gsl cmaes nlopt pot v :
  length broken = nVEV ->
  MinimizePlane nVEV V base symmetric broken gsl cmaes nlopt = Ok (pot, v) ->
  pot = V v /\
  (exists normal, length normal = nVEV /\ (forall i, (i < nVEV)%nat -> nth i normal 0 = nth i broken 0 - nth i symmetric 0) /\
     in_plane nVEV normal base v /\
     forall t w idx, In t (gsl ++ (if Nat.leb 3 nVEV then cmaes else []) ++ nlopt) -> find_index normal 0 = Some idx ->
       TransformCoordinates nVEV normal base idx t = Ok (Some w) -> pot <= V w).
Proof.
  intros LB E. unfold MinimizePlane in E. destruct (normal_of broken symmetric) as [normal|] eqn:N; [|discriminate].
  destruct (normal_spec _ _ _ N) as (LN & LS & NS). destruct (find_index normal 0) as [idx|] eqn:FI; [|discriminate].
  destruct (find_index_spec _ _ _ FI) as (IB & IA). rewrite Nat.sub_0_r in IA.
  assert (Z : nth idx normal 0 <> 0). { intro Z. rewrite Z, Rabs_R0 in IA. lra. }
  set (cm := if Nat.leb 3 nVEV then cmaes else []) in *.
  destruct (transform_all nVEV normal base idx gsl) as [g| | |] eqn:TG; cbn [bind] in E; try discriminate.
  destruct (transform_all nVEV normal base idx cm) as [c| | |] eqn:TC; cbn [bind] in E; try discriminate.
  destruct (transform_all nVEV normal base idx nlopt) as [n| | |] eqn:TN; cbn [bind] in E; try discriminate.
  destruct (best (keep_first V) _) as [w|] eqn:B; [|discriminate].
  assert (w = v) by congruence. assert (pot = V w) by congruence. subst w pot. split; [reflexivity|].
  destruct (best_ok V _ _ _ (keep_first_ok V) B) as (IV & MV).
  assert (I1 : (idx < nVEV)%nat) by lia.
  exists normal. split; [lia|]. split; [intros; apply NS; lia|]. split.
  - apply in_app_or in IV as [IV|IV].
    + destruct (best (keep_last V) g) as [bg|] eqn:BG; [|contradiction]. destruct IV as [->|[]].
      apply (best_ok V) in BG as [IG _]; [|apply keep_last_ok]. exact (in_plane_of _ _ _ _ _ _ I1 Z TG _ IG).
    + apply in_app_or in IV as [IV|IV]; [exact (in_plane_of _ _ _ _ _ _ I1 Z TC _ IV)|exact (in_plane_of _ _ _ _ _ _ I1 Z TN _ IV)].
  - intros t w idx' It FI' T. assert (idx' = idx) by congruence. subst idx'.
    assert (Pick : forall ts l, transform_all nVEV normal base idx ts = Ok l -> In t ts -> In w l).
    { intros ts l Ts Its. apply transform_all_spec in Ts. induction Ts as [|t0 w0 ts l T0 Ts IH]; [contradiction|].
      destruct Its as [->|Its]; [left; congruence|right; now apply IH]. }
    apply in_app_or in It as [It|It].
    + pose proof (Pick _ _ TG It) as Iw. destruct (best (keep_last V) g) as [bg|] eqn:BG; [|apply best_none in BG; subst; contradiction].
      apply (best_ok V) in BG as [_ MG]; [|apply keep_last_ok].
      apply Rle_trans with (V bg); [apply MV; cbn; now left|now apply MG].
    + apply in_app_or in It as [It|It].
      * apply MV. apply in_or_app. right. apply in_or_app. left. now apply (Pick _ _ TC).
      * apply MV. apply in_or_app. right. apply in_or_app. right. now apply (Pick _ _ TN).
Qed.
