(** What the functions return. *)
From Coq Require Import Reals List Lra Lia Bool.
From Coquelicot Require Import Coquelicot.
From Verif Require Import Model.Base Model.Loop Model.LoopFour Model.EigenDeriv Model.Weinberg Model.WeinbergHigher Spec.WeinbergHigherSpec.
From Verif Require Import Proofs.EigenProofs Proofs.EigenBranch Proofs.WeinbergProofs Proofs.WeinbergHigherProofs Proofs.WeinbergHigherParts Proofs.WeinbergHigherRun.
Import ListNotations.
Open Scope R_scope.
Local Notation value := WeinbergHigher.value.
Local Notation tri := WeinbergHigher.tri.
Local Notation four := WeinbergHigher.four.

(** * position in the vector *)
Lemma flat_map_length {A B} (f : A -> list B) K l : (forall x, In x l -> length (f x) = K) -> length (flat_map f l) = (length l * K)%nat.
Proof. induction l as [|x l IH]; intros H; [reflexivity|]. cbn [flat_map length]. rewrite app_length, IH, H by (intros; apply H; right; assumption) || (left; reflexivity). cbn. lia. Qed.
Lemma nth_flat_map {B} (f : nat -> list B) K N x0 : (forall x, length (f x) = K) -> forall l j z, (l < N)%nat -> (j < K)%nat ->
  nth (j + K * l) (flat_map f (seq x0 N)) z = nth j (f (x0 + l)%nat) z.
Proof.
  intros H. revert x0. induction N as [|N IH]; intros x0 l j z L J; [lia|]. cbn [seq flat_map]. destruct l as [|l].
  - rewrite app_nth1 by (rewrite H; lia). f_equal; [lia|]. f_equal. lia.
  - rewrite app_nth2 by (rewrite H; lia). rewrite H. replace (j + K * S l - K)%nat with (j + K * l)%nat by lia. rewrite IH by lia. f_equal. f_equal. lia.
Qed.
Lemma nth_map_seq (f : nat -> R) N n : (n < N)%nat -> nth n (map f (seq 0 N)) 0 = f n.
Proof. intros H. rewrite (nth_indep _ 0 (f 0%nat)) by (rewrite map_length, seq_length; exact H). rewrite map_nth, seq_nth by exact H. reflexivity. Qed.
Definition cube N (F : nat -> nat -> nat -> R) : list R := flat_map (fun l => flat_map (fun m => map (fun n => F l m n) (seq 0 N)) (seq 0 N)) (seq 0 N).
Definition hyper N (F : nat -> nat -> nat -> nat -> R) : list R := flat_map (fun j => cube N (F j)) (seq 0 N).
Lemma square_length N F : length (flat_map (fun m : nat => map (fun n => F m n : R) (seq 0 N)) (seq 0 N)) = (N * N)%nat.
Proof. rewrite (flat_map_length _ N) by (intros; rewrite map_length, seq_length; reflexivity). rewrite seq_length. reflexivity. Qed.
Lemma cube_length N F : length (cube N F) = (N * (N * N))%nat.
Proof. unfold cube. rewrite (flat_map_length _ (N * N)) by (intros; apply square_length). rewrite seq_length. reflexivity. Qed.
Lemma hyper_length N F : length (hyper N F) = (N * (N * (N * N)))%nat.
Proof. unfold hyper. rewrite (flat_map_length _ (N * (N * N))) by (intros; apply cube_length). rewrite seq_length. reflexivity. Qed.
Lemma cube_nth N F l m n : (l < N)%nat -> (m < N)%nat -> (n < N)%nat -> nth (n + N * (m + N * l)) (cube N F) 0 = F l m n.
Proof.
  intros L M I. unfold cube. replace (n + N * (m + N * l))%nat with ((n + N * m) + (N * N) * l)%nat by lia.
  rewrite (nth_flat_map _ (N * N)) by (try (intros; apply square_length); try exact L; nia). rewrite Nat.add_0_l.
  rewrite (nth_flat_map _ N) by (try (intros; rewrite map_length, seq_length; reflexivity); assumption). rewrite Nat.add_0_l. apply nth_map_seq. exact I.
Qed.
Lemma hyper_nth N F j l m n : (j < N)%nat -> (l < N)%nat -> (m < N)%nat -> (n < N)%nat -> nth (n + N * (m + N * (l + N * j))) (hyper N F) 0 = F j l m n.
Proof.
  intros J L M I. unfold hyper. replace (n + N * (m + N * (l + N * j)))%nat with ((n + N * (m + N * l)) + (N * (N * N)) * j)%nat by lia.
  rewrite (nth_flat_map _ (N * (N * N))).
  2:{ intros; apply cube_length. } 2: exact J.
  2:{ assert (m + N * l < N * N)%nat by nia. nia. }
  rewrite Nat.add_0_l. apply cube_nth; assumption.
Qed.
Lemma contract3_con N u F : contract3 N u (cube N F) = con3 N u F.
Proof.
  unfold contract3, con3, con. apply rsum_ext; intros l L. rewrite <- rsum_scal. apply rsum_ext; intros m M. rewrite <- !rsum_scal. apply rsum_ext; intros n I.
  rewrite cube_nth by assumption. ring.
Qed.
Lemma contract4_con N u F : contract4 N u (hyper N F) = con4 N u F.
Proof.
  unfold contract4, con4, con3, con. apply rsum_ext; intros j J. rewrite <- rsum_scal. apply rsum_ext; intros l L. rewrite <- !rsum_scal. apply rsum_ext; intros m M. rewrite <- !rsum_scal. apply rsum_ext; intros n I.
  rewrite hyper_nth by assumption. ring.
Qed.
Lemma con4_reverse N w (P : nat -> nat -> nat -> nat -> R) : con4 N w (fun i j k l => P l k j i) = con4 N w P.
Proof.
  transitivity (con4 N w (fun i j k l => P l k i j)); [exact (con4_12 N w (fun i j k l => P l k i j))|].
  transitivity (con4 N w (fun i j k l => P l j i k)); [exact (con4_23 N w (fun i j k l => P l j i k))|].
  transitivity (con4 N w (fun i j k l => P l i j k)); [exact (con4_12 N w (fun i j k l => P l i j k))|].
  transitivity (con4 N w (fun i j k l => P k i j l)); [exact (con4_34 N w (fun i j k l => P k i j l))|].
  transitivity (con4 N w (fun i j k l => P j i k l)); [exact (con4_23 N w (fun i j k l => P j i k l))|].
  exact (con4_12 N w P).
Qed.

(** * results *)
Section Result.
  Variables (N : nat) (O : nat -> nat -> R) (scale : R).
  Lemma third_is sectors r : WeinbergThirdDerivative N O scale sectors true = Ok (Some r) -> r = cube N (ThirdDeriv N O scale sectors).
  Proof.
    unfold WeinbergThirdDerivative. cbn [negb]. destruct (throws3 scale sectors); [discriminate|]. destruct (tachyon sectors); [discriminate|]. intros E. injection E as <-. reflexivity.
  Qed.
  Lemma fourth_is sectors r : WeinbergForthDerivative N O scale sectors true = Ok (Some r) -> r = hyper N (fun j1 j2 j3 j4 => FourthDeriv N O scale sectors j4 j3 j2 j1).
  Proof.
    unfold WeinbergForthDerivative. cbn [negb]. destruct (throws3 scale sectors || throws4 scale sectors); [discriminate|]. destruct (tachyon sectors); [discriminate|]. intros E. injection E as <-. reflexivity.
  Qed.
  Lemma restmp3_12 sectors i j k : restmp3 N O scale sectors i j k = restmp3 N O scale sectors j i k.
  Proof. apply parts_ext. intros s _. unfold sym3. ring. Qed.
  Lemma restmp3_23 sectors i j k : restmp3 N O scale sectors i j k = restmp3 N O scale sectors i k j.
  Proof. apply parts_ext. intros s _. unfold sym3. ring. Qed.
  Lemma third_12 sectors l m n : ThirdDeriv N O scale sectors l m n = ThirdDeriv N O scale sectors m l n.
  Proof.
    unfold ThirdDeriv, rotated3. f_equal. f_equal. rewrite rsum_swap. apply rsum_ext; intros j J. apply rsum_ext; intros i I. apply rsum_ext; intros k K. rewrite (restmp3_12 sectors i j k). ring.
  Qed.
  Lemma third_23 sectors l m n : ThirdDeriv N O scale sectors l m n = ThirdDeriv N O scale sectors l n m.
  Proof.
    unfold ThirdDeriv, rotated3. f_equal. f_equal. apply rsum_ext; intros i I. rewrite rsum_swap. apply rsum_ext; intros k K. apply rsum_ext; intros j J. rewrite (restmp3_23 sectors i j k). ring.
  Qed.
  Lemma restmp4_12 sectors i j k l : restmp4 N O scale sectors i j k l = restmp4 N O scale sectors j i k l.
  Proof. apply parts_ext. intros s _. unfold sym4. ring. Qed.
  Lemma restmp4_23 sectors i j k l : restmp4 N O scale sectors i j k l = restmp4 N O scale sectors i k j l.
  Proof. apply parts_ext. intros s _. unfold sym4. ring. Qed.
  Lemma restmp4_34 sectors i j k l : restmp4 N O scale sectors i j k l = restmp4 N O scale sectors i j l k.
  Proof. apply parts_ext. intros s _. unfold sym4. ring. Qed.
  Lemma fourth_12 sectors a b c d : FourthDeriv N O scale sectors a b c d = FourthDeriv N O scale sectors b a c d.
  Proof.
    unfold FourthDeriv, rotated4. f_equal. f_equal. rewrite rsum_swap. apply rsum_ext; intros j J. apply rsum_ext; intros i I. apply rsum_ext; intros k K. apply rsum_ext; intros l L. rewrite (restmp4_12 sectors i j k l). ring.
  Qed.
  Lemma fourth_23 sectors a b c d : FourthDeriv N O scale sectors a b c d = FourthDeriv N O scale sectors a c b d.
  Proof.
    unfold FourthDeriv, rotated4. f_equal. f_equal. apply rsum_ext; intros i I. rewrite rsum_swap. apply rsum_ext; intros k K. apply rsum_ext; intros j J. apply rsum_ext; intros l L. rewrite (restmp4_23 sectors i j k l). ring.
  Qed.
  Lemma fourth_34 sectors a b c d : FourthDeriv N O scale sectors a b c d = FourthDeriv N O scale sectors a b d c.
  Proof.
    unfold FourthDeriv, rotated4. f_equal. f_equal. apply rsum_ext; intros i I. apply rsum_ext; intros j J. rewrite rsum_swap. apply rsum_ext; intros l L. apply rsum_ext; intros k K. rewrite (restmp4_34 sectors i j k l). ring.
  Qed.
  Lemma third_symmetric sectors r : WeinbergThirdDerivative N O scale sectors true = Ok (Some r) -> length r = (N * (N * N))%nat /\
    forall l m n, (l < N)%nat -> (m < N)%nat -> (n < N)%nat ->
      nth (n + N * (m + N * l)) r 0 = nth (n + N * (l + N * m)) r 0 /\ nth (n + N * (m + N * l)) r 0 = nth (m + N * (n + N * l)) r 0.
  Proof.
    intros E. apply third_is in E. subst r. split; [apply cube_length|]. intros l m n L M I. rewrite !cube_nth by assumption. split; [apply third_12|apply third_23].
  Qed.
  Lemma fourth_symmetric sectors r : WeinbergForthDerivative N O scale sectors true = Ok (Some r) -> length r = (N * (N * (N * N)))%nat /\
    forall j l m n, (j < N)%nat -> (l < N)%nat -> (m < N)%nat -> (n < N)%nat ->
      nth (n + N * (m + N * (l + N * j))) r 0 = nth (n + N * (m + N * (j + N * l))) r 0 /\
      nth (n + N * (m + N * (l + N * j))) r 0 = nth (n + N * (l + N * (m + N * j))) r 0 /\
      nth (n + N * (m + N * (l + N * j))) r 0 = nth (m + N * (n + N * (l + N * j))) r 0.
  Proof.
    intros E. apply fourth_is in E. subst r. split; [apply hyper_length|]. intros j l m n J L M I. rewrite !hyper_nth by assumption. split; [apply fourth_34|]. split; [apply fourth_23|apply fourth_12].
  Qed.

  Variable u : nat -> R.
  Hypothesis Ps : 0 < scale.
  Hypothesis ortho : orthonormal N O.
  Variable L : list (sector * (nat -> R) * (nat -> R)).
  Hypothesis diag : forall s d e, In (s, d, e) L -> diagonal s (slope N u s) d /\ diagonal s (curve N u s) e /\ massive_or_decoupled s d e.
  Notation sectors := (map (fun x => fst (fst x)) L).
  Lemma diag_mass s d e : In (s, d, e) L -> positive s d e.
  Proof. intros I. apply massive_positive. exact (proj2 (proj2 (diag s d e I))). Qed.
  Lemma eps_spec : epsilon = / (16 * PI ^ 2).
  Proof. unfold epsilon. pose proof PI_RGT_0. field. lra. Qed.
  Lemma numzero : NumZero = / 10 ^ 10. Proof. reflexivity. Qed.
  Lemma third_value : con3 N u (rotated3 N O scale sectors) = Vn scale L 3 0.
  Proof.
    unfold rotated3. rewrite (con3_ext N u _ (fun l m n => epsilon * rsum N (fun i => rsum N (fun j => rsum N (fun k => O i l * O j m * O k n * restmp3 N O scale sectors i j k))))) by (intros; apply Rmult_comm).
    rewrite con3_scal, con3_turn. unfold restmp3. rewrite con3_parts. unfold Vn. rewrite eps_spec. f_equal. generalize diag. generalize L. clear diag L. intros L diag. induction L as [|[[s d] e] M IH]; [reflexivity|].
    cbn [map fst]. rewrite parts_cons. cbn [fold_right]. rewrite IH by (intros; apply diag; right; assumption). f_equal. rewrite con3_scal, con3_sym. unfold term. f_equal.
    destruct (diag s d e (or_introl eq_refl)) as [D1 [D2 D3]]. rewrite (third_con N O u scale ortho s d e D1 D2). apply rsum_ext. intros a A. unfold tri.
    destruct (D3 a A) as [B|[E1 [E2 E3]]].
    - assert (0 < mass2 s a) by (rewrite fifth in B; lra). rewrite bracket_equal, tri_equal by assumption. cbn [WeinbergHigher.value]. unfold G, Lt, Mt.
      replace (mass2 s a + d a * 0 + e a * 0 ^ 2 / 2) with (mass2 s a) by field. field. lra.
    - rewrite E1, E2, E3, G_decoupled. ring.
  Qed.
  Lemma fourth_value : con4 N u (rotated4 N O scale sectors) = Vn scale L 4 0.
  Proof.
    unfold rotated4. rewrite (con4_ext N u _ (fun a l m n => epsilon * rsum N (fun h => rsum N (fun i => rsum N (fun j => rsum N (fun k => O h a * O i l * O j m * O k n * restmp4 N O scale sectors h i j k)))))) by (intros; apply Rmult_comm).
    rewrite con4_scal, con4_turn. unfold restmp4. rewrite con4_parts. unfold Vn. rewrite eps_spec. f_equal. generalize diag. generalize L. clear diag L. intros L diag. induction L as [|[[s d] e] M IH]; [reflexivity|].
    cbn [map fst]. rewrite parts_cons. cbn [fold_right]. rewrite IH by (intros; apply diag; right; assumption). f_equal. rewrite con4_scal, con4_sym. unfold term. rewrite (Rmult_comm 3), Rmult_assoc. f_equal.
    destruct (diag s d e (or_introl eq_refl)) as [D1 [D2 D3]]. rewrite (fourth_con N O u scale ortho s d e D1 D2). rewrite <- rsum_scal. apply rsum_ext. intros a A. unfold tri, four.
    destruct (D3 a A) as [B|[E1 [E2 E3]]].
    - assert (0 < mass2 s a) by (rewrite fifth in B; lra). rewrite bracket_equal, tri_equal, four_equal by assumption. cbn [WeinbergHigher.value]. unfold G, Lt, Mt.
      replace (mass2 s a + d a * 0 + e a * 0 ^ 2 / 2) with (mass2 s a) by field. field. lra.
    - rewrite E1, E2, E3, G_decoupled. ring.
  Qed.
  Lemma third_line r : WeinbergThirdDerivative N O scale sectors true = Ok (Some r) ->
    exists v, is_derive_n (one_loop scale L) 3 0 v /\ Rabs (contract3 N u r - v) <= rsum N (fun l => Rabs (u l)) ^ 3 * / 10 ^ 10.
  Proof.
    intros E. apply third_is in E. subst r. exists (Vn scale L 3 0). split; [apply (nth_derivative scale Ps L 2 diag_mass); lia|].
    rewrite contract3_con, <- third_value. apply (con3_bound N u); [left; exact NumZero_pos|]. intros. apply clip_err. left. exact NumZero_pos.
  Qed.
  Lemma fourth_line r : WeinbergForthDerivative N O scale sectors true = Ok (Some r) ->
    exists v, is_derive_n (one_loop scale L) 4 0 v /\ Rabs (contract4 N u r - v) <= rsum N (fun l => Rabs (u l)) ^ 4 * / 10 ^ 10.
  Proof.
    intros E. apply fourth_is in E. subst r. exists (Vn scale L 4 0). split; [apply (nth_derivative scale Ps L 3 diag_mass); lia|].
    rewrite contract4_con, con4_reverse, <- fourth_value. apply (con4_bound N u); [left; exact NumZero_pos|]. intros. apply clip_err. left. exact NumZero_pos.
  Qed.
End Result.
