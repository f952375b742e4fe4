(** The third and fourth derivatives along a line are those of the one-loop potential. *)
From Coq Require Import Reals List Lra Lia Bool.
From Coquelicot Require Import Coquelicot.
From Verif Require Import Model.Base Model.Loop Model.LoopFour Model.EigenDeriv Model.Weinberg Model.WeinbergHigher Spec.WeinbergHigherSpec.
From Verif Require Import Proofs.EigenProofs Proofs.EigenBranch Proofs.WeinbergProofs Proofs.WeinbergHigherProofs Proofs.WeinbergHigherParts.
Import ListNotations.
Open Scope R_scope.
Local Notation value := WeinbergHigher.value.
Local Notation tri := WeinbergHigher.tri.
Local Notation four := WeinbergHigher.four.

(** * loop functions for equal masses *)
Lemma fifth : / 10 ^ 5 = 1 / 100000. Proof. field. Qed.
Lemma snap0_big m : / 10 ^ 5 <= m -> snap0 m = m.
Proof. rewrite fifth. intros H. unfold snap0, Thres. destruct (Rlt_dec (Rabs m) _); [|reflexivity]. rewrite Rabs_right in r by lra. lra. Qed.
Lemma snap_same m : snap m m = m.
Proof. unfold snap. destruct (Rlt_dec _ _); reflexivity. Qed.
Lemma eqb_same m : eqb m m = true.
Proof. unfold eqb. destruct (Req_EM_T m m); [reflexivity|contradiction]. Qed.
Lemma is0_big m : / 10 ^ 5 <= m -> is0 m = false.
Proof. rewrite fifth. intros H. unfold is0. destruct (Req_EM_T m 0); [lra|reflexivity]. Qed.
Lemma tri_equal scale m : / 10 ^ 5 <= m -> fbaseTri scale m m m = Ok (1 / (2 * m)).
Proof.
  intros H. unfold fbaseTri. rewrite snap0_big by exact H. rewrite !snap_same. unfold tri_branch. rewrite (is0_big m H), eqb_same. reflexivity.
Qed.
Lemma tri_zero scale : fbaseTri scale 0 0 0 = Ok 0.
Proof.
  unfold fbaseTri, snap0. rewrite Rabs_R0. destruct (Rlt_dec 0 Thres); rewrite !snap_same; unfold tri_branch, is0; destruct (Req_EM_T 0 0); try contradiction; reflexivity.
Qed.
Lemma snap0_4_big m : / 10 ^ 5 <= m -> snap0_4 m = m.
Proof. rewrite fifth. intros H. unfold snap0_4, Thres4. destruct (Rlt_dec (Rabs m) _); [|reflexivity]. rewrite Rabs_right in r by lra. lra. Qed.
Lemma snap4_same m : snap4 m m = m.
Proof. unfold snap4. destruct (Rlt_dec _ _); reflexivity. Qed.
Lemma four_equal scale m : / 10 ^ 5 <= m -> fbaseFour scale m m m m = Ok (- 1 / (6 * m * m)).
Proof.
  intros H. unfold fbaseFour. rewrite snap0_4_big by exact H. rewrite !snap4_same. unfold four_branch. rewrite (is0_big m H), eqb_same. reflexivity.
Qed.
Lemma four_zero scale : fbaseFour scale 0 0 0 0 = Ok 0.
Proof.
  unfold fbaseFour, snap0_4. rewrite Rabs_R0. destruct (Rlt_dec 0 Thres4); rewrite !snap4_same; unfold four_branch; replace (is0 0) with true by (unfold is0; destruct (Req_EM_T 0 0); [reflexivity|contradiction]); reflexivity.
Qed.
Lemma bracket_equal scale s a : 0 < scale -> 0 < mass2 s a -> bracket scale s a a = ln (mass2 s a / scale ^ 2) - cwconst s + 3 / 2.
Proof.
  intros P H. unfold bracket, fbase. destruct (Req_EM_T (mass2 s a) 0); [lra|]. replace (mass2 s a - mass2 s a) with 0 by ring. rewrite Rabs_R0.
  destruct (Rlt_dec (1 / 100000) 0); [lra|]. unfold LogM, lnopt. destruct (Req_EM_T (mass2 s a) 0); [lra|]. destruct (Rlt_dec 0 (mass2 s a)); [|lra]. cbn [option_map].
  assert (Q : 0 < scale ^ 2) by (apply pow_lt; exact P). assert (E : ln (mass2 s a / scale ^ 2) = ln (mass2 s a) - ln (scale ^ 2)) by (unfold Rdiv; rewrite ln_mult, ln_Rinv by (try apply Rinv_0_lt_compat; lra); ring).
  rewrite E. replace (scale ^ 2) with (scale * scale) by ring. rewrite ln_mult by exact P. lra.
Qed.

(** * one state *)
Section State.
  Variables scale m d e c : R.
  Definition Mt (t : R) : R := m + d * t + e * t ^ 2 / 2.
  Definition Lt (t : R) : R := ln (Mt t / scale ^ 2) - c + 1 / 2.
  Definition G (n : nat) (t : R) : R :=
    match n with
    | 0%nat => Mt t ^ 2 * (ln (Mt t / scale ^ 2) - c) / 2
    | 1%nat => (d + e * t) * Mt t * Lt t
    | 2%nat => e * Mt t * Lt t + (d + e * t) ^ 2 * (Lt t + 1)
    | 3%nat => 3 * (d + e * t) * e * (Lt t + 1) + (d + e * t) ^ 3 / Mt t
    | _ => 3 * e ^ 2 * (Lt t + 1) + 6 * (d + e * t) ^ 2 * e / Mt t - (d + e * t) ^ 4 / Mt t ^ 2
    end.
  Lemma G_derive n t : 0 < scale -> (n < 4)%nat -> 0 < Mt t -> is_derive (G n) t (G (S n) t).
  Proof.
    intros P N M. assert (Q : 0 < scale ^ 2) by (apply pow_lt; exact P). assert (Rp : 0 < Mt t / scale ^ 2) by (apply Rdiv_lt_0_compat; assumption).
    assert (DM : is_derive Mt t (d + e * t)) by (unfold Mt; auto_derive; [trivial|field]).
    assert (DL : is_derive Lt t ((d + e * t) / Mt t)).
    { unfold Lt. apply (is_derive_ext (fun t => ln (Mt t / scale ^ 2) + (1 / 2 - c))); [intros; change (@eq R (ln (Mt t0 / scale ^ 2) + (1 / 2 - c)) (ln (Mt t0 / scale ^ 2) - c + 1 / 2)); ring|].
      evar_last; [apply @is_derive_plus; [apply (is_derive_comp ln (fun t => Mt t / scale ^ 2)); [apply is_derive_ln; exact Rp|apply (is_derive_scal_l Mt t (d + e * t) (/ scale ^ 2)); exact DM]|apply @is_derive_const]|].
      change (@eq R ((d + e * t) * / scale ^ 2 * / (Mt t / scale ^ 2) + 0) ((d + e * t) / Mt t)). field. split; lra. }
    assert (XM : ex_derive Mt t) by (eexists; exact DM). assert (XL : ex_derive Lt t) by (eexists; exact DL).
    pose proof (is_derive_unique _ _ _ DM) as UM. pose proof (is_derive_unique _ _ _ DL) as UL.
    change (Derive (fun x => Mt x) t = d + e * t) in UM. change (Derive (fun x => Lt x) t = (d + e * t) / Mt t) in UL.
    destruct n as [|n].
    { apply (is_derive_ext (fun t => Mt t ^ 2 * (Lt t - 1 / 2) / 2)); [intros x; unfold G, Lt; change (@eq R (Mt x ^ 2 * (ln (Mt x / scale ^ 2) - c + 1 / 2 - 1 / 2) / 2) (Mt x ^ 2 * (ln (Mt x / scale ^ 2) - c) / 2)); field|].
      unfold G. auto_derive; [tauto|]. rewrite UM, UL. field. lra. }
    do 3 (destruct n as [|n]; [unfold G; auto_derive; [repeat split; try assumption; lra|rewrite ?UM, ?UL; field; lra]|]). lia.
  Qed.
End State.

(** * sums over the states *)
Definition positive (s : sector) (d e : nat -> R) : Prop :=
  forall a, (a < size s)%nat -> 0 < mass2 s a \/ (mass2 s a = 0 /\ d a = 0 /\ e a = 0).
Lemma massive_positive s d e : massive_or_decoupled s d e -> positive s d e.
Proof. intros H a A. destruct (H a A) as [B|B]; [left; rewrite fifth in B; lra|right; exact B]. Qed.
Section Sum.
  Variable scale : R.
  Hypothesis P : 0 < scale.
  Notation entry := (sector * (nat -> R) * (nat -> R))%type.
  Definition term (n : nat) (t : R) (x : entry) : R :=
    let '(s, d, e) := x in factor s * rsum (size s) (fun a => G scale (mass2 s a) (d a) (e a) (cwconst s) n t).
  Definition Vn (L : list entry) (n : nat) (t : R) : R := / (16 * PI ^ 2) * fold_right Rplus 0 (map (term n t) L).
  Definition fine (t : R) (x : entry) : Prop :=
    let '(s, d, e) := x in forall a, (a < size s)%nat -> 0 < Mt (mass2 s a) (d a) (e a) t \/ (mass2 s a = 0 /\ d a = 0 /\ e a = 0).
  Lemma near_one m d e : 0 < m -> locally 0 (fun t => 0 < Mt m d e t).
  Proof.
    intros M. assert (Cn : continuous (Mt m d e) 0) by (apply (ex_derive_continuous (Mt m d e) 0); unfold Mt; auto_derive; trivial).
    apply (Cn (fun y => 0 < y)). apply (open_gt 0). unfold Mt. lra.
  Qed.
  Lemma near_sector s d e : positive s d e -> locally 0 (fun t => fine t (s, d, e)).
  Proof.
    intros H. unfold fine. unfold positive in H. generalize dependent H. generalize (size s) as k. induction k as [|k IH]; intros H.
    - apply filter_forall. intros x a A. lia.
    - assert (A1 := IH (fun a A => H a (Nat.lt_lt_succ_r _ _ A))). assert (A2 : locally 0 (fun t => 0 < Mt (mass2 s k) (d k) (e k) t \/ (mass2 s k = 0 /\ d k = 0 /\ e k = 0))).
      { destruct (H k (Nat.lt_succ_diag_r k)) as [B|B]; [|apply filter_forall; intros x; right; exact B].
        apply (filter_imp (fun t => 0 < Mt (mass2 s k) (d k) (e k) t)); [intros x X; left; exact X|]. apply near_one. lra. }
      generalize (filter_and _ _ A1 A2). apply filter_imp. intros t [T1 T2] a A. destruct (Nat.eq_dec a k) as [-> |D]; [exact T2|apply T1; lia].
  Qed.
  Lemma near L : (forall s d e, In (s, d, e) L -> positive s d e) -> locally 0 (fun t => forall x, In x L -> fine t x).
  Proof.
    induction L as [|[[s d] e] L IH]; intros H; [apply filter_forall; intros t x []|].
    assert (A1 := IH (fun s' d' e' I => H s' d' e' (or_intror I))). assert (A2 := near_sector s d e (H s d e (or_introl eq_refl))).
    generalize (filter_and _ _ A1 A2). apply filter_imp. intros t [T1 T2] x [<- |I]; [exact T2|apply T1; exact I].
  Qed.
  Lemma G_decoupled c n t : G scale 0 0 0 c n t = 0.
  Proof. assert (M : Mt 0 0 0 t = 0) by (unfold Mt; field). do 4 (destruct n as [|n]; [unfold G; rewrite ?M; unfold Rdiv; ring|]). unfold G. rewrite M. unfold Rdiv. ring. Qed.
  Lemma rsum_derive k (f f' : nat -> R -> R) t : (forall a, (a < k)%nat -> is_derive (f a) t (f' a t)) -> is_derive (fun t => rsum k (fun a => f a t)) t (rsum k (fun a => f' a t)).
  Proof.
    induction k as [|k IH]; intros H; cbn [rsum]; [apply @is_derive_const|]. apply @is_derive_plus; [apply IH; intros; apply H; lia|apply H; lia].
  Qed.
  Lemma term_derive n t x : (n < 4)%nat -> fine t x -> is_derive (fun t => term n t x) t (term (S n) t x).
  Proof.
    destruct x as [[s d] e]. intros N F. unfold term. apply (is_derive_scal (fun t => rsum (size s) (fun a => G scale (mass2 s a) (d a) (e a) (cwconst s) n t))).
    apply (rsum_derive (size s) (fun a => G scale (mass2 s a) (d a) (e a) (cwconst s) n) (fun a => G scale (mass2 s a) (d a) (e a) (cwconst s) (S n))). intros a A.
    destruct (F a A) as [M|[E1 [E2 E3]]]; [apply G_derive; assumption|]. rewrite E1, E2, E3, G_decoupled.
    apply (is_derive_ext (fun _ => 0)); [intros; symmetry; apply G_decoupled|apply @is_derive_const].
  Qed.
  Lemma Vn_derive L n t : (n < 4)%nat -> (forall x, In x L -> fine t x) -> is_derive (Vn L n) t (Vn L (S n) t).
  Proof.
    intros N F. unfold Vn. apply (is_derive_scal (fun t => fold_right Rplus 0 (map (term n t) L))). induction L as [|x L IH]; cbn [map fold_right]; [apply @is_derive_const|].
    apply @is_derive_plus; [apply term_derive; [exact N|apply F; left; reflexivity]|apply IH; intros; apply F; right; assumption].
  Qed.
  Lemma Vn_chain L : (forall s d e, In (s, d, e) L -> positive s d e) -> forall n, (n <= 4)%nat -> locally 0 (fun t => Derive_n (Vn L 0) n t = Vn L n t).
  Proof.
    intros H. induction n as [|n IH]; intros N; [apply filter_forall; reflexivity|].
    assert (A1 := locally_locally 0 _ (IH ltac:(lia))). assert (A2 := near L H). generalize (filter_and _ _ A1 A2). apply filter_imp. intros t [T1 T2]. cbn [Derive_n].
    rewrite (Derive_ext_loc _ (Vn L n) t T1). apply is_derive_unique. apply Vn_derive; [lia|exact T2].
  Qed.
  Lemma one_loop_Vn L t : one_loop scale L t = Vn L 0 t.
  Proof.
    unfold one_loop, Vn. f_equal. induction L as [|[[s d] e] L IH]; [reflexivity|]. cbn [map fold_right]. rewrite IH. f_equal. unfold term, Rdiv. rewrite Rmult_assoc. f_equal. rewrite <- rsum_scal.
    apply rsum_ext. intros a A. unfold G, mass2_at, Mt, Rdiv. ring.
  Qed.
  Lemma nth_derivative L n : (forall s d e, In (s, d, e) L -> positive s d e) -> (n < 4)%nat -> is_derive_n (one_loop scale L) (S n) 0 (Vn L (S n) 0).
  Proof.
    intros H N. apply (is_derive_n_ext (Vn L 0)); [intros; symmetry; apply one_loop_Vn|]. cbn [is_derive_n].
    apply (is_derive_ext_loc (Vn L n)).
    - generalize (Vn_chain L H n ltac:(lia)). apply filter_imp. intros t T. symmetry. exact T.
    - apply Vn_derive; [exact N|]. exact (locally_singleton _ _ (near L H)).
  Qed.
End Sum.
