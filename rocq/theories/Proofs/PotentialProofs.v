(** Potentials, their derivatives, vev conversion. *)
From Coq Require Import Reals Lra Lia ZArith List.
From Verif.Model Require Import Base Potential.
From Verif.Spec Require Import NumDerivSpec PotentialSpec.
From Verif.Proofs Require Import DerivLib NumDerivProofs.
Import ListNotations.
Open Scope R_scope.

Lemma accum_sum n body g : (forall k r, (k < n)%nat -> body k r = r + g k) -> forall acc, accum n body acc = acc + sumR n g.
Proof.
  intro H. unfold accum. induction n as [|n IH]; intro acc; [cbn; lra|].
  rewrite seq_S, fold_left_app. cbn [fold_left sumR plus]. rewrite IH by (intros; apply H; lia). rewrite H by lia. lra.
Qed.
Lemma sumR_mult_r n f c : sumR n (fun i => f i * c) = sumR n f * c.
Proof. rewrite Rmult_comm, <- sumR_scal. apply sumR_ext. intros. ring. Qed.
Lemma sumR_zero n f : (forall i, (i < n)%nat -> f i = 0) -> sumR n f = 0.
Proof. induction n as [|n IH]; intro H; [reflexivity|]. cbn. rewrite IH, H; auto. lra. Qed.
Lemma sumR_swap n m f : sumR n (fun i => sumR m (fun j => f i j)) = sumR m (fun j => sumR n (fun i => f i j)).
Proof.
  induction n as [|n IH]; cbn [sumR].
  - symmetry. apply sumR_zero. reflexivity.
  - rewrite IH, <- sumR_plus. reflexivity.
Qed.
Lemma dl_sumR n (F : nat -> R -> R) D x : (forall k, (k < n)%nat -> dl (F k) x (D k)) ->
  dl (fun y => sumR n (fun k => F k y)) x (sumR n D).
Proof.
  induction n as [|n IH]; intro H; cbn [sumR]; [apply dl_const|]. apply dl_plus; [apply IH; auto|apply H; lia].
Qed.

Section Pot.
  Variable n : nat.
  Variables (L1 : nat -> R) (L2 : nat -> nat -> R) (L3 : nat -> nat -> nat -> R) (L4 : nat -> nat -> nat -> nat -> R).
  Notation V4 := (quartic n L1 L2 L3 L4).
  Definition G4 v i j k := / 24 * sumR n (fun l => L4 i j k l * (v i * v j * v k * v l)).
  Definition G3 v i j := sumR n (fun k => / 6 * (L3 i j k * (v i * v j * v k)) + G4 v i j k).
  Definition G2 v i := sumR n (fun j => / 2 * (L2 i j * (v i * v j)) + G3 v i j).
  Lemma quartic_nested v : V4 v = sumR n (fun i => L1 i * v i + G2 v i).
  Proof.
    unfold quartic. rewrite sumR_plus. unfold G2.
    rewrite (sumR_ext n (fun i => sumR n (fun j => / 2 * (L2 i j * (v i * v j)) + G3 v i j))
      (fun i => / 2 * sumR n (fun j => L2 i j * (v i * v j)) + sumR n (fun j => G3 v i j)))
      by (intros; rewrite sumR_plus, sumR_scal; reflexivity).
    rewrite sumR_plus, sumR_scal. unfold G3.
    rewrite (sumR_ext n (fun i => sumR n (fun j => sumR n (fun k => / 6 * (L3 i j k * (v i * v j * v k)) + G4 v i j k)))
      (fun i => / 6 * sumR n (fun j => sumR n (fun k => L3 i j k * (v i * v j * v k))) + sumR n (fun j => sumR n (fun k => G4 v i j k)))).
    2:{ intros i _. rewrite <- sumR_scal, <- sumR_plus. apply sumR_ext. intros j _. now rewrite sumR_plus, sumR_scal. }
    rewrite sumR_plus, sumR_scal. unfold G4.
    rewrite (sumR_ext n (fun i => sumR n (fun j => sumR n (fun k => / 24 * sumR n (fun l => L4 i j k l * (v i * v j * v k * v l)))))
      (fun i => / 24 * sumR n (fun j => sumR n (fun k => sumR n (fun l => L4 i j k l * (v i * v j * v k * v l)))))).
    2:{ intros i _. rewrite <- sumR_scal. apply sumR_ext. intros j _. now rewrite sumR_scal. }
    rewrite sumR_scal. ring.
  Qed.
  Lemma inner_l v i j k : forall r,
    accum n (fun l res => res + 1.0 / 6.0 * L4 i j k l * v j * v k * v l) r = r + sumR n (fun l => / 6 * (L4 i j k l * (v j * v k * v l))).
  Proof. apply accum_sum. intros. lra. Qed.
  Lemma VT_l v i j k : forall r,
    accum n (fun l res => res + 1.0 / 24.0 * L4 i j k l * v i * v j * v k * v l) r = r + G4 v i j k.
  Proof. intro r. rewrite (accum_sum n _ (fun l => / 24 * (L4 i j k l * (v i * v j * v k * v l)))) by (intros; lra). unfold G4. now rewrite sumR_scal. Qed.
  Lemma VT_k v i j : forall r,
    accum n (fun k res => let res := res + 1.0 / 6.0 * L3 i j k * v i * v j * v k in
       accum n (fun l res => res + 1.0 / 24.0 * L4 i j k l * v i * v j * v k * v l) res) r = r + G3 v i j.
  Proof. intro r. apply accum_sum. intros k r0 _. cbv zeta. rewrite VT_l. lra. Qed.
  Lemma G_zero v i : v i = 0 -> (forall j k, G4 v i j k = 0) /\ (forall j, G3 v i j = 0) /\ G2 v i = 0.
  Proof.
    intro Z. assert (A4 : forall j k, G4 v i j k = 0).
    { intros. unfold G4. rewrite sumR_zero; [ring|]. intros. rewrite Z. ring. }
    assert (A3 : forall j, G3 v i j = 0). { intros. unfold G3. apply sumR_zero. intros. rewrite A4, Z. ring. }
    split; [exact A4|]. split; [exact A3|]. unfold G2. apply sumR_zero. intros. rewrite A3, Z. ring.
  Qed.
  Lemma G3_zero v i j : v j = 0 -> G3 v i j = 0.
  Proof.
    intro Z. unfold G3. apply sumR_zero. intros k _. unfold G4. rewrite sumR_zero; [rewrite Z; ring|]. intros. rewrite Z. ring.
  Qed.
  Lemma CT_quartic v : CT_value n L1 L2 L3 L4 v = V4 v.
  Proof.
    rewrite quartic_nested. unfold CT_value. rewrite (accum_sum n _ (fun i => L1 i * v i + G2 v i)); [ring|].
    intros i r _. cbv zeta. rewrite (accum_sum n _ (fun j => / 2 * (L2 i j * (v i * v j)) + G3 v i j)).
    - unfold G2. ring.
    - intros j r0 _. rewrite VT_k. lra.
  Qed.
  Lemma VTree_quartic v : VTree_value n L1 L2 L3 L4 v = V4 v.
  Proof.
    rewrite quartic_nested. unfold VTree_value. rewrite (accum_sum n _ (fun i => L1 i * v i + G2 v i)); [ring|].
    intros i r _. destruct (Req_EM_T (v i) 0) as [Z|NZ].
    - destruct (G_zero v i Z) as (_ & _ & ->). rewrite Z. ring.
    - cbv zeta. rewrite (accum_sum n _ (fun j => / 2 * (L2 i j * (v i * v j)) + G3 v i j)).
      + unfold G2. ring.
      + intros j r0 _. destruct (Req_EM_T (v j) 0) as [Z|NZ2].
        * rewrite G3_zero, Z by exact Z. ring.
        * rewrite VT_k. lra.
  Qed.

  (** gradient and Hessian as sums *)
  Definition grad v i : R := L1 i + sumR n (fun j => L2 i j * v j) + / 2 * sumR n (fun j => sumR n (fun k => L3 i j k * (v j * v k)))
    + / 6 * sumR n (fun j => sumR n (fun k => sumR n (fun l => L4 i j k l * (v j * v k * v l)))).
  Definition hess v i j : R := L2 i j + sumR n (fun k => L3 i j k * v k) + / 2 * sumR n (fun k => sumR n (fun l => L4 i j k l * (v k * v l))).
  Definition third v i j m : R := L3 i j m + sumR n (fun k => L4 i j m k * v k).
  Lemma gradient_sum v i : gradient_component n L1 L2 L3 L4 v i = grad v i.
  Proof.
    unfold gradient_component. rewrite (accum_sum n _ (fun j => L2 i j * v j + sumR n (fun k => / 2 * (L3 i j k * (v j * v k)) + sumR n (fun l => / 6 * (L4 i j k l * (v j * v k * v l)))))).
    - rewrite sumR_plus. unfold grad.
      rewrite (sumR_ext n (fun j => sumR n (fun k => / 2 * (L3 i j k * (v j * v k)) + sumR n (fun l => / 6 * (L4 i j k l * (v j * v k * v l)))))
        (fun j => / 2 * sumR n (fun k => L3 i j k * (v j * v k)) + / 6 * sumR n (fun k => sumR n (fun l => L4 i j k l * (v j * v k * v l))))).
      + rewrite sumR_plus, !sumR_scal. ring.
      + intros j _. rewrite sumR_plus, sumR_scal. f_equal. rewrite <- sumR_scal. apply sumR_ext. intros. now rewrite sumR_scal.
    - intros j r _. cbv zeta. rewrite (accum_sum n _ (fun k => / 2 * (L3 i j k * (v j * v k)) + sumR n (fun l => / 6 * (L4 i j k l * (v j * v k * v l))))).
      + ring.
      + intros k r0 _. rewrite inner_l. lra.
  Qed.
  Lemma hessian_sum v i j : Potential.hessian_entry n L2 L3 L4 v i j = hess v i j.
  Proof.
    unfold Potential.hessian_entry. rewrite (accum_sum n _ (fun k => L3 i j k * v k + / 2 * sumR n (fun l => L4 i j k l * (v k * v l)))).
    - rewrite sumR_plus, sumR_scal. unfold hess. ring.
    - intros k r _. cbv zeta. rewrite (accum_sum n _ (fun l => / 2 * (L4 i j k l * (v k * v l)))) by (intros; lra). rewrite sumR_scal. ring.
  Qed.

  (** moving one component *)
  Variables (v : nat -> R) (m : nat).
  Hypothesis Hm : (m < n)%nat.
  Notation e k := (if Nat.eq_dec k m then 1 else 0).
  Definition u (t : R) (k : nat) : R := if Nat.eq_dec k m then t else v k.
  Lemma u_at : forall k, u (v m) k = v k.
  Proof. intro k. unfold u. destruct (Nat.eq_dec k m); congruence. Qed.
  Lemma du k x : dl (fun t => u t k) x (e k).
  Proof. unfold u. destruct (Nat.eq_dec k m); [apply dl_id|apply dl_const]. Qed.
  Lemma pick f : sumR n (fun k => f k * e k) = f m.
  Proof. rewrite (sumR_single n f m 1 Hm). ring. Qed.
  Lemma du2 i j : dl (fun t => u t i * u t j) (v m) (e i * v j + v i * e j).
  Proof. eapply dl_eq; [apply dl_mult; apply du|]. cbv beta. now rewrite !u_at. Qed.
  Lemma du3 i j k : dl (fun t => u t i * u t j * u t k) (v m) ((e i * v j + v i * e j) * v k + v i * v j * e k).
  Proof. eapply dl_eq; [apply dl_mult; [apply du2|apply du]|]. cbv beta. now rewrite !u_at. Qed.
  Lemma du4 i j k l : dl (fun t => u t i * u t j * u t k * u t l) (v m)
    (((e i * v j + v i * e j) * v k + v i * v j * e k) * v l + v i * v j * v k * e l).
  Proof. eapply dl_eq; [apply dl_mult; [apply du3|apply du]|]. cbv beta. now rewrite !u_at. Qed.
  Lemma dl_scal_const c f x d : dl f x d -> dl (fun t => c * f t) x (c * d).
  Proof. intro D. eapply dl_eq; [apply dl_mult; [apply dl_const|exact D]|]. cbv beta. ring. Qed.

  Hypothesis S2 : sym2 n L2.
  Hypothesis S3 : sym3 n L3.
  Hypothesis S4 : sym4 n L4.

  Lemma d_linear (a : nat -> R) : dl (fun t => sumR n (fun i => a i * u t i)) (v m) (a m).
  Proof.
    eapply dl_eq; [apply dl_sumR; intros i _; apply dl_scal_const, du|]. cbv beta. apply pick.
  Qed.
  Lemma d_quadratic (a : nat -> nat -> R) : (forall i j, (i < n)%nat -> (j < n)%nat -> a i j = a j i) ->
    dl (fun t => sumR n (fun i => sumR n (fun j => a i j * (u t i * u t j)))) (v m) (2 * sumR n (fun j => a m j * v j)).
  Proof.
    intro SA. eapply dl_eq; [apply dl_sumR; intros i _; apply dl_sumR; intros j _; apply dl_scal_const, du2|]. cbv beta.
    rewrite (sumR_ext n _ (fun i => sumR n (fun j => a i j * v j) * e i + (a i m * v i))).
    - rewrite sumR_plus, pick. rewrite (sumR_ext n (fun i => a i m * v i) (fun j => a m j * v j)) by (intros; rewrite SA by assumption; reflexivity). ring.
    - intros i _. rewrite (sumR_ext n _ (fun j => a i j * v j * e i + a i j * v i * e j)) by (intros; ring).
      rewrite sumR_plus, pick, sumR_mult_r. reflexivity.
  Qed.
  Lemma d_cubic (a : nat -> nat -> nat -> R) : sym3 n a ->
    dl (fun t => sumR n (fun i => sumR n (fun j => sumR n (fun k => a i j k * (u t i * u t j * u t k))))) (v m)
      (3 * sumR n (fun j => sumR n (fun k => a m j k * (v j * v k)))).
  Proof.
    intro SA. eapply dl_eq; [apply dl_sumR; intros i _; apply dl_sumR; intros j _; apply dl_sumR; intros k _; apply dl_scal_const, du3|]. cbv beta.
    rewrite (sumR_ext n _ (fun i => sumR n (fun j => sumR n (fun k => a i j k * (v j * v k))) * e i
        + (sumR n (fun k => a i m k * (v i * v k)) + sumR n (fun j => a i j m * (v i * v j))))).
    - rewrite !sumR_plus, pick.
      rewrite (sumR_ext n (fun i => sumR n (fun k => a i m k * (v i * v k))) (fun j => sumR n (fun k => a m j k * (v j * v k))))
        by (intros i Hi; apply sumR_ext; intros k Hk; destruct (SA i m k Hi Hm Hk) as [-> _]; reflexivity).
      rewrite (sumR_ext n (fun i => sumR n (fun j => a i j m * (v i * v j))) (fun j => sumR n (fun k => a m j k * (v j * v k)))).
      + ring.
      + intros i Hi. apply sumR_ext. intros j Hj. destruct (SA i j m Hi Hj Hm) as [_ ->]. destruct (SA i m j Hi Hm Hj) as [-> _]. reflexivity.
    - intros i _.
      rewrite (sumR_ext n _ (fun j => (sumR n (fun k => a i j k * (v j * v k)) * e i + sumR n (fun k => a i j k * (v i * v k)) * e j) + a i j m * (v i * v j))).
      + rewrite !sumR_plus, pick, sumR_mult_r. ring.
      + intros j _. rewrite (sumR_ext n _ (fun k => (a i j k * (v j * v k) * e i + a i j k * (v i * v k) * e j) + a i j k * (v i * v j) * e k)) by (intros; ring).
        rewrite !sumR_plus, pick, !sumR_mult_r. reflexivity.
  Qed.
  Lemma d_quartic (a : nat -> nat -> nat -> nat -> R) : sym4 n a ->
    dl (fun t => sumR n (fun i => sumR n (fun j => sumR n (fun k => sumR n (fun l => a i j k l * (u t i * u t j * u t k * u t l)))))) (v m)
      (4 * sumR n (fun j => sumR n (fun k => sumR n (fun l => a m j k l * (v j * v k * v l))))).
  Proof.
    intro SA. eapply dl_eq; [apply dl_sumR; intros i _; apply dl_sumR; intros j _; apply dl_sumR; intros k _; apply dl_sumR; intros l _; apply dl_scal_const, du4|]. cbv beta.
    pose (Q := sumR n (fun j => sumR n (fun k => sumR n (fun l => a m j k l * (v j * v k * v l))))).
    assert (A1 : forall i j k l, (i < n)%nat -> (j < n)%nat -> (k < n)%nat -> (l < n)%nat -> a i j k l = a j i k l) by (intros; apply SA; auto).
    assert (A2 : forall i j k l, (i < n)%nat -> (j < n)%nat -> (k < n)%nat -> (l < n)%nat -> a i j k l = a i k j l) by (intros; apply SA; auto).
    assert (A3 : forall i j k l, (i < n)%nat -> (j < n)%nat -> (k < n)%nat -> (l < n)%nat -> a i j k l = a i j l k) by (intros; apply SA; auto).
    rewrite (sumR_ext n _ (fun i => sumR n (fun j => sumR n (fun k => sumR n (fun l => a i j k l * (v j * v k * v l)))) * e i
        + (sumR n (fun k => sumR n (fun l => a i m k l * (v i * v k * v l))) + (sumR n (fun j => sumR n (fun l => a i j m l * (v i * v j * v l)))
           + sumR n (fun j => sumR n (fun k => a i j k m * (v i * v j * v k))))))).
    - rewrite !sumR_plus, pick.
      rewrite (sumR_ext n (fun i => sumR n (fun k => sumR n (fun l => a i m k l * (v i * v k * v l)))) (fun j => sumR n (fun k => sumR n (fun l => a m j k l * (v j * v k * v l)))))
        by (intros i Hi; apply sumR_ext; intros k Hk; apply sumR_ext; intros l Hl; rewrite (A1 i m k l) by assumption; reflexivity).
      rewrite (sumR_ext n (fun i => sumR n (fun j => sumR n (fun l => a i j m l * (v i * v j * v l)))) (fun j => sumR n (fun k => sumR n (fun l => a m j k l * (v j * v k * v l)))))
        by (intros i Hi; apply sumR_ext; intros k Hk; apply sumR_ext; intros l Hl; rewrite (A2 i k m l), (A1 i m k l) by assumption; reflexivity).
      rewrite (sumR_ext n (fun i => sumR n (fun j => sumR n (fun k => a i j k m * (v i * v j * v k)))) (fun j => sumR n (fun k => sumR n (fun l => a m j k l * (v j * v k * v l)))))
        by (intros i Hi; apply sumR_ext; intros k Hk; apply sumR_ext; intros l Hl; rewrite (A3 i k l m), (A2 i k m l), (A1 i m k l) by assumption; reflexivity).
      fold Q. ring.
    - intros i _.
      rewrite (sumR_ext n _ (fun j => ((sumR n (fun k => sumR n (fun l => a i j k l * (v j * v k * v l))) * e i + sumR n (fun k => sumR n (fun l => a i j k l * (v i * v k * v l))) * e j)
          + sumR n (fun l => a i j m l * (v i * v j * v l))) + sumR n (fun k => a i j k m * (v i * v j * v k)))).
      + rewrite !sumR_plus, pick, sumR_mult_r. ring.
      + intros j _.
        rewrite (sumR_ext n _ (fun k => ((sumR n (fun l => a i j k l * (v j * v k * v l)) * e i + sumR n (fun l => a i j k l * (v i * v k * v l)) * e j)
          + sumR n (fun l => a i j k l * (v i * v j * v l)) * e k) + a i j k m * (v i * v j * v k))).
        * rewrite !sumR_plus, pick, !sumR_mult_r. ring.
        * intros k _.
          rewrite (sumR_ext n _ (fun l => ((a i j k l * (v j * v k * v l) * e i + a i j k l * (v i * v k * v l) * e j) + a i j k l * (v i * v j * v l) * e k) + a i j k l * (v i * v j * v k) * e l)) by (intros; ring).
          rewrite !sumR_plus, pick, !sumR_mult_r. reflexivity.
  Qed.
  Lemma quartic_derivative : dl (fun t => V4 (u t)) (v m) (grad v m).
  Proof.
    unfold quartic. eapply dl_eq.
    - apply dl_plus; [apply dl_plus; [apply dl_plus|]|].
      + apply d_linear.
      + apply dl_scal_const, d_quadratic. exact S2.
      + apply dl_scal_const, d_cubic. exact S3.
      + apply dl_scal_const, d_quartic. exact S4.
    - unfold grad. field.
  Qed.
  Lemma grad_derivative i : (i < n)%nat -> dl (fun t => grad (u t) i) (v m) (hess v i m).
  Proof.
    intro Hi. unfold grad. eapply dl_eq.
    - apply dl_plus; [apply dl_plus; [apply dl_plus; [apply dl_const|]|]|].
      + apply d_linear.
      + apply dl_scal_const, d_quadratic. intros j k Hj Hk. now apply S3.
      + apply dl_scal_const, d_cubic. intros j k l Hj Hk Hl. split; now apply S4.
    - unfold hess. field.
  Qed.
  Lemma hess_derivative i j : (i < n)%nat -> (j < n)%nat -> dl (fun t => hess (u t) i j) (v m) (third v i j m).
  Proof.
    intros Hi Hj. unfold hess. eapply dl_eq.
    - apply dl_plus; [apply dl_plus; [apply dl_const|]|].
      + apply d_linear.
      + apply dl_scal_const, d_quadratic. intros k l Hk Hl. now apply S4.
    - unfold third. field.
  Qed.
  Lemma hess_sym i j : (i < n)%nat -> (j < n)%nat -> hess v i j = hess v j i.
  Proof.
    intros Hi Hj. unfold hess. rewrite (S2 i j Hi Hj).
    rewrite (sumR_ext n (fun k => L3 i j k * v k) (fun k => L3 j i k * v k)) by (intros k Hk; destruct (S3 i j k Hi Hj Hk) as [-> _]; reflexivity).
    rewrite (sumR_ext n (fun k => sumR n (fun l => L4 i j k l * (v k * v l))) (fun k => sumR n (fun l => L4 j i k l * (v k * v l))))
      by (intros k Hk; apply sumR_ext; intros l Hl; destruct (S4 i j k l Hi Hj Hk Hl) as [-> _]; reflexivity).
    reflexivity.
  Qed.
End Pot.
