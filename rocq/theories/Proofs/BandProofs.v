(** The band solver solves its system. *)
From Coq Require Import Reals Lra Lia List Arith Bool.
From Verif.Model Require Import Spline.
From Verif.Spec Require Import NumDerivSpec.
From Verif.Proofs Require Import NumDerivProofs PotentialProofs.
Import ListNotations.
Local Open Scope R_scope.

(** matrix with zeros outside the band *)
Definition full (A : band) (i j : nat) : R := if in_band A i j then ent A i j else 0.
Definition same_shape (A B : band) : Prop := bdim A = bdim B /\ num_upper A = num_upper B /\ num_lower A = num_lower B.

Lemma same_shape_refl A : same_shape A A. Proof. repeat split. Qed.
Lemma same_shape_trans A B C : same_shape A B -> same_shape B C -> same_shape A C.
Proof. intros (a & b & c) (d & e & f). repeat split; congruence. Qed.
Lemma in_band_shape A B i j : same_shape A B -> in_band A i j = in_band B i j.
Proof. intros (a & b & c). unfold in_band. now rewrite a, b, c. Qed.
Lemma in_band_true A i j : in_band A i j = true <-> (i < bdim A /\ j < bdim A /\ j <= i + num_upper A /\ i <= j + num_lower A)%nat.
Proof. unfold in_band. rewrite !andb_true_iff, !Nat.ltb_lt, !Nat.leb_le. tauto. Qed.

Lemma get_full A i j : in_band A i j = true -> get A i j = Some (full A i j).
Proof. intro H. unfold get, full. now rewrite H. Qed.
Lemma put_full A i j a : in_band A i j = true -> exists B, put A i j a = Some B /\ same_shape A B /\ saved_diag B = saved_diag A /\
  forall r c, full B r c = if Nat.eqb r i && Nat.eqb c j then a else full A r c.
Proof.
  intro H. unfold put. rewrite H. eexists. split; [reflexivity|]. split; [repeat split|]. split; [reflexivity|]. intros r c. unfold full.
  rewrite <- (in_band_shape A) by (repeat split). cbn. destruct (Nat.eqb_spec r i) as [->|]; cbn [andb]; [|reflexivity].
  destruct (Nat.eqb_spec c j) as [->|]; [now rewrite H|reflexivity].
Qed.

(** loops: a function of the state described pointwise *)
Lemma loop_inv {St} (body : nat -> St -> option St) (P : nat -> St -> Prop) a cnt s :
  P a s -> (forall i s, (a <= i < a + cnt)%nat -> P i s -> exists s', body i s = Some s' /\ P (S i) s') ->
  exists s', loop body a cnt s = Some s' /\ P (a + cnt)%nat s'.
Proof.
  revert a s. induction cnt as [|cnt IH]; intros a s H0 H; cbn [loop].
  - exists s. rewrite Nat.add_0_r. auto.
  - destruct (H a s) as (s1 & E & H1); [lia|exact H0|]. rewrite E. cbn [bindo].
    destruct (IH (S a) s1 H1) as (s2 & E2 & H2); [intros i s' Hi; apply H; lia|].
    exists s2. split; [exact E2|]. now replace (a + S cnt)%nat with (S a + cnt)%nat by lia.
Qed.

(** ** normalisation *)
Lemma norm_row A i : (i < bdim A)%nat -> full A i i <> 0 ->
  exists B, normalise_row i A = Some B /\ same_shape A B /\ (forall r, saved_diag B r = if Nat.eqb r i then 1 / full A i i else saved_diag A r) /\
    forall r c, full B r c = if Nat.eqb r i then full A r c / full A i i else full A r c.
Proof.
  intros Hi D. unfold normalise_row. rewrite get_full by (apply in_band_true; lia). cbn [bindo].
  destruct (Req_EM_T (full A i i) 0) as [|_]; [contradiction|].
  set (d := full A i i) in *. set (A1 := set_diag A i (1 / d)).
  assert (F1 : forall r c, full A1 r c = full A r c) by reflexivity.
  assert (S1 : same_shape A A1) by (repeat split).
  assert (D1 : saved_diag A1 i = 1 / d) by (cbn; unfold updf; now rewrite Nat.eqb_refl).
  set (jmin := (i - num_lower A1)%nat). set (jmax := Nat.min (bdim A1 - 1) (i + num_upper A1)).
  destruct (loop_inv (fun j B => bindo (get B i j) (fun v => put B i j (v * saved_diag B i)))
    (fun j B => same_shape A B /\ saved_diag B = saved_diag A1 /\
       forall r c, full B r c = if Nat.eqb r i && Nat.leb jmin c && Nat.ltb c j then full A r c / d else full A r c) jmin (jmax + 1 - jmin) A1)
    as (B & E & SB & DB & FB).
  - split; [exact S1|]. split; [reflexivity|]. intros r c. rewrite F1. destruct (Nat.leb_spec jmin c); destruct (Nat.ltb_spec c jmin); try lia; rewrite ?andb_false_r; reflexivity.
  - intros j B Hj (SB & DB & FB).
    assert (IB : in_band B i j = true). { rewrite <- (in_band_shape _ _ i j SB). apply in_band_true. unfold jmin, jmax in Hj. cbn in Hj. lia. }
    rewrite get_full by exact IB. cbn [bindo]. destruct (put_full B i j (full B i j * saved_diag B i) IB) as (C & E & SC & DC & FC).
    exists C. split; [exact E|]. split; [eapply same_shape_trans; eauto|]. split; [congruence|]. intros r c. rewrite FC.
    destruct (Nat.eqb_spec r i) as [->|N]; cbn [andb].
    + destruct (Nat.eqb_spec c j) as [->|N].
      * rewrite FB, DB, D1, Nat.eqb_refl. cbn [andb]. destruct (Nat.leb_spec jmin j); [|lia].
        destruct (Nat.ltb_spec j j); [lia|]. destruct (Nat.ltb_spec j (S j)); [|lia]. cbn [andb]. unfold Rdiv. ring.
      * rewrite FB, Nat.eqb_refl. cbn [andb]. destruct (Nat.leb_spec jmin c); cbn [andb]; [|reflexivity].
        destruct (Nat.ltb_spec c j), (Nat.ltb_spec c (S j)); try lia; reflexivity.
    + rewrite FB. destruct (Nat.eqb_spec r i); [contradiction|]. reflexivity.
  - rewrite E. cbn [bindo].
    assert (IB : in_band B i i = true) by (rewrite <- (in_band_shape _ _ i i SB); apply in_band_true; lia).
    destruct (put_full B i i 1 IB) as (C & EC & SC & DC & FC). exists C. split; [exact EC|]. split; [eapply same_shape_trans; eauto|].
    split. { intro r. rewrite DC, DB. reflexivity. }
    intros r c. rewrite FC. destruct (Nat.eqb_spec r i) as [->|N]; cbn [andb].
    + destruct (Nat.eqb_spec c i) as [->|N]; [fold d; field; exact D|]. rewrite FB, Nat.eqb_refl. cbn [andb].
      destruct (Nat.leb_spec jmin c); destruct (Nat.ltb_spec c (jmin + (jmax + 1 - jmin))); cbn [andb]; try reflexivity;
      (assert (Z : full A i c = 0); [unfold full; replace (in_band A i c) with false; [reflexivity|]; symmetry; apply not_true_iff_false; rewrite in_band_true; unfold jmin, jmax in *; cbn in *; lia|rewrite Z; unfold Rdiv; ring]).
    + rewrite FB. destruct (Nat.eqb_spec r i); [contradiction|]. reflexivity.
Qed.

Lemma normalise A : (forall i, (i < bdim A)%nat -> full A i i <> 0) ->
  exists B, loop normalise_row 0 (bdim A) A = Some B /\ same_shape A B /\ (forall r, (r < bdim A)%nat -> saved_diag B r = 1 / full A r r) /\
    forall r c, (r < bdim A)%nat -> full B r c = full A r c / full A r r.
Proof.
  intro D.
  destruct (loop_inv normalise_row (fun i B => same_shape A B /\ (forall r, (r < i)%nat -> saved_diag B r = 1 / full A r r) /\
    forall r c, full B r c = if Nat.ltb r i then full A r c / full A r r else full A r c) 0 (bdim A) A) as (B & E & SB & DB & FB).
  - split; [repeat split|]. split; [lia|]. reflexivity.
  - intros i B Hi (SB & DB & FB). assert (Fii : full B i i = full A i i) by (rewrite FB; destruct (Nat.ltb_spec i i); [lia|reflexivity]).
    destruct (norm_row B i) as (C & E & SC & DC & FC); [destruct SB as (<- & _); lia|rewrite Fii; apply D; lia|].
    exists C. split; [exact E|]. split; [eapply same_shape_trans; eauto|]. split.
    + intros r Hr. rewrite DC. destruct (Nat.eqb_spec r i) as [->|N]; [now rewrite Fii|apply DB; lia].
    + intros r c. rewrite FC, FB. destruct (Nat.eqb_spec r i) as [->|N].
      * destruct (Nat.ltb_spec i i); [lia|]. destruct (Nat.ltb_spec i (S i)); [|lia]. now rewrite Fii.
      * destruct (Nat.ltb_spec r i), (Nat.ltb_spec r (S i)); try lia; reflexivity.
  - exists B. split; [exact E|]. split; [exact SB|]. split; [intros; apply DB; lia|]. intros r c Hr. rewrite FB. destruct (Nat.ltb_spec r (0 + bdim A)); [reflexivity|lia].
Qed.

(** ** elimination *)
(** one elimination step on full matrices *)
Definition estep (k : nat) (M : nat -> nat -> R) (i j : nat) : R :=
  if Nat.ltb k i then if Nat.eqb j k then M i k / M k k else if Nat.ltb k j then M i j - M i k / M k k * M k j else M i j else M i j.
Fixpoint elim (k : nat) (M : nat -> nat -> R) : nat -> nat -> R := match k with O => M | S k => estep k (elim k M) end.

Lemma elim_row A k i : (k < i)%nat -> (i < bdim A)%nat -> (i <= k + num_lower A)%nat -> full A k k <> 0 ->
  exists B, eliminate_row k i A = Some B /\ same_shape A B /\ saved_diag B = saved_diag A /\
    forall r c, full B r c = if Nat.eqb r i then estep k (full A) r c else full A r c.
Proof.
  intros K I L P. unfold eliminate_row. rewrite get_full by (apply in_band_true; lia). cbn [bindo].
  destruct (Req_EM_T (full A k k) 0) as [|_]; [contradiction|]. rewrite get_full by (apply in_band_true; lia). cbn [bindo].
  set (p := full A k k) in *. set (q := full A i k).
  assert (IK : in_band A i k = true) by (apply in_band_true; lia).
  destruct (put_full A i k (- (- q / p)) IK) as (A1 & E1 & S1 & D1 & F1). rewrite E1. cbn [bindo].
  destruct (loop_inv (fun j B => bindo (get B i j) (fun a => bindo (get B k j) (fun b => put B i j (a + - q / p * b))))
    (fun j B => same_shape A B /\ saved_diag B = saved_diag A /\
       forall r c, full B r c = if Nat.eqb r i && Nat.ltb c j then estep k (full A) r c else full A r c)
    (k + 1) (Nat.min (bdim A1 - 1) (k + num_upper A1) - k) A1) as (B & E & SB & DB & FB).
  - split; [exact S1|]. split; [exact D1|]. intros r c. rewrite F1. destruct (Nat.eqb_spec r i) as [->|N]; cbn [andb]; [|reflexivity].
    unfold estep. destruct (Nat.ltb_spec k i); [|lia].
    destruct (Nat.eqb_spec c k) as [->|N].
    + destruct (Nat.ltb_spec k (k + 1)); [|lia]. fold q p. field. exact P.
    + destruct (Nat.ltb_spec c (k + 1)); [|reflexivity]. destruct (Nat.ltb_spec k c); [lia|reflexivity].
  - intros j B Hj (SB & DB & FB). destruct S1 as (X1 & X2 & X3). rewrite <- X1, <- X2 in Hj.
    assert (IB : in_band B i j = true) by (rewrite <- (in_band_shape _ _ i j SB); apply in_band_true; lia).
    assert (KB : in_band B k j = true) by (rewrite <- (in_band_shape _ _ k j SB); apply in_band_true; lia).
    rewrite (get_full B i j IB). cbn [bindo]. rewrite (get_full B k j KB). cbn [bindo].
    destruct (put_full B i j (full B i j + - q / p * full B k j) IB) as (C & EC & SC & DC & FC).
    exists C. split; [exact EC|]. split; [eapply same_shape_trans; eauto|]. split; [congruence|]. intros r c. rewrite FC.
    destruct (Nat.eqb_spec r i) as [->|N]; cbn [andb].
    + destruct (Nat.eqb_spec c j) as [->|N].
      * destruct (Nat.ltb_spec j (S j)); [|lia]. rewrite !FB, Nat.eqb_refl. cbn [andb]. destruct (Nat.ltb_spec j j); [lia|].
        destruct (Nat.eqb_spec k i); [lia|]. cbn [andb]. unfold estep. destruct (Nat.ltb_spec k i); [|lia]. destruct (Nat.eqb_spec j k); [lia|].
        destruct (Nat.ltb_spec k j); [|lia]. fold q p. field. exact P.
      * rewrite FB, Nat.eqb_refl. cbn [andb]. destruct (Nat.ltb_spec c j), (Nat.ltb_spec c (S j)); try lia; reflexivity.
    + rewrite FB. destruct (Nat.eqb_spec r i); [contradiction|]. reflexivity.
  - exists B. split; [exact E|]. split; [exact SB|]. split; [exact DB|]. intros r c. rewrite FB. destruct (Nat.eqb_spec r i) as [->|N]; cbn [andb]; [|reflexivity].
    destruct S1 as (X1 & X2 & X3). rewrite <- X1, <- X2.
    destruct (Nat.ltb_spec c (k + 1 + (Nat.min (bdim A - 1) (k + num_upper A) - k))) as [|G]; [reflexivity|].
    unfold estep. destruct (Nat.ltb_spec k i); [|lia]. destruct (Nat.eqb_spec c k); [lia|]. destruct (Nat.ltb_spec k c); [|reflexivity].
    assert (Z : full A k c = 0). { unfold full. replace (in_band A k c) with false; [reflexivity|]. symmetry. apply not_true_iff_false. rewrite in_band_true. lia. }
    rewrite Z. ring.
Qed.

Lemma elim_column A k : (k < bdim A)%nat -> (full A k k <> 0 \/ S k = bdim A) ->
  exists B, eliminate_column k A = Some B /\ same_shape A B /\ saved_diag B = saved_diag A /\
    forall r c, (r < bdim A)%nat -> full B r c = estep k (full A) r c.
Proof.
  intros K P. unfold eliminate_column.
  destruct (loop_inv (eliminate_row k) (fun i B => same_shape A B /\ saved_diag B = saved_diag A /\
    forall r c, full B r c = if Nat.ltb r i then estep k (full A) r c else full A r c)
    (k + 1) (Nat.min (bdim A - 1) (k + num_lower A) - k) A) as (B & E & SB & DB & FB).
  - split; [repeat split|]. split; [reflexivity|]. intros r c. destruct (Nat.ltb_spec r (k + 1)); [|reflexivity]. unfold estep. destruct (Nat.ltb_spec k r); [lia|reflexivity].
  - intros i B Hi (SB & DB & FB). destruct P as [P|P]; [|lia].
    assert (Fk : forall c, full B k c = full A k c). { intro c. rewrite FB. unfold estep. destruct (Nat.ltb_spec k k); [lia|]. now destruct (Nat.ltb k i). }
    destruct (elim_row B k i) as (C & E & SC & DC & FC).
    + lia.
    + destruct SB as (<- & _). lia.
    + destruct SB as (_ & _ & <-). lia.
    + now rewrite Fk.
    + exists C. split; [exact E|]. split; [eapply same_shape_trans; eauto|]. split; [congruence|]. intros r c. rewrite FC.
      destruct (Nat.eqb_spec r i) as [->|N].
      * destruct (Nat.ltb_spec i (S i)); [|lia]. unfold estep. destruct (Nat.ltb_spec k i); [|lia]. rewrite !Fk.
        assert (Fi : forall c, full B i c = full A i c). { intro d. rewrite FB. destruct (Nat.ltb_spec i i); [lia|reflexivity]. }
        now rewrite !Fi.
      * rewrite FB. destruct (Nat.ltb_spec r i), (Nat.ltb_spec r (S i)); try lia; reflexivity.
  - exists B. split; [exact E|]. split; [exact SB|]. split; [exact DB|]. intros r c Hr. rewrite FB.
    destruct (Nat.ltb_spec r (k + 1 + (Nat.min (bdim A - 1) (k + num_lower A) - k))) as [|G]; [reflexivity|].
    unfold estep. destruct (Nat.ltb_spec k r); [|reflexivity].
    assert (Z : full A r k = 0). { unfold full. replace (in_band A r k) with false; [reflexivity|]. symmetry. apply not_true_iff_false. rewrite in_band_true. lia. }
    rewrite Z. destruct (Nat.eqb_spec c k) as [->|N]; [rewrite Z; unfold Rdiv; ring|]. destruct (Nat.ltb k c); [unfold Rdiv; ring|reflexivity].
Qed.

Lemma estep_ext n k M N : (forall i j, (i < n)%nat -> M i j = N i j) -> (k < n)%nat -> forall i j, (i < n)%nat -> estep k M i j = estep k N i j.
Proof. intros E K i j I. unfold estep. now rewrite !E by lia. Qed.

Lemma decompose A M : (forall i, (i < bdim A)%nat -> full A i i <> 0) ->
  (forall i j, (i < bdim A)%nat -> M i j = full A i j / full A i i) ->
  (forall k, (S k < bdim A)%nat -> elim k M k k <> 0) ->
  exists B, lu_decompose A = Some B /\ same_shape A B /\ (forall r, (r < bdim A)%nat -> saved_diag B r = 1 / full A r r) /\
    forall i j, (i < bdim A)%nat -> full B i j = elim (bdim A) M i j.
Proof.
  intros D HM P. unfold lu_decompose. destruct (normalise A D) as (A1 & E1 & S1 & D1 & F1). rewrite E1. cbn [bindo].
  destruct S1 as (X1 & X2 & X3). rewrite <- X1.
  destruct (loop_inv eliminate_column (fun k B => same_shape A B /\ saved_diag B = saved_diag A1 /\ forall i j, (i < bdim A)%nat -> full B i j = elim k M i j) 0 (bdim A) A1)
    as (B & E & SB & DB & FB).
  - split; [repeat split; assumption|]. split; [reflexivity|]. intros i j I. rewrite F1 by exact I. cbn. symmetry. now apply HM.
  - intros k B Hk (SB & DB & FB). destruct SB as (Y1 & Y2 & Y3).
    destruct (elim_column B k) as (C & E & SC & DC & FC); [lia| |].
    + destruct (Nat.eq_dec (S k) (bdim A)) as [Q|Q]; [right; congruence|left]. rewrite FB by lia. apply P. lia.
    + exists C. split; [exact E|]. split; [eapply same_shape_trans; [|exact SC]; repeat split; assumption|]. split; [congruence|].
      intros i j I. rewrite FC by lia. cbn [elim]. apply (estep_ext (bdim A)); [exact FB|lia|exact I].
  - exists B. split; [exact E|]. split; [exact SB|]. split; [intros r Hr; rewrite DB; now apply D1|]. exact FB.
Qed.

(** ** the factors multiply to the matrix *)
Definition Lo (M : nat -> nat -> R) (i m : nat) : R := if Nat.ltb i m then 0 else if Nat.eqb i m then 1 else M i m.
Definition Up (M : nat -> nat -> R) (m j : nat) : R := if Nat.ltb j m then 0 else M m j.

Lemma elim_stable M k k' i j : (k <= k')%nat -> (i < k \/ j < k)%nat -> (i <= k \/ j < k)%nat -> elim k' M i j = elim k M i j.
Proof.
  intros L H _. induction L as [|k' L IH]; [reflexivity|]. cbn [elim]. rewrite <- IH. unfold estep.
  destruct (Nat.ltb_spec k' i); [|reflexivity]. destruct (Nat.eqb_spec j k'); [lia|]. destruct (Nat.ltb_spec k' j); [lia|]. reflexivity.
Qed.

Lemma elim_row_stable M k k' i j : (i <= k)%nat -> (k <= k')%nat -> elim k' M i j = elim k M i j.
Proof.
  intros I L. induction L as [|k' L IH]; [reflexivity|]. cbn [elim]. rewrite <- IH. unfold estep.
  destruct (Nat.ltb_spec k' i); [lia|reflexivity].
Qed.
Lemma elim_col_stable M k k' i j : (j < k)%nat -> (k <= k')%nat -> elim k' M i j = elim k M i j.
Proof.
  intros J L. induction L as [|k' L IH]; [reflexivity|]. cbn [elim]. rewrite <- IH. unfold estep.
  destruct (Nat.ltb_spec k' i); [|reflexivity]. destruct (Nat.eqb_spec j k'); [lia|]. destruct (Nat.ltb_spec k' j); [lia|]. reflexivity.
Qed.

Lemma lu_product n M k : (k <= n)%nat -> (forall m, (S m < n)%nat -> elim m M m m <> 0) ->
  forall i j, (i < n)%nat -> (j < n)%nat ->
  M i j = sumR k (fun m => Lo (elim k M) i m * Up (elim k M) m j) + (if Nat.ltb i k || Nat.ltb j k then 0 else elim k M i j).
Proof.
  intros Hk P. induction k as [|k IH]; intros i j I J.
  - cbn. lra.
  - rewrite (IH ltac:(lia) i j I J). cbn [sumR].
    assert (S1 : sumR k (fun m => Lo (elim (S k) M) i m * Up (elim (S k) M) m j) = sumR k (fun m => Lo (elim k M) i m * Up (elim k M) m j)).
    { apply sumR_ext. intros m Hm. f_equal.
      - unfold Lo. destruct (Nat.ltb i m); [reflexivity|]. destruct (Nat.eqb i m); [reflexivity|]. apply elim_col_stable; lia.
      - unfold Up. destruct (Nat.ltb j m); [reflexivity|]. apply elim_row_stable; lia. }
    rewrite S1. rewrite Rplus_assoc. f_equal.
    unfold Lo, Up. destruct (Nat.ltb_spec i k) as [Ik|Ik].
    + cbn [orb]. destruct (Nat.ltb_spec i (S k)); [|lia]. cbn [orb]. ring.
    + cbn [orb]. destruct (Nat.ltb_spec j k) as [Jk|Jk].
      * destruct (Nat.ltb_spec j (S k)); [|lia]. rewrite orb_true_r. ring.
      * destruct (Nat.eqb_spec i k) as [->|Ni].
        -- destruct (Nat.ltb_spec k (S k)); [|lia]. cbn [orb]. rewrite (elim_row_stable M k (S k) k j) by lia. ring.
        -- destruct (Nat.ltb_spec i (S k)); [lia|]. cbn [orb]. cbn [elim]. unfold estep. destruct (Nat.ltb_spec k i); [|lia]. rewrite Nat.eqb_refl.
           destruct (Nat.ltb_spec k k); [lia|].
           destruct (Nat.ltb_spec j (S k)) as [Q|Q].
           ++ replace j with k by lia. field. apply P. lia.
           ++ destruct (Nat.eqb_spec j k); [lia|]. destruct (Nat.ltb_spec k j); [|lia]. field. apply P. lia.
Qed.

(** ** substitution *)
Lemma sumR_split n m f : (m <= n)%nat -> sumR n f = sumR m f + sumR (n - m) (fun k => f (m + k)%nat).
Proof.
  intro H. induction H as [|n H IH]; [rewrite Nat.sub_diag; cbn; lra|]. cbn [sumR]. rewrite IH. replace (S n - m)%nat with (S (n - m)) by lia. cbn [sumR].
  replace (m + (n - m))%nat with n by lia. lra.
Qed.

Lemma row_sum_ok A i start cnt x : (forall j, (start <= j < start + cnt)%nat -> in_band A i j = true) ->
  row_sum A i start cnt x = Some (sumR cnt (fun k => full A i (start + k) * x (start + k)%nat)).
Proof.
  intro H. unfold row_sum.
  destruct (loop_inv (fun j s => bindo (get A i j) (fun a => Some (s + a * x j)))
    (fun j s => s = sumR (j - start) (fun k => full A i (start + k) * x (start + k)%nat)) start cnt 0) as (s & E & Es).
  - rewrite Nat.sub_diag. reflexivity.
  - intros j s Hj ->. rewrite get_full by (apply H; lia). cbn [bindo]. eexists. split; [reflexivity|].
    replace (S j - start)%nat with (S (j - start)) by lia. cbn [sumR]. now replace (start + (j - start))%nat with j by lia.
  - rewrite E. rewrite Es. now replace (start + cnt - start)%nat with cnt by lia.
Qed.

Lemma not_in_band_zero A i j : ~ (i < bdim A /\ j < bdim A /\ j <= i + num_upper A /\ i <= j + num_lower A)%nat -> full A i j = 0.
Proof. intro H. unfold full. replace (in_band A i j) with false; [reflexivity|]. symmetry. apply not_true_iff_false. now rewrite in_band_true. Qed.

Lemma l_solve_ok A b : exists y, l_solve A b = Some y /\
  forall i, (i < bdim A)%nat -> y i + sumR i (fun j => full A i j * y j) = b i * saved_diag A i.
Proof.
  unfold l_solve.
  match goal with |- context [loop ?f _ _ _] => set (body := f) end.
  destruct (loop_inv body (fun i y => forall r, (r < i)%nat -> y r + sumR r (fun j => full A r j * y j) = b r * saved_diag A r) 0 (bdim A) (fun _ => 0))
    as (y & E & H).
  - intros r Hr. lia.
  - intros i y Hi H. unfold body. rewrite row_sum_ok by (intros j Hj; apply in_band_true; lia). cbn [bindo]. eexists. split; [reflexivity|].
    assert (SS : sumR i (fun j => full A i j * y j) = sumR (i - (i - num_lower A)) (fun k => full A i (i - num_lower A + k) * y (i - num_lower A + k)%nat)).
    { rewrite (sumR_split i (i - num_lower A)) by lia. rewrite sumR_zero; [lra|]. intros j Hj. rewrite not_in_band_zero by lia. ring. }
    intros r Hr. set (v := b i * saved_diag A i - sumR (i - (i - num_lower A)) (fun k => full A i (i - num_lower A + k) * y (i - num_lower A + k)%nat)).
    assert (E : sumR r (fun j => full A r j * updf y i v j) = sumR r (fun j => full A r j * y j)).
    { apply sumR_ext. intros j Hj. unfold updf. destruct (Nat.eqb_spec j i); [lia|reflexivity]. }
    rewrite E. unfold updf. destruct (Nat.eqb_spec r i) as [->|N].
    + rewrite SS. unfold v. ring.
    + apply H. lia.
  - exists y. split; [exact E|]. intros i Hi. apply H. lia.
Qed.

Lemma r_solve_ok A y : (forall i, (i < bdim A)%nat -> full A i i <> 0) -> exists x, r_solve A y = Some x /\
  forall i, (i < bdim A)%nat -> sumR (bdim A - i) (fun k => full A i (i + k) * x (i + k)%nat) = y i.
Proof.
  intro D. unfold r_solve.
  match goal with |- context [loop ?f _ _ _] => set (body := f) end. set (n := bdim A) in *.
  destruct (loop_inv body (fun c x => forall r, (n - c <= r < n)%nat -> sumR (n - r) (fun k => full A r (r + k) * x (r + k)%nat) = y r) 0 n (fun _ => 0))
    as (x & E & H).
  - intros r Hr. lia.
  - intros c x Hc H. set (i := (n - 1 - c)%nat). unfold body. fold n. fold i.
    rewrite row_sum_ok by (intros j Hj; apply in_band_true; fold n; lia). cbn [bindo]. rewrite get_full by (apply in_band_true; fold n; lia). cbn [bindo].
    destruct (Req_EM_T (full A i i) 0) as [Z|_]; [exfalso; revert Z; apply D; lia|]. eexists. split; [reflexivity|].
    set (js := Nat.min (n - 1) (i + num_upper A)). set (s := sumR (js - i) (fun k => full A i (i + 1 + k) * x (i + 1 + k)%nat)).
    intros r Hr. destruct (Nat.eq_dec r i) as [->|N].
    + rewrite (sumR_split (n - i) 1) by lia. cbn [sumR]. rewrite Nat.add_0_r. unfold updf at 1. rewrite Nat.eqb_refl.
      rewrite (sumR_split (n - i - 1) (js - i)) by lia.
      rewrite (sumR_ext (js - i) _ (fun k => full A i (i + 1 + k) * x (i + 1 + k)%nat)).
      2:{ intros k Hk. unfold updf. replace (i + (1 + k))%nat with (i + 1 + k)%nat by lia. destruct (Nat.eqb_spec (i + 1 + k) i); [lia|reflexivity]. }
      fold s. rewrite sumR_zero. 2:{ intros k Hk. rewrite not_in_band_zero by (fold n; lia). ring. }
      field. apply D. lia.
    + rewrite (sumR_ext _ _ (fun k => full A r (r + k) * x (r + k)%nat)).
      2:{ intros k Hk. unfold updf. destruct (Nat.eqb_spec (r + k) i); [lia|reflexivity]. }
      apply H. lia.
  - exists x. split; [exact E|]. intros i Hi. apply H. lia.
Qed.

(** Main result: without zero pivots the solver returns the solution of the system. *)
Lemma lu_solve_ok A M b : (forall i, (i < bdim A)%nat -> full A i i <> 0) ->
  (forall i j, (i < bdim A)%nat -> M i j = full A i j / full A i i) ->
  (forall k, (k < bdim A)%nat -> elim k M k k <> 0) ->
  exists x, lu_solve A b = Some x /\ forall i, (i < bdim A)%nat -> sumR (bdim A) (fun j => full A i j * x j) = b i.
Proof.
  intros D HM P. destruct (decompose A M D HM) as (B & E & SB & DB & FB); [intros; apply P; lia|].
  unfold lu_solve. rewrite E. cbn [bindo]. destruct (l_solve_ok B b) as (y & Ey & Hy). rewrite Ey. cbn [bindo].
  destruct SB as (X1 & X2 & X3). set (n := bdim A) in *.
  destruct (r_solve_ok B y) as (x & Ex & Hx).
  { intros i Hi. rewrite FB by lia. rewrite (elim_row_stable M i n i i) by lia. apply P. lia. }
  rewrite Ex. exists x. split; [reflexivity|]. intros i Hi. rewrite <- X1 in Hy, Hx.
  (* rewrite the rows *)
  assert (HMx : sumR n (fun j => M i j * x j) = b i * (1 / full A i i)).
  { rewrite <- DB by exact Hi. rewrite <- Hy by exact Hi.
    assert (HU : forall m, (m < n)%nat -> sumR n (fun j => Up (elim n M) m j * x j) = y m).
    { intros m Hm. rewrite <- (Hx m Hm). rewrite (sumR_split n m) by lia. rewrite sumR_zero.
      2:{ intros j Hj. unfold Up. destruct (Nat.ltb_spec j m); [ring|lia]. }
      rewrite Rplus_0_l. apply sumR_ext. intros k Hk. unfold Up. destruct (Nat.ltb_spec (m + k) m); [lia|]. now rewrite <- FB by lia. }
    rewrite (sumR_ext n _ (fun j => sumR n (fun m => Lo (elim n M) i m * Up (elim n M) m j * x j))).
    2:{ intros j Hj. rewrite sumR_mult_r. f_equal. rewrite (lu_product n M n (le_n n) ltac:(intros; apply P; lia) i j Hi Hj).
        destruct (Nat.ltb_spec i n); [|lia]. cbn [orb]. ring. }
    rewrite sumR_swap. rewrite (sumR_ext n _ (fun m => Lo (elim n M) i m * y m)).
    2:{ intros m Hm. rewrite <- (HU m Hm), <- sumR_scal. apply sumR_ext. intros. ring. }
    rewrite (sumR_split n (S i)) by lia. cbn [sumR]. rewrite (sumR_zero (n - S i)).
    2:{ intros k Hk. unfold Lo. destruct (Nat.ltb_spec i (S i + k)); [ring|lia]. }
    rewrite (sumR_ext i _ (fun j => full B i j * y j)).
    2:{ intros j Hj. unfold Lo. destruct (Nat.ltb_spec i j); [lia|]. destruct (Nat.eqb_spec i j); [lia|]. now rewrite FB by lia. }
    unfold Lo. destruct (Nat.ltb_spec i i); [lia|]. rewrite Nat.eqb_refl. ring. }
  rewrite (sumR_ext n _ (fun j => full A i i * (M i j * x j))).
  2:{ intros j Hj. rewrite HM by exact Hi. field. now apply D. }
  rewrite sumR_scal, HMx. field. now apply D.
Qed.
