(** Binomial coefficients and Bernstein polynomials. *)
From Coq Require Import ZArith Reals Lra Lia List Arith Bool.
From Verif.Model Require Import Action.
From Verif.Spec Require Import NumDerivSpec ActionSpec.
From Verif.Proofs Require Import DerivLib.
Import ListNotations.

Section Ints.
  Local Open Scope Z_scope.
  Lemma choose_0 n : choose n 0 = 1. Proof. now destruct n. Qed.
  Lemma choose_big n : forall k, (n < k)%nat -> choose n k = 0.
  Proof. induction n as [|n IH]; intros k Hk; (destruct k as [|k]; [lia|]); cbn; [reflexivity|]. rewrite !IH by lia. reflexivity. Qed.
  Lemma choose_nn n : choose n n = 1.
  Proof. induction n as [|n IH]; cbn; [reflexivity|]. rewrite IH, choose_big by lia. reflexivity. Qed.
  Lemma choose_pos n : forall k, (k <= n)%nat -> 0 < choose n k.
  Proof.
    induction n as [|n IH]; intros k Hk; destruct k as [|k]; cbn; try lia.
    destruct (Nat.eq_dec k n) as [->|N]; [rewrite choose_nn, choose_big by lia; lia|]. pose proof (IH k ltac:(lia)). pose proof (IH (S k) ltac:(lia)). lia.
  Qed.
  Lemma absorb n : forall k, Z.of_nat (S k) * choose (S n) (S k) = Z.of_nat (S n) * choose n k.
  Proof.
    induction n as [|n IH]; intro k.
    - destruct k as [|k]; [reflexivity|]. cbn. lia.
    - destruct k as [|k].
      + change (choose (S (S n)) 1) with (choose (S n) 0 + choose (S n) 1). specialize (IH 0%nat). rewrite !choose_0 in *. lia.
      + change (choose (S (S n)) (S (S k))) with (choose (S n) (S k) + choose (S n) (S (S k))). pose proof (IH k) as A. pose proof (IH (S k)) as B.
        change (choose (S n) (S k)) with (choose n k + choose n (S k)) in *. nia.
  Qed.
  Lemma choose_next n k : Z.of_nat (S k) * choose n (S k) = (Z.of_nat n - Z.of_nat k) * choose n k.
  Proof. pose proof (absorb n k) as A. change (choose (S n) (S k)) with (choose n k + choose n (S k)) in A. nia. Qed.
  Lemma choose_sym n : forall k, (k <= n)%nat -> choose n (n - k) = choose n k.
  Proof.
    induction n as [|n IH]; intros k Hk; [now replace k with 0%nat by lia|].
    destruct k as [|k]; [rewrite Nat.sub_0_r, choose_nn; reflexivity|]. cbn [Nat.sub]. destruct (Nat.eq_dec k n) as [->|N].
    - rewrite Nat.sub_diag, choose_0, choose_nn. reflexivity.
    - replace (n - k)%nat with (S (n - S k)) by lia. cbn [choose]. rewrite IH by lia. replace (S (n - S k)) with (n - k)%nat by lia. rewrite IH by lia. ring.
  Qed.

  Lemma i32_small z : 0 <= z < 2147483648 -> i32 z = z.
  Proof. intro H. unfold i32. rewrite Z.mod_small by lia. destruct (Z.ltb_spec z 2147483648); lia. Qed.
  Lemma u64_small z : 0 <= z < 18446744073709551616 -> u64 z = z.
  Proof. intro H. unfold u64. now apply Z.mod_small. Qed.

  Definition no_overflow (n m : nat) : Prop := forall i, (i <= m)%nat -> Z.of_nat i * choose n i < 2147483648.
  Lemma step_ok n i : (1 <= i <= n)%nat -> Z.of_nat n < 2147483648 -> Z.of_nat i * choose n i < 2147483648 ->
    choose_step (Z.of_nat n) (choose n (i - 1)) (Z.of_nat i) = choose n i.
  Proof.
    intros Hi Hn Ho. destruct i as [|k]; [lia|]. replace (S k - 1)%nat with k by lia.
    pose proof (choose_pos n k ltac:(lia)) as P. pose proof (choose_pos n (S k) ltac:(lia)) as Q. pose proof (choose_next n k) as E.
    assert (B1 : choose n k * (Z.of_nat n - Z.of_nat (S k) + 1) = Z.of_nat (S k) * choose n (S k)) by lia.
    assert (B2 : choose n k < 2147483648) by nia. assert (B3 : choose n (S k) <= Z.of_nat (S k) * choose n (S k)) by nia.
    assert (B4 : 0 <= Z.of_nat (S k) * choose n (S k)) by lia. set (q := Z.of_nat (S k) * choose n (S k)) in *.
    unfold choose_step. rewrite (u64_small (choose n k)) by lia. rewrite (u64_small (Z.of_nat n - Z.of_nat (S k) + 1)) by lia. rewrite B1.
    rewrite (u64_small q), (i32_small q), (u64_small q) by lia. unfold q.
    rewrite Z.mul_comm, Z.div_mul by lia. apply i32_small. lia.
  Qed.
  Lemma loop_ok n m cnt : forall i, (2 <= i)%nat -> (i + cnt = m + 1)%nat -> (m <= n)%nat -> Z.of_nat n < 2147483648 -> no_overflow n m ->
    choose_loop (Z.of_nat n) (Z.of_nat i) cnt (choose n (i - 1)) = choose n m.
  Proof.
    induction cnt as [|cnt IH]; intros i Hi He Hm Hn Ho; cbn [choose_loop].
    - f_equal. lia.
    - rewrite step_ok; [|lia|exact Hn|apply Ho; lia]. replace (Z.of_nat i + 1) with (Z.of_nat (S i)) by lia.
      replace (choose n i) with (choose n (S i - 1)) by (f_equal; lia). apply IH; auto; lia.
  Qed.
  Lemma nChoosek_exact n k : (k <= n)%nat -> Z.of_nat n < 2147483648 -> no_overflow n (Nat.min k (n - k)) -> nChoosek (Z.of_nat n) (Z.of_nat k) = choose n k.
  Proof.
    intros Hk Hn Ho. unfold nChoosek. destruct (Z.gtb_spec (Z.of_nat k) (Z.of_nat n)); [lia|].
    cbv zeta. assert (E2 : u32 (Z.of_nat k * 2) = Z.of_nat k * 2) by (unfold u32; apply Z.mod_small; lia). rewrite E2.
    assert (Em : (if Z.of_nat k * 2 >? Z.of_nat n then Z.of_nat n - Z.of_nat k else Z.of_nat k) = Z.of_nat (Nat.min k (n - k))).
    { destruct (Z.gtb_spec (Z.of_nat k * 2) (Z.of_nat n)); lia. }
    rewrite Em. set (m := Nat.min k (n - k)) in *.
    assert (Es : choose n m = choose n k). { unfold m. destruct (Nat.min_spec k (n - k)) as [(L & ->)|(L & ->)]; [reflexivity|]. apply choose_sym. exact Hk. }
    destruct (Z.eqb_spec (Z.of_nat m) 0) as [Z0|NZ].
    - rewrite <- Es. replace m with 0%nat by lia. now rewrite choose_0.
    - replace (i32 (Z.of_nat n)) with (choose n (2 - 1)).
      2:{ rewrite i32_small by lia. pose proof (choose_next n 0) as E. rewrite choose_0 in E. cbn [Nat.sub]. lia. }
      pose proof (loop_ok n m (Z.to_nat (Z.of_nat m - 1)) 2 ltac:(lia) ltac:(lia) ltac:(lia) Hn Ho) as LK. change (Z.of_nat 2) with 2 in LK. rewrite LK, Es.
      unfold u32. apply Z.mod_small. pose proof (choose_pos n k Hk). pose proof (Ho m ltac:(lia)) as B. rewrite Es in B. nia.
  Qed.
  (** rows of the triangle, to evaluate it quickly *)
  Fixpoint next_row (p : Z) (l : list Z) : list Z := match l with [] => [p] | a :: r => (p + a) :: next_row a r end.
  Fixpoint row (n : nat) : list Z := match n with O => [1] | S m => next_row 0 (row m) end.
  Lemma nth_next l : forall p k, nth k (next_row p l) 0 = nth k (p :: l) 0 + nth k l 0.
  Proof.
    induction l as [|a r IH]; intros p k; cbn [next_row].
    - destruct k as [|[|k]]; cbn; lia.
    - destruct k as [|k]; [cbn; lia|]. cbn [nth]. rewrite IH. reflexivity.
  Qed.
  Lemma row_choose n : forall k, nth k (row n) 0 = choose n k.
  Proof.
    induction n as [|n IH]; intro k; cbn [row].
    - destruct k as [|[|k]]; reflexivity.
    - rewrite nth_next. destruct k as [|k]; cbn [nth choose]; [rewrite IH, choose_0; reflexivity|]. now rewrite !IH.
  Qed.
  Lemma small_no_overflow n m : (n <= 29)%nat -> no_overflow n m.
  Proof.
    intros Hn i _. destruct (le_lt_dec i n) as [L|L]; [|rewrite choose_big by exact L; lia].
    assert (T : forallb (fun n => forallb (fun i => Z.of_nat i * nth i (row n) 0 <? 2147483648) (seq 0 (S n))) (seq 0 30) = true) by (vm_compute; reflexivity).
    rewrite forallb_forall in T. specialize (T n ltac:(apply in_seq; lia)). rewrite forallb_forall in T. specialize (T i ltac:(apply in_seq; lia)).
    rewrite row_choose in T. now apply Z.ltb_lt in T.
  Qed.
  Lemma nChoosek_small n k : (n <= 29)%nat -> nChoosek (Z.of_nat n) (Z.of_nat k) = choose n k.
  Proof.
    intro Hn. destruct (le_lt_dec k n) as [L|L]; [apply nChoosek_exact; [exact L|lia|now apply small_no_overflow]|].
    rewrite choose_big by exact L. unfold nChoosek. destruct (Z.gtb_spec (Z.of_nat k) (Z.of_nat n)); lia.
  Qed.
End Ints.

Local Open Scope R_scope.
Definition bern (n k : nat) (x : R) : R := IZR (choose n k) * x ^ k * (1 - x) ^ (n - k).
Lemma Bernstein_in n k x : (n <= 29)%nat -> (k <= n)%nat -> Bernstein (Z.of_nat n) (Z.of_nat k) x = bern n k x.
Proof.
  intros Hn Hk. unfold Bernstein, bern. destruct (Z.ltb_spec (Z.of_nat k) 0); [lia|]. destruct (Z.gtb_spec (Z.of_nat k) (Z.of_nat n)); [lia|]. cbn [orb].
  rewrite nChoosek_small by exact Hn. rewrite Nat2Z.id. do 2 f_equal. lia.
Qed.
Lemma Bernstein_out n nu x : (nu < 0 \/ n < nu)%Z -> Bernstein n nu x = 0.
Proof. intro H. unfold Bernstein. destruct (Z.ltb_spec nu 0); [reflexivity|]. destruct (Z.gtb_spec nu n); [reflexivity|lia]. Qed.

Lemma choose_C n : forall k, (k <= n)%nat -> IZR (choose n k) = C n k.
Proof.
  induction n as [|n IH]; intros k Hk.
  - replace k with 0%nat by lia. unfold C. cbn. lra.
  - destruct k as [|k].
    + unfold C. rewrite Nat.sub_0_r, choose_0. change (fact 0) with 1%nat. change (INR 1) with 1. field. apply INR_fact_neq_0.
    + change (choose (S n) (S k)) with (choose n k + choose n (S k))%Z. rewrite plus_IZR. destruct (Nat.eq_dec k n) as [->|N].
      * rewrite choose_nn, choose_big by lia. unfold C. rewrite Nat.sub_diag. change (fact 0) with 1%nat. change (INR 1) with 1. field. apply INR_fact_neq_0.
      * rewrite (IH k), (IH (S k)) by lia. apply pascal. lia.
Qed.
Lemma sum_upto_f f n : sum_upto f n = sum_f_R0 f n.
Proof. induction n as [|n IH]; cbn; [reflexivity|now rewrite IH]. Qed.
Lemma sum_upto_ext f g n : (forall k, (k <= n)%nat -> f k = g k) -> sum_upto f n = sum_upto g n.
Proof. intro H. induction n as [|n IH]; cbn; [now apply H|]. rewrite IH by (intros; apply H; lia). now rewrite H by lia. Qed.
Lemma bern_sum n x : sum_upto (fun k => bern n k x) n = 1.
Proof.
  rewrite sum_upto_f. transitivity ((x + (1 - x)) ^ n); [|replace (x + (1 - x)) with 1 by ring; apply pow1].
  rewrite binomial. apply sum_eq. intros i Hi. unfold bern. now rewrite choose_C by exact Hi.
Qed.
Lemma Bernstein_partition n x : (n <= 29)%nat -> sum_upto (fun k => Bernstein (Z.of_nat n) (Z.of_nat k) x) n = 1.
Proof. intro Hn. rewrite <- (bern_sum n x). apply sum_upto_ext. intros k Hk. now apply Bernstein_in. Qed.
Lemma nChoosek_nonneg n k : (0 <= nChoosek n k)%Z.
Proof.
  unfold nChoosek. destruct (k >? n)%Z; [lia|]. destruct (_ =? 0)%Z; [lia|]. unfold u32. apply Z.mod_pos_bound. lia.
Qed.
Lemma Bernstein_nonneg n nu x : 0 <= x <= 1 -> 0 <= Bernstein n nu x.
Proof.
  intro H. unfold Bernstein. destruct (_ || _); [lra|]. apply Rmult_le_pos; [apply Rmult_le_pos|]; [apply (IZR_le 0); apply nChoosek_nonneg|apply pow_le; lra|apply pow_le; lra].
Qed.
Lemma Bernstein_end n nu : (nu < n)%Z -> Bernstein n nu 1 = 0.
Proof.
  intro H. unfold Bernstein. destruct (_ || _); [reflexivity|]. replace (1 - 1) with 0 by ring.
  destruct (Z.to_nat (n - nu)) eqn:E; [lia|]. rewrite pow_i by lia. ring.
Qed.

(** derivatives *)
Lemma absorb_R n k : INR (S k) * IZR (choose (S n) (S k)) = INR (S n) * IZR (choose n k).
Proof. rewrite !INR_IZR_INZ, <- !mult_IZR. f_equal. apply absorb. Qed.
Lemma next_R n k : (k <= n)%nat -> INR (S n - k) * IZR (choose (S n) k) = INR (S n) * IZR (choose n k).
Proof.
  intro Hk. rewrite !INR_IZR_INZ, <- !mult_IZR. f_equal. pose proof (choose_next (S n) k) as A. pose proof (absorb n k) as B.
  rewrite Nat2Z.inj_sub by lia. lia.
Qed.
Definition bernz (n : nat) (k : Z) (x : R) : R := if (k <? 0)%Z then 0 else if (Z.of_nat n <? k)%Z then 0 else bern n (Z.to_nat k) x.
Lemma Bernstein_z n k x : (n <= 29)%nat -> Bernstein (Z.of_nat n) k x = bernz n k x.
Proof.
  intro Hn. unfold bernz. destruct (Z.ltb_spec k 0); [apply Bernstein_out; lia|]. destruct (Z.ltb_spec (Z.of_nat n) k); [apply Bernstein_out; lia|].
  rewrite <- Bernstein_in by lia. now rewrite Z2Nat.id by lia.
Qed.
Lemma dl_bern n k x : (k <= S n)%nat -> dl (bern (S n) k) x (INR (S n) * (bernz n (Z.of_nat k - 1) x - bernz n (Z.of_nat k) x)).
Proof.
  intro Hk. unfold bern.
  assert (D : dl (fun u => IZR (choose (S n) k) * u ^ k * (1 - u) ^ (S n - k)) x
      (IZR (choose (S n) k) * (INR k * x ^ (k - 1)) * (1 - x) ^ (S n - k) - IZR (choose (S n) k) * x ^ k * (INR (S n - k) * (1 - x) ^ (S n - k - 1)))).
  { eapply dl_eq; [dlauto|]. rewrite <- !Nat.sub_1_r. ring. }
  refine (dl_eq _ _ _ _ D _). unfold bernz, bern.
  assert (A : (if (Z.of_nat k - 1 <? 0)%Z then 0 else if (Z.of_nat n <? Z.of_nat k - 1)%Z then 0 else
      IZR (choose n (Z.to_nat (Z.of_nat k - 1))) * x ^ Z.to_nat (Z.of_nat k - 1) * (1 - x) ^ (n - Z.to_nat (Z.of_nat k - 1))) * INR (S n) =
      INR k * IZR (choose (S n) k) * x ^ (k - 1) * (1 - x) ^ (S n - k)).
  { destruct k as [|k]; [cbn; ring|]. destruct (Z.ltb_spec (Z.of_nat (S k) - 1) 0); [lia|]. destruct (Z.ltb_spec (Z.of_nat n) (Z.of_nat (S k) - 1)); [lia|].
    replace (Z.to_nat (Z.of_nat (S k) - 1)) with k by lia. rewrite absorb_R. replace (S k - 1)%nat with k by lia. cbn [Nat.sub]. ring. }
  assert (B : (if (Z.of_nat k <? 0)%Z then 0 else if (Z.of_nat n <? Z.of_nat k)%Z then 0 else
      IZR (choose n (Z.to_nat (Z.of_nat k))) * x ^ Z.to_nat (Z.of_nat k) * (1 - x) ^ (n - Z.to_nat (Z.of_nat k))) * INR (S n) =
      INR (S n - k) * IZR (choose (S n) k) * x ^ k * (1 - x) ^ (S n - k - 1)).
  { rewrite Nat2Z.id. destruct (Z.ltb_spec (Z.of_nat k) 0); [lia|]. destruct (Z.ltb_spec (Z.of_nat n) (Z.of_nat k)).
    - replace (S n - k)%nat with 0%nat by lia. cbn [INR]. ring.
    - rewrite next_R by lia. replace (S n - k - 1)%nat with (n - k)%nat by lia. ring. }
  lra.
Qed.
Lemma dl_bernz n k x : dl (bernz (S n) k) x (INR (S n) * (bernz n (k - 1) x - bernz n k x)).
Proof.
  destruct (Z_lt_le_dec k 0) as [L|L].
  - apply (dl_ext (fun _ => 0)); [intro; unfold bernz; destruct (Z.ltb_spec k 0); [reflexivity|lia]|].
    eapply dl_eq; [dlauto|]. unfold bernz. destruct (Z.ltb_spec k 0); [|lia]. destruct (Z.ltb_spec (k - 1) 0); [|lia]. ring.
  - destruct (Z_lt_le_dec (Z.of_nat (S n)) k) as [G|G].
    + apply (dl_ext (fun _ => 0)); [intro; unfold bernz; destruct (Z.ltb_spec k 0); [reflexivity|]; destruct (Z.ltb_spec (Z.of_nat (S n)) k); [reflexivity|lia]|].
      eapply dl_eq; [dlauto|]. unfold bernz. destruct (Z.ltb_spec k 0); [lia|]. destruct (Z.ltb_spec (k - 1) 0); [lia|].
      destruct (Z.ltb_spec (Z.of_nat n) (k - 1)); [|lia]. destruct (Z.ltb_spec (Z.of_nat n) k); [|lia]. ring.
    + replace k with (Z.of_nat (Z.to_nat k)) by lia. apply (dl_ext (bern (S n) (Z.to_nat k))).
      * intro u. unfold bernz. destruct (Z.ltb_spec (Z.of_nat (Z.to_nat k)) 0); [lia|]. destruct (Z.ltb_spec (Z.of_nat (S n)) (Z.of_nat (Z.to_nat k))); [lia|]. now rewrite Nat2Z.id.
      * apply dl_bern. lia.
Qed.

Lemma acc_below_ext f g n : (forall k, (k < n)%nat -> f k = g k) -> acc_below f n = acc_below g n.
Proof. induction n as [|n IH]; intro H; cbn; [reflexivity|]. rewrite IH by (intros; apply H; lia). now rewrite H by lia. Qed.
Lemma dl_acc (f : R -> nat -> R) (f' : nat -> R) x n : (forall k, (k < n)%nat -> dl (fun u => f u k) x (f' k)) -> dl (fun u => acc_below (f u) n) x (acc_below f' n).
Proof.
  induction n as [|n IH]; intro H; cbn; [apply dl_const|]. apply dl_plus; [apply IH; intros; apply H; lia|apply H; lia].
Qed.

Lemma smooth_derivative deg coef l0 lf t : (deg <= 29)%nat -> l0 < lf ->
  derivable_pt_lim (fun u => smooth_phi deg coef ((u - l0) / (lf - l0))) t (smooth_dphi deg coef (lf - l0) ((t - l0) / (lf - l0))).
Proof.
  intros Hd Hl. destruct deg as [|n]; [cbn; apply derivable_pt_lim_const|].
  unfold smooth_phi, smooth_dphi.
  apply (dl_acc (fun u b => Bernstein (Z.of_nat (S n)) (Z.of_nat b) ((u - l0) / (lf - l0)) * coef b)). intros k Hk.
  replace (Z.of_nat (S n) - 1)%Z with (Z.of_nat n) by lia. rewrite !(Bernstein_z n) by lia.
  apply (dl_ext (fun u => bernz (S n) (Z.of_nat k) ((u - l0) / (lf - l0)) * coef k)); [intro; now rewrite Bernstein_z by lia|].
  eapply dl_eq; [apply dl_mult; [apply (dl_comp (fun u => (u - l0) / (lf - l0)) (bernz (S n) (Z.of_nat k))); [dlauto; lra|apply dl_bernz]|dlauto]|]. cbv beta. field. lra.
Qed.
Lemma smooth_derivative2 deg coef l0 lf t : (deg <= 29)%nat -> l0 < lf ->
  derivable_pt_lim (fun u => smooth_dphi deg coef (lf - l0) ((u - l0) / (lf - l0))) t (smooth_d2phi deg coef (lf - l0) ((t - l0) / (lf - l0))).
Proof.
  intros Hd Hl. destruct deg as [|n]; [cbn; apply derivable_pt_lim_const|].
  unfold smooth_dphi, smooth_d2phi.
  apply (dl_acc (fun u b => INR (S n) * (Bernstein (Z.of_nat (S n) - 1) (Z.of_nat b - 1) ((u - l0) / (lf - l0)) - Bernstein (Z.of_nat (S n) - 1) (Z.of_nat b) ((u - l0) / (lf - l0))) * coef b / (lf - l0))).
  intros k Hk. destruct n as [|n].
  { replace k with 0%nat by lia. cbn [Z.of_nat]. change (Z.of_nat 1 - 1)%Z with (Z.of_nat 0).
    apply (dl_ext (fun u => INR 1 * (0 - 1) * coef 0%nat / (lf - l0))).
    - intro u. rewrite !(Bernstein_z 0) by lia. unfold bernz, bern. change (Z.of_nat 0) with 0%Z. change (0 - 1)%Z with (-1)%Z. cbn [Z.ltb Z.compare Z.to_nat pow Nat.sub choose INR].
      change R1 with 1. change (IZR 1) with 1. f_equal. ring.
    - eapply dl_eq; [dlauto; lra|]. cbn. field. lra. }
  replace (Z.of_nat (S (S n)) - 1)%Z with (Z.of_nat (S n)) by lia. replace (Z.of_nat (S (S n)) - 2)%Z with (Z.of_nat n) by lia.
  rewrite !(Bernstein_z n) by lia.
  apply (dl_ext (fun u => INR (S (S n)) * (bernz (S n) (Z.of_nat k - 1) ((u - l0) / (lf - l0)) - bernz (S n) (Z.of_nat k) ((u - l0) / (lf - l0))) * coef k / (lf - l0)));
    [intro; now rewrite !(Bernstein_z (S n)) by lia|].
  assert (D : forall j, dl (fun u => bernz (S n) j ((u - l0) / (lf - l0))) t (INR (S n) * (bernz n (j - 1) ((t - l0) / (lf - l0)) - bernz n j ((t - l0) / (lf - l0))) * (1 / (lf - l0)))).
  { intro j. eapply dl_eq; [apply (dl_comp (fun u => (u - l0) / (lf - l0)) (bernz (S n) j)); [dlauto; lra|apply dl_bernz]|]. cbv beta. field. lra. }
  eapply dl_eq.
  - apply dl_div; [apply dl_mult; [apply dl_mult; [apply dl_const|apply dl_minus; apply D]|apply dl_const]|apply dl_const|lra].
  - cbv beta. replace (Z.of_nat k - 1 - 1)%Z with (Z.of_nat k - 2)%Z by lia. rewrite (S_INR (S n)). field. lra.
Qed.
Lemma smooth_end deg coef : smooth_phi deg coef 1 = 0.
Proof.
  unfold smooth_phi. assert (H : forall n, (n <= deg)%nat -> acc_below (fun b => Bernstein (Z.of_nat deg) (Z.of_nat b) 1 * coef b) n = 0).
  { induction n as [|n IH]; intro Hn; cbn [acc_below]; [reflexivity|]. rewrite IH, Bernstein_end by lia. ring. }
  apply H. lia.
Qed.
