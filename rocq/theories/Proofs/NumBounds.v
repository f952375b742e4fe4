(** Rational bounds for exponentials, logarithms, PI and values of the zeta function. *)
From Coq Require Import Reals Lra Lia Psatz ZArith Machin.
From Verif.Spec Require Import ThermalSpec.
From Verif.Proofs Require Import DerivLib.
Open Scope R_scope.

(** ** exponential *)
Fixpoint rf (n : nat) : R := match n with O => 1 | S n => (INR n + 1) * rf n end.
Lemma rf_pos n : 0 < rf n.
Proof. induction n as [|n IH]; cbn [rf]; [lra|]. apply Rmult_lt_0_compat; [|exact IH]. pose proof (pos_INR n). lra. Qed.
Fixpoint E (n : nat) (y : R) : R := match n with O => 1 | S n' => E n' y + (- y) ^ n / rf n end.
Lemma E_0 n : E n 0 = 1.
Proof.
  induction n as [|n IH]; cbn [E]; [reflexivity|]. rewrite IH, Ropp_0, pow_ne_zero by discriminate. unfold Rdiv. lra.
Qed.
Lemma E_deriv n x : derivable_pt_lim (E (S n)) x (- E n x).
Proof.
  induction n as [|n IH].
  - cbn [E]. apply (dl_ext (fun y => 1 + - y)); [intro y; cbn; field|].
    eapply dl_eq; [apply dl_plus; [apply dl_const|apply dl_opp, dl_id]|]. lra.
  - change (derivable_pt_lim (fun y => E (S n) y + (- y) ^ S (S n) / rf (S (S n))) x (- E (S n) x)).
    eapply dl_eq.
    + apply dl_plus; [exact IH|]. apply (dl_ext (fun y => (- y) ^ S (S n) * / rf (S (S n)))); [reflexivity|].
      apply dl_mult; [apply dl_pow, dl_opp, dl_id|apply dl_const].
    + cbn [pred]. rewrite Rmult_0_r, Rplus_0_r. change (E (S n) x) with (E n x + (- x) ^ S n / rf (S n)).
      change (rf (S (S n))) with ((INR (S n) + 1) * rf (S n)). rewrite (S_INR (S n)).
      pose proof (rf_pos (S n)). pose proof (pos_INR (S n)). field. lra.
Qed.
Lemma nonneg_from_deriv f f' y : 0 <= y -> (forall c, 0 <= c <= y -> derivable_pt_lim f c (f' c)) ->
  (forall c, 0 <= c <= y -> 0 <= f' c) -> f 0 <= f y.
Proof.
  intros Y D P. destruct (Req_dec y 0) as [->|N]; [lra|].
  destruct (MVT_cor2 f f' 0 y ltac:(lra) D) as (c & H & I). specialize (P c ltac:(lra)). nra.
Qed.
Lemma E_bounds : forall k y, 0 <= y -> E (S (2 * k)) y <= exp (- y) <= E (2 * k) y.
Proof.
  assert (X : forall c, derivable_pt_lim (fun z => exp (- z)) c (- exp (- c))).
  { intro c. eapply dl_eq; [apply dl_exp, dl_opp, dl_id|]. lra. }
  assert (lo : forall n, (forall y, 0 <= y -> exp (- y) <= E n y) -> forall y, 0 <= y -> E (S n) y <= exp (- y)).
  { intros n H y Y. assert (Q := nonneg_from_deriv (fun z => exp (- z) - E (S n) z) (fun z => - exp (- z) - - E n z) y Y).
    cbv beta in Q. rewrite E_0, Ropp_0, exp_0 in Q. enough (1 - 1 <= exp (- y) - E (S n) y) by lra. apply Q.
    - intros c _. apply dl_minus; [apply X|apply E_deriv].
    - intros c C. specialize (H c ltac:(lra)). lra. }
  assert (up : forall n, (forall y, 0 <= y -> E n y <= exp (- y)) -> forall y, 0 <= y -> exp (- y) <= E (S n) y).
  { intros n H y Y. assert (Q := nonneg_from_deriv (fun z => E (S n) z - exp (- z)) (fun z => - E n z - - exp (- z)) y Y).
    cbv beta in Q. rewrite E_0, Ropp_0, exp_0 in Q. enough (1 - 1 <= E (S n) y - exp (- y)) by lra. apply Q.
    - intros c _. apply dl_minus; [apply E_deriv|apply X].
    - intros c C. specialize (H c ltac:(lra)). lra. }
  assert (G : forall k, (forall y, 0 <= y -> exp (- y) <= E (2 * k) y)).
  { induction k as [|k IH].
    - intros y Y. cbn. rewrite <- exp_0. destruct Y as [Y| <-]; [left; apply exp_increasing; lra|rewrite Ropp_0; lra].
    - replace (2 * S k)%nat with (S (S (2 * k))) by lia. exact (up _ (lo _ IH)). }
  intros k y Y. split; [exact (lo _ (G k) y Y)|exact (G k y Y)].
Qed.
Lemma exp_neg_poly y : 0 <= y ->
  1 - y + y ^ 2 / 2 - y ^ 3 / 6 + y ^ 4 / 24 - y ^ 5 / 120 + y ^ 6 / 720 - y ^ 7 / 5040 <= exp (- y) <=
  1 - y + y ^ 2 / 2 - y ^ 3 / 6 + y ^ 4 / 24 - y ^ 5 / 120 + y ^ 6 / 720.
Proof.
  intro Y. destruct (E_bounds 3 y Y) as [L U].
  replace (E (S (2 * 3)) y) with (1 - y + y ^ 2 / 2 - y ^ 3 / 6 + y ^ 4 / 24 - y ^ 5 / 120 + y ^ 6 / 720 - y ^ 7 / 5040) in L
    by (cbn [E Nat.mul Nat.add rf INR pow]; field).
  replace (E (2 * 3) y) with (1 - y + y ^ 2 / 2 - y ^ 3 / 6 + y ^ 4 / 24 - y ^ 5 / 120 + y ^ 6 / 720) in U
    by (cbn [E Nat.mul Nat.add rf INR pow]; field).
  split; assumption.
Qed.
(** doubling *)
Lemma exp_double y a b a' b' : 0 <= a -> a <= exp (- y) <= b -> a' <= a * a -> b * b <= b' -> a' <= exp (- (2 * y)) <= b'.
Proof.
  intros A [L U] A' B'. replace (- (2 * y)) with (- y + - y) by lra. rewrite exp_plus. pose proof (exp_pos (- y)). split; nra.
Qed.
Lemma exp_mono x y : x <= y -> exp x <= exp y.
Proof. intros [H| ->]; [left; now apply exp_increasing|lra]. Qed.
Lemma ln_bounds x a b : 0 < x -> exp a <= x -> x <= exp b -> a <= ln x <= b.
Proof.
  intros X A B. split.
  - rewrite <- (ln_exp a). destruct A as [A|A]; [left; apply ln_increasing; [apply exp_pos|exact A]|rewrite A; lra].
  - rewrite <- (ln_exp b). destruct B as [B|B]; [left; now apply ln_increasing|rewrite B; lra].
Qed.
Lemma sqrt_bounds x a b : 0 <= a -> 0 <= b -> a * a <= x -> x <= b * b -> a <= sqrt x <= b.
Proof.
  intros A B L U. split; [rewrite <- (sqrt_square a) by exact A|rewrite <- (sqrt_square b) by exact B]; apply sqrt_le_1_alt; assumption.
Qed.

(** ** PI *)
Lemma PI_bounds : 31415926535 / 10000000000 <= PI <= 31415926536 / 10000000000.
Proof.
  destruct (PI_2_3_7_ineq 9) as [L U].
  cbn [Nat.mul Nat.add sum_f_R0] in L, U. unfold tg_alt, PI_2_3_7_tg, Ratan_seq in L, U.
  cbn [Nat.mul Nat.add INR pow] in L, U. lra.
Qed.

(** ** zeta *)

Lemma IZR_S k : IZR (Z.of_nat (S k)) = INR k + 1.
Proof. rewrite <- INR_IZR_INZ, S_INR. reflexivity. Qed.
Lemma zeta_lower s z n : is_zeta s z -> zpart s n <= z.
Proof.
  intro H. apply (growing_ineq (zpart s)); [|exact H]. intro k. unfold zpart. cbn [sum_f_R0].
  assert (0 < / IZR (Z.of_nat (S (S k))) ^ s); [|lra]. apply Rinv_0_lt_compat, pow_lt. rewrite IZR_S. pose proof (pos_INR (S k)). lra.
Qed.
Lemma cv_upper u z c : Un_cv u z -> (exists N, forall n, (N <= n)%nat -> u n <= c) -> z <= c.
Proof.
  intros H (N & B). destruct (Rle_lt_dec z c) as [|L]; [assumption|exfalso].
  destruct (H (z - c) ltac:(lra)) as (M & D). specialize (D (max M N) ltac:(lia)). specialize (B (max M N) ltac:(lia)).
  unfold R_dist in D. apply Rabs_def2 in D. lra.
Qed.
Lemma cv_lower u z c : Un_cv u z -> (exists N, forall n, (N <= n)%nat -> c <= u n) -> c <= z.
Proof.
  intros H (N & B). destruct (Rle_lt_dec c z) as [|L]; [assumption|exfalso].
  destruct (H (c - z) ltac:(lra)) as (M & D). specialize (D (max M N) ltac:(lia)). specialize (B (max M N) ltac:(lia)).
  unfold R_dist in D. apply Rabs_def2 in D. lra.
Qed.
(** remainders, [n + 1] terms being summed *)
Definition up3 (n : nat) : R := / (2 * (INR n + 1) * (INR n + 2)).
Definition lo3 (n : nat) : R := / (2 * ((INR n + 1) * (INR n + 2)) + 1).
Lemma up3_pos n : 0 < up3 n.
Proof. apply Rinv_0_lt_compat. pose proof (pos_INR n). nra. Qed.
Lemma step_up n : / (INR n + 2) ^ 3 + up3 (S n) <= up3 n.
Proof.
  unfold up3. rewrite S_INR. pose proof (pos_INR n). set (k := INR n) in *.
  assert (D1 : 0 < (k + 2) ^ 3) by (apply pow_lt; lra).
  assert (E : / (2 * (k + 1) * (k + 2)) - / (2 * (k + 1 + 1) * (k + 1 + 2)) - / (k + 2) ^ 3 = / ((k + 1) * (k + 3) * (k + 2) ^ 3)) by (field; lra).
  assert (0 < / ((k + 1) * (k + 3) * (k + 2) ^ 3)); [|lra].
  apply Rinv_0_lt_compat, Rmult_lt_0_compat; [nra|exact D1].
Qed.
Lemma step_lo n : lo3 n <= / (INR n + 2) ^ 3 + lo3 (S n).
Proof.
  unfold lo3. rewrite S_INR. pose proof (pos_INR n). set (k := INR n) in *.
  assert (D1 : 0 < (k + 2) ^ 3) by (apply pow_lt; lra).
  assert (P1 : 0 < 2 * ((k + 1) * (k + 2)) + 1) by nra. assert (P2 : 0 < 2 * ((k + 1 + 1) * (k + 1 + 2)) + 1) by nra.
  assert (E : / (k + 2) ^ 3 + / (2 * ((k + 1 + 1) * (k + 1 + 2)) + 1) - / (2 * ((k + 1) * (k + 2)) + 1) =
              / ((k + 2) ^ 3 * (2 * ((k + 1) * (k + 2)) + 1) * (2 * ((k + 1 + 1) * (k + 1 + 2)) + 1))) by (field; lra).
  assert (0 < / ((k + 2) ^ 3 * (2 * ((k + 1) * (k + 2)) + 1) * (2 * ((k + 1 + 1) * (k + 1 + 2)) + 1))); [|lra].
  apply Rinv_0_lt_compat, Rmult_lt_0_compat; [apply Rmult_lt_0_compat|]; assumption.
Qed.
Lemma INR_large c : 0 < c -> exists N, forall n, (N <= n)%nat -> c < INR n.
Proof.
  intro C. destruct (archimed_cor1 (/ c)) as (N & A & B); [now apply Rinv_0_lt_compat|]. exists N. intros n L.
  apply le_INR in L. assert (0 < INR N) by now apply lt_0_INR.
  assert (c < INR N); [|lra]. rewrite <- (Rinv_inv c), <- (Rinv_inv (INR N)). apply Rinv_lt_contravar; [|exact A].
  apply Rmult_lt_0_compat; apply Rinv_0_lt_compat; assumption.
Qed.
Lemma zeta3_range z n : is_zeta 3 z -> zpart 3 n + lo3 n <= z <= zpart 3 n + up3 n.
Proof.
  intro H.
  assert (St : forall m, zpart 3 (S m) = zpart 3 m + / (INR m + 2) ^ 3).
  { intro m. unfold zpart. cbn [sum_f_R0]. rewrite IZR_S, S_INR. do 3 f_equal. lra. }
  assert (UP : forall d, zpart 3 (d + n) + up3 (d + n) <= zpart 3 n + up3 n).
  { induction d as [|d IH]; [cbn [Nat.add]; lra|]. cbn [Nat.add]. rewrite St. pose proof (step_up (d + n)). lra. }
  assert (LO : forall d, zpart 3 n + lo3 n <= zpart 3 (d + n) + lo3 (d + n)).
  { induction d as [|d IH]; [cbn [Nat.add]; lra|]. cbn [Nat.add]. rewrite St. pose proof (step_lo (d + n)). lra. }
  split.
  - destruct (Rle_lt_dec (zpart 3 n + lo3 n) z) as [|L]; [assumption|exfalso].
    set (g := zpart 3 n + lo3 n - z) in *. assert (G : 0 < g) by (unfold g; lra).
    destruct (INR_large (/ g)) as (N & B); [now apply Rinv_0_lt_compat|].
    set (m := (N + n)%nat). assert (M1 := LO N). fold m in M1.
    assert (M2 := zeta_lower 3 z m H). specialize (B m ltac:(unfold m; lia)).
    assert (lo3 m < g); [|unfold g in *; lra].
    unfold lo3. rewrite <- (Rinv_inv g). apply Rinv_lt_contravar.
    + apply Rmult_lt_0_compat; [now apply Rinv_0_lt_compat|]. pose proof (pos_INR m). nra.
    + pose proof (pos_INR m). nra.
  - apply (cv_upper _ _ _ H). exists n. intros m L. replace m with ((m - n) + n)%nat by lia.
    specialize (UP (m - n)%nat). pose proof (up3_pos (m - n + n)). lra.
Qed.
(** higher odd arguments *)
Lemma zeta_range j z n : is_zeta (3 + j) z -> zpart (3 + j) n <= z <= zpart (3 + j) n + up3 n / (INR n + 2) ^ j.
Proof.
  intro H. split; [now apply zeta_lower|].
  assert (P : 0 < (INR n + 2) ^ j) by (apply pow_lt; pose proof (pos_INR n); lra).
  assert (St : forall d, zpart (3 + j) (d + n) + up3 (d + n) / (INR n + 2) ^ j <= zpart (3 + j) n + up3 n / (INR n + 2) ^ j).
  { induction d as [|d IH]; [cbn [Nat.add]; lra|]. cbn [Nat.add].
    assert (Z : zpart (3 + j) (S (d + n)) = zpart (3 + j) (d + n) + / (INR (d + n) + 2) ^ (3 + j)).
    { unfold zpart. cbn [sum_f_R0]. rewrite IZR_S, S_INR. do 3 f_equal. lra. }
    cbn [Nat.add] in Z. rewrite Z. assert (U := step_up (d + n)).
    enough (/ (INR (d + n) + 2) ^ S (S (S j)) <= / (INR (d + n) + 2) ^ 3 / (INR n + 2) ^ j).
    { unfold Rdiv in *. assert (0 < / (INR n + 2) ^ j) by now apply Rinv_0_lt_compat. cbn [Nat.add] in IH. nra. }
    assert (P3 : 0 < (INR (d + n) + 2) ^ 3) by (apply pow_lt; pose proof (pos_INR (d + n)); lra).
    replace (/ (INR (d + n) + 2) ^ 3 / (INR n + 2) ^ j) with (/ ((INR (d + n) + 2) ^ 3 * (INR n + 2) ^ j)) by (unfold Rdiv; rewrite Rinv_mult; reflexivity).
    change (S (S (S j))) with (3 + j)%nat. rewrite pow_add. apply Rinv_le_contravar; [now apply Rmult_lt_0_compat|].
    apply Rmult_le_compat_l; [lra|]. apply pow_incr. rewrite plus_INR. pose proof (pos_INR d). pose proof (pos_INR n). lra. }
  apply (cv_upper _ _ _ H). exists n. intros m L. replace m with ((m - n) + n)%nat by lia.
  specialize (St (m - n)%nat). assert (0 < up3 (m - n + n) / (INR n + 2) ^ j) by (apply Rdiv_lt_0_compat; [apply up3_pos|exact P]). lra.
Qed.

Lemma zeta3_num z : is_zeta 3 z -> 120205686 / 100000000 <= z <= 120205700 / 100000000.
Proof.
  intro H. destruct (zeta3_range z 39 H) as [L U]. unfold zpart, lo3, up3 in L, U.
  rewrite INR_IZR_INZ in L, U. cbn [sum_f_R0 Z.of_nat Pos.of_succ_nat Pos.succ pow] in L, U. split; lra.
Qed.
Lemma zeta5_num z : is_zeta 5 z -> 10369260 / 10000000 <= z <= 10369310 / 10000000.
Proof.
  intro H. destruct (zeta_range 2 z 19 H) as [L U]. unfold zpart, up3 in L, U.
  rewrite INR_IZR_INZ in U. cbn [Nat.add sum_f_R0 Z.of_nat Pos.of_succ_nat Pos.succ pow] in L, U. split; lra.
Qed.
Lemma zeta7_num z : is_zeta 7 z -> 10083 / 10000 <= z <= 10084 / 10000.
Proof.
  intro H. destruct (zeta_range 4 z 9 H) as [L U]. unfold zpart, up3 in L, U.
  rewrite INR_IZR_INZ in U. cbn [Nat.add sum_f_R0 Z.of_nat Pos.of_succ_nat Pos.succ pow] in L, U. split; lra.
Qed.
