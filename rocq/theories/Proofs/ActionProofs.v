(** Blending weight, radial integrals, and control flow of the action calculation. *)
From Coq Require Import ZArith Reals Lra Lia List Arith Bool.
From Verif.Model Require Import Action.
From Verif.Spec Require Import ActionSpec.
Import ListNotations.
Local Open Scope R_scope.

Lemma Rleb_true a b : Rleb a b = true <-> a <= b.
Proof. unfold Rleb. destruct (Rle_dec a b); split; congruence || tauto || lra. Qed.
Lemma Rleb_false a b : Rleb a b = false <-> b < a.
Proof. unfold Rleb. destruct (Rle_dec a b); split; congruence || tauto || lra. Qed.
Lemma Rltb_true a b : Rltb a b = true <-> a < b.
Proof. unfold Rltb. destruct (Rlt_dec a b); split; congruence || tauto || lra. Qed.
Lemma Rltb_false a b : Rltb a b = false <-> b <= a.
Proof. unfold Rltb. destruct (Rlt_dec a b); split; congruence || tauto || lra. Qed.
Lemma Reqb_true a b : Reqb a b = true <-> a = b.
Proof. unfold Reqb. destruct (Req_EM_T a b); split; congruence || tauto || lra. Qed.
Lemma Reqb_false a b : Reqb a b = false <-> a <> b.
Proof. unfold Reqb. destruct (Req_EM_T a b); split; congruence || tauto || lra. Qed.

(** ** logistic function *)
Definition sigm (x : R) : R := if Rleb 10 x then 1 else if Rleb x (-10) then 0 else 1 / (1 + exp (- x)).
Lemma Logistic_fin x : LogisticFunction (Fin x) = Some (sigm x).
Proof. unfold LogisticFunction, sigm. destruct (Rleb 10 x); [reflexivity|]. destruct (Rleb x (-10)); reflexivity. Qed.
Lemma core_range x : 0 < 1 / (1 + exp (- x)) < 1.
Proof.
  pose proof (exp_pos (- x)) as P. split; [apply Rdiv_lt_0_compat; lra|].
  apply Rmult_lt_reg_r with (1 + exp (- x)); [lra|]. unfold Rdiv. rewrite Rmult_assoc, Rinv_l by lra. lra.
Qed.
Lemma sigm_range x : 0 <= sigm x <= 1.
Proof. unfold sigm. destruct (Rleb 10 x); [lra|]. destruct (Rleb x (-10)); [lra|]. pose proof (core_range x). lra. Qed.
Lemma sigm_open x : -10 < x < 10 -> 0 < sigm x < 1.
Proof.
  intros (A & B). unfold sigm. rewrite (proj2 (Rleb_false 10 x) B), (proj2 (Rleb_false x (-10)) A). apply core_range.
Qed.
Lemma sigm_mono x y : x <= y -> sigm x <= sigm y.
Proof.
  intro H. unfold sigm. destruct (Rleb 10 x) eqn:A.
  - apply Rleb_true in A. rewrite (proj2 (Rleb_true 10 y)) by lra. lra.
  - destruct (Rleb x (-10)) eqn:B.
    + destruct (Rleb 10 y); [lra|]. destruct (Rleb y (-10)); [lra|]. pose proof (core_range y). lra.
    + apply Rleb_false in B. destruct (Rleb 10 y); [pose proof (core_range x); lra|]. rewrite (proj2 (Rleb_false y (-10))) by lra.
      pose proof (exp_pos (- x)). pose proof (exp_pos (- y)). assert (exp (- y) <= exp (- x)).
      { destruct (Rle_lt_or_eq_dec x y H) as [L| ->]; [left; apply exp_increasing; lra|lra]. }
      unfold Rdiv. rewrite !Rmult_1_l. apply Rinv_le_contravar; lra.
Qed.
Lemma sigm_strict x y : -10 < x -> x < y -> y < 10 -> sigm x < sigm y.
Proof.
  intros A B D. unfold sigm. rewrite (proj2 (Rleb_false 10 x)), (proj2 (Rleb_false x (-10))), (proj2 (Rleb_false 10 y)), (proj2 (Rleb_false y (-10))) by lra.
  pose proof (exp_pos (- x)). pose proof (exp_pos (- y)). assert (exp (- y) < exp (- x)) by (apply exp_increasing; lra).
  unfold Rdiv. rewrite !Rmult_1_l. apply Rinv_lt_contravar; [apply Rmult_lt_0_compat; lra|lra].
Qed.
Lemma sigm_sym x : sigm x + sigm (- x) = 1.
Proof.
  unfold sigm. destruct (Rleb 10 x) eqn:A.
  - apply Rleb_true in A. rewrite (proj2 (Rleb_false 10 (- x))), (proj2 (Rleb_true (- x) (-10))) by lra. lra.
  - apply Rleb_false in A. destruct (Rleb x (-10)) eqn:B.
    + apply Rleb_true in B. rewrite (proj2 (Rleb_true 10 (- x))) by lra. lra.
    + apply Rleb_false in B. rewrite (proj2 (Rleb_false 10 (- x))), (proj2 (Rleb_false (- x) (-10))) by lra.
      rewrite Ropp_involutive, exp_Ropp. pose proof (exp_pos x). field. lra.
Qed.
Lemma half x : 0 <= x -> 1 / 2 <= sigm x.
Proof. intro H. pose proof (sigm_sym x). pose proof (sigm_mono (- x) x ltac:(lra)). lra. Qed.

Lemma weights e : e <> NaN -> exists a b, LogisticFunction (dneg e) = Some a /\ LogisticFunction e = Some b /\ 0 <= a /\ 0 <= b /\ a + b = 1.
Proof.
  destruct e as [x| | |]; intro N; [|exists 0, 1; cbn; repeat split; lra|exists 1, 0; cbn; repeat split; lra|congruence].
  exists (sigm (- x)), (sigm x). cbn [dneg]. rewrite !Logistic_fin. pose proof (sigm_range x). pose proof (sigm_range (- x)). pose proof (sigm_sym x). repeat split; lra.
Qed.
Lemma mix_between a b m c : 0 <= a -> 0 <= b -> a + b = 1 -> between (m * a + c * b) m c.
Proof.
  intros A B E. replace b with (1 - a) in * by lra. unfold between, Rmin, Rmax. destruct (Rle_dec m c); split; nra.
Qed.
Lemma between_l m c : between m m c. Proof. unfold between, Rmin, Rmax. destruct (Rle_dec m c); lra. Qed.
Lemma between_r m c : between c m c. Proof. unfold between, Rmin, Rmax. destruct (Rle_dec m c); lra. Qed.

Lemma exponent_nan d thr init : LogisticExponent d thr init = NaN <-> thr = init /\ d = thr.
Proof.
  unfold LogisticExponent, ddiv. destruct (Reqb (thr - init) 0) eqn:E.
  - apply Reqb_true in E. destruct (Reqb (100 * (d - thr)) 0) eqn:F; [apply Reqb_true in F; split; intro; [lra|reflexivity]|].
    apply Reqb_false in F. destruct (Rltb _ _); split; (congruence || (intro; exfalso; lra)).
  - apply Reqb_false in E. split; [discriminate|]. intros (A & B). exfalso. lra.
Qed.

Lemma blended thr d init L dVdl m c : 0 < dVdl -> ~ (thr = init /\ d = thr) ->
  exists s, ExactSolution (Some thr) d init L dVdl m c = Solution s /\ between (s_rho s) (s_rho m) (s_rho c) /\ between (s_v s) (s_v m) (s_v c).
Proof.
  intros Hd N. unfold ExactSolution. rewrite (proj2 (Rleb_false dVdl 0) Hd).
  destruct (weights (LogisticExponent d thr init)) as (a & b & Ea & Eb & A & B & E); [rewrite exponent_nan; exact N|].
  rewrite Ea, Eb. destruct (is_one (Some a)); [exists m; split; [reflexivity|split; apply between_l]|].
  destruct (is_one (Some b)); [exists c; split; [reflexivity|split; apply between_r]|].
  cbn [mixw]. eexists. split; [reflexivity|]. cbn [s_rho s_v]. split; now apply mix_between.
Qed.
Lemma blend_undefined thr L dVdl m c : 0 < dVdl -> ExactSolution (Some thr) thr thr L dVdl m c = Undefined.
Proof.
  intro Hd. unfold ExactSolution. rewrite (proj2 (Rleb_false dVdl 0) Hd).
  assert (E : LogisticExponent thr thr thr = NaN) by (apply exponent_nan; auto). rewrite E. reflexivity.
Qed.

(** ** radial integrals *)
Fixpoint total (f : nat -> R) (k m : nat) : R := match m with O => 0 | S m' => f k + total f (S k) m' end.
Lemma total_ext f g : (forall j, f j = g j) -> forall m k, total f k m = total g k m.
Proof. intros H m. induction m as [|m IH]; intro k; cbn; [reflexivity|]. now rewrite H, IH. Qed.
Lemma total_le f g : (forall j, f j <= g j) -> forall m k, total f k m <= total g k m.
Proof. intros H m. induction m as [|m IH]; intro k; cbn; [lra|]. pose proof (H k). pose proof (IH (S k)). lra. Qed.
Lemma total_scal c f : forall m k, total (fun j => c * f j) k m = c * total f k m.
Proof. induction m as [|m IH]; intro k; cbn; [ring|]. rewrite IH. ring. Qed.
Lemma total_last f : forall m k, total f k (S m) = total f k m + f (k + m)%nat.
Proof.
  induction m as [|m IH]; intro k; [cbn; rewrite Nat.add_0_r; ring|]. change (total f k (S (S m))) with (f k + total f (S k) (S m)).
  rewrite IH. cbn [total]. replace (S k + m)%nat with (k + S m)%nat by lia. ring.
Qed.
Lemma total_sq m : total (fun j => INR j ^ 2) 0 (S m) = INR m * (INR m + 1) * (2 * INR m + 1) / 6.
Proof.
  induction m as [|m IH]; [cbn; field|]. rewrite total_last, IH. cbn [Nat.add]. rewrite S_INR. field.
Qed.
Lemma total_cube m : total (fun j => INR j ^ 3) 0 (S m) = (INR m * (INR m + 1) / 2) ^ 2.
Proof. induction m as [|m IH]; [cbn; field|]. rewrite total_last, IH. cbn [Nat.add]. rewrite S_INR. field. Qed.

Lemma loop_total term step N : 0 < step -> forall m k fuel acc, (k + m = S N)%nat -> (m < fuel)%nat ->
  radial_loop fuel term step (INR N * step) (INR k * step) acc = Some (acc + total (fun j => term (INR j * step)) k m).
Proof.
  intro Hs. induction m as [|m IH]; intros k fuel acc Hk Hf; (destruct fuel as [|fuel]; [lia|]); cbn [radial_loop total].
  - destruct (Rle_dec (INR k * step) (INR N * step)) as [L|L]; [|f_equal; ring].
    exfalso. assert (INR N < INR k) by (apply lt_INR; lia). apply Rmult_le_reg_r in L; lra.
  - destruct (Rle_dec (INR k * step) (INR N * step)) as [L|L].
    + replace (INR k * step + step) with (INR (S k) * step) by (rewrite S_INR; ring). rewrite IH by lia. f_equal. ring.
    + exfalso. apply L. apply Rmult_le_compat_r; [lra|]. apply le_INR. lia.
Qed.
Lemma big : exists N, INR N = 2000 /\ (N + 2 <= 2002)%nat.
Proof. exists 2000%nat. split; [rewrite INR_IZR_INZ; reflexivity|apply Nat.leb_le; vm_compute; reflexivity]. Qed.
Lemma radial_loop_ok N term rmax fuel : INR N = 2000 -> 0 < rmax -> (S N < fuel)%nat ->
  radial_loop fuel term (rmax / 2000) rmax 0 0 = Some (total (fun j => term (INR j * (rmax / 2000))) 0 (S N)).
Proof.
  intros E Hr Hf. pose proof (loop_total term (rmax / 2000) N ltac:(lra) (S N) 0%nat fuel 0 eq_refl Hf) as H.
  rewrite E in H. replace (2000 * (rmax / 2000)) with rmax in H by field. change (INR 0) with 0 in H. rewrite Rmult_0_l, Rplus_0_l in H. exact H.
Qed.
Definition surplus (alpha : Z) : R := if (alpha =? 2)%Z then 8006001 / 8000000 else (2001 / 2000) ^ 2.

Lemma const_sum2 N step c : INR N = 2000 ->
  total (fun j => simpson_term 2 (fun _ => c) step (INR j * step)) 0 (S N) = 6 * c * step ^ 2 * (2000 * 2001 * 4001 / 6).
Proof.
  intro E. unfold simpson_term. rewrite (total_ext _ (fun j => (6 * c * step ^ 2) * INR j ^ 2)) by (intro; ring). rewrite total_scal. f_equal.
  rewrite total_sq, E. lra.
Qed.
Lemma const_sum3 N step c : INR N = 2000 ->
  total (fun j => simpson_term 3 (fun _ => c) step (INR j * step)) 0 (S N) = 6 * c * step ^ 3 * (2000 * 2001 / 2) ^ 2.
Proof.
  intro E. unfold simpson_term. rewrite (total_ext _ (fun j => (6 * c * step ^ 3) * INR j ^ 3)) by (intro; ring). rewrite total_scal. f_equal.
  rewrite total_cube, E. lra.
Qed.
Lemma radial_constant alpha rmax c fuel : (alpha = 2 \/ alpha = 3)%Z -> 0 < rmax -> (2002 <= fuel)%nat ->
  radial_integral fuel alpha rmax (fun _ => c) = Some (surplus alpha * ball_integral alpha rmax c).
Proof.
  intros Ha Hr Hf. destruct big as (N & E & Le). assert (Hn : (S N < fuel)%nat) by (eapply Nat.lt_le_trans; [|exact Hf]; revert Le; rewrite Nat.add_comm; cbn [Nat.add]; unfold lt; intro Le; exact Le). clear Hf Le.
  unfold radial_integral, surplus, ball_integral. cbv zeta. destruct Ha as [-> | ->]; cbn [Z.eqb Pos.eqb].
  - rewrite (radial_loop_ok N) by assumption. cbn [option_map]. f_equal. rewrite const_sum2 by assumption. field.
  - rewrite (radial_loop_ok N) by assumption. cbn [option_map]. f_equal. rewrite const_sum3 by assumption. field.
Qed.
Lemma term_mono d g h step j : 0 < step -> (forall r, g r <= h r) -> simpson_term d g step (INR j * step) <= simpson_term d h step (INR j * step).
Proof.
  intros Hs H. unfold simpson_term. assert (P : 0 <= (INR j * step) ^ d) by (apply pow_le; apply Rmult_le_pos; [apply pos_INR|lra]).
  pose proof (Rmult_le_compat_l _ _ _ P (H (INR j * step))). pose proof (Rmult_le_compat_l _ _ _ P (H (INR j * step + step / 2))). pose proof (Rmult_le_compat_l _ _ _ P (H (INR j * step + step))). lra.
Qed.
Lemma radial_bounds alpha rmax g lo hi fuel : (alpha = 2 \/ alpha = 3)%Z -> 0 < rmax -> (2002 <= fuel)%nat -> (forall r, lo <= g r <= hi) ->
  exists v, radial_integral fuel alpha rmax g = Some v /\ surplus alpha * ball_integral alpha rmax lo <= v <= surplus alpha * ball_integral alpha rmax hi.
Proof.
  intros Ha Hr Hf Hg. destruct big as (N & E & Le). pose proof (radial_constant alpha rmax lo fuel Ha Hr Hf) as L. pose proof (radial_constant alpha rmax hi fuel Ha Hr Hf) as U.
  assert (Hn : (S N < fuel)%nat) by (eapply Nat.lt_le_trans; [|exact Hf]; revert Le; rewrite Nat.add_comm; cbn [Nat.add]; unfold lt; intro Le; exact Le). clear Hf Le.
  unfold radial_integral in *. cbv zeta in *. pose proof PI_RGT_0 as PP. assert (Hs : 0 < rmax / 2000) by lra.
  destruct Ha as [-> | ->]; cbn [Z.eqb Pos.eqb] in *; rewrite !(radial_loop_ok N) in * by assumption; cbn [option_map] in *.
  - injection L as L. injection U as U. eexists. split; [reflexivity|]. rewrite <- L, <- U.
    assert (A := total_le _ _ (fun j => term_mono 2 (fun _ => lo) g (rmax / 2000) j Hs (fun r => proj1 (Hg r))) (S N) 0%nat).
    assert (B := total_le _ _ (fun j => term_mono 2 g (fun _ => hi) (rmax / 2000) j Hs (fun r => proj2 (Hg r))) (S N) 0%nat).
    assert (W : 0 <= 4 * PI * (rmax / 2000) / 6) by (apply Rmult_le_pos; [apply Rmult_le_pos; lra|lra]).
    split; match goal with |- ?x * 4 * PI * ?s / 6 <= ?y * 4 * PI * ?s / 6 => replace (x * 4 * PI * s / 6) with (x * (4 * PI * s / 6)) by field; replace (y * 4 * PI * s / 6) with (y * (4 * PI * s / 6)) by field end;
      apply Rmult_le_compat_r; assumption.
  - injection L as L. injection U as U. eexists. split; [reflexivity|]. rewrite <- L, <- U.
    assert (A := total_le _ _ (fun j => term_mono 3 (fun _ => lo) g (rmax / 2000) j Hs (fun r => proj1 (Hg r))) (S N) 0%nat).
    assert (B := total_le _ _ (fun j => term_mono 3 g (fun _ => hi) (rmax / 2000) j Hs (fun r => proj2 (Hg r))) (S N) 0%nat).
    assert (W : 0 <= 2 * PI * PI * (rmax / 2000) / 6) by (apply Rmult_le_pos; [apply Rmult_le_pos; [apply Rmult_le_pos|]; lra|lra]).
    split; match goal with |- ?x * 2 * PI * PI * ?s / 6 <= ?y * 2 * PI * PI * ?s / 6 => replace (x * 2 * PI * PI * s / 6) with (x * (2 * PI * PI * s / 6)) by field; replace (y * 2 * PI * PI * s / 6) with (y * (2 * PI * PI * s / 6)) by field end;
      apply Rmult_le_compat_r; assumption.
Qed.
Lemma radial_stuck term fuel acc : radial_loop fuel term (0 / 2000) 0 0 acc = None.
Proof.
  revert acc. induction fuel as [|f IH]; intro acc; cbn [radial_loop]; [reflexivity|]. destruct (Rle_dec 0 0); [|lra].
  replace (0 + 0 / 2000) with 0 by field. apply IH.
Qed.

(** ** which of the two solutions dominates *)
Lemma is_one_true v : is_one v = true -> v = Some 1.
Proof. destruct v as [r|]; cbn; [|discriminate]. intro H. apply Reqb_true in H. now subst. Qed.
Lemma blend_weight thr d init L dVdl m c : 0 < dVdl -> init < thr ->
  exists s w, ExactSolution (Some thr) d init L dVdl m c = Solution s /\ 0 <= w <= 1 /\
    s_rho s = w * s_rho m + (1 - w) * s_rho c /\ s_v s = w * s_v m + (1 - w) * s_v c /\ (d <= thr -> 1 / 2 <= w) /\ (thr <= d -> w <= 1 / 2).
Proof.
  intros Hd Hi. unfold ExactSolution. rewrite (proj2 (Rleb_false dVdl 0) Hd).
  unfold LogisticExponent, ddiv. rewrite (proj2 (Reqb_false (thr - init) 0)) by lra. cbn [dneg]. rewrite !Logistic_fin.
  set (e := 100 * (d - thr) / (thr - init)). pose proof (sigm_sym e) as Sy. pose proof (sigm_range e) as Ra. pose proof (sigm_range (- e)) as Rb.
  assert (Lo : d <= thr -> 1 / 2 <= sigm (- e)).
  { intro Q. apply half. unfold e. assert (0 <= 100 * (thr - d) / (thr - init)).
    { unfold Rdiv. apply Rmult_le_pos; [lra|]. left. apply Rinv_0_lt_compat. lra. }
    replace (- (100 * (d - thr) / (thr - init))) with (100 * (thr - d) / (thr - init)) by (field; lra). assumption. }
  assert (Up : thr <= d -> sigm (- e) <= 1 / 2).
  { intro Q. assert (1 / 2 <= sigm e); [|lra]. apply half. unfold e, Rdiv. apply Rmult_le_pos; [lra|]. left. apply Rinv_0_lt_compat. lra. }
  clearbody e. destruct (is_one (Some (sigm (- e)))) eqn:A.
  - apply is_one_true in A. assert (A' : sigm (- e) = 1) by congruence. exists m, 1. rewrite A' in *. repeat split; try ring; try lra; auto; intros; lra.
  - destruct (is_one (Some (sigm e))) eqn:B.
    + apply is_one_true in B. assert (B' : sigm e = 1) by congruence. assert (sigm (- e) = 0) by lra. exists c, 0. rewrite H in *. repeat split; try ring; try lra; intros; lra.
    + cbn [mixw]. eexists. exists (sigm (- e)). split; [reflexivity|]. cbn [s_rho s_v]. replace (sigm e) with (1 - sigm (- e)) by lra. repeat split; try ring; try lra; auto.
Qed.
Lemma blend_far L m c dVdl : 0 < dVdl -> ExactSolution (Some (1 / 1000)) (1 / 100) (1 / 200) L dVdl m c = Solution m.
Proof.
  intro Hd. unfold ExactSolution. rewrite (proj2 (Rleb_false dVdl 0) Hd).
  unfold LogisticExponent, ddiv. rewrite (proj2 (Reqb_false (1 / 1000 - 1 / 200) 0)) by lra. cbn [dneg]. rewrite !Logistic_fin.
  replace (- (100 * (1 / 100 - 1 / 1000) / (1 / 1000 - 1 / 200))) with 225 by (field; lra).
  unfold sigm at 1. rewrite (proj2 (Rleb_true 10 225)) by lra. cbn [is_one]. rewrite (proj2 (Reqb_true 1 1)) by reflexivity. reflexivity.
Qed.

(** outside the region of the blending *)
Lemma exact_elsewhere thr d init L dVdl m c :
  ExactSolution None d init L dVdl m c = Solution c /\
  (dVdl <= 0 -> d / L < 1 / 100 -> ExactSolution (Some thr) d init L dVdl m c = Solution m) /\
  (dVdl <= 0 -> 1 / 100 <= d / L -> ExactSolution (Some thr) d init L dVdl m c = NegativeGradient).
Proof.
  split; [reflexivity|]. unfold ExactSolution. split; intros Hd Hl; rewrite (proj2 (Rleb_true dVdl 0) Hd).
  - now rewrite (proj2 (Rltb_true _ _) Hl).
  - now rewrite (proj2 (Rltb_false _ _) Hl).
Qed.
Lemma exact_position thr d init L dVdl m c s : ExactSolution thr d init L dVdl m c = Solution s -> s = m \/ s_l s = s_l c.
Proof.
  unfold ExactSolution. destruct thr as [thr|]; [|intro H; injection H as <-; auto].
  destruct (Rleb dVdl 0); [destruct (Rltb _ _); [|discriminate]; intro H; injection H as <-; auto|]. cbv zeta.
  destruct (is_one _); [intro H; injection H as <-; auto|]. destruct (is_one _); [intro H; injection H as <-; auto|].
  destruct (mixw _ _ _ _); [|discriminate]. destruct (mixw _ _ _ _); [|discriminate]. intro H. apply (f_equal (fun e => match e with Solution s => s_l s | _ => 0 end)) in H.
  cbn in H. auto.
Qed.
Lemma radial_other fuel alpha rmax g : (alpha <> 2)%Z -> (alpha <> 3)%Z -> radial_integral fuel alpha rmax g = Some (-1).
Proof. intros A B. unfold radial_integral. apply Z.eqb_neq in A, B. now rewrite A, B. Qed.

