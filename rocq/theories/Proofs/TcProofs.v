From Coq Require Import Lqa Lia.
From Verif.Model Require Import Base Track Tc.
From Verif.Spec Require Import TrackSpec TcSpec.
From Verif.Proofs Require Import TrackProofs.
Open Scope Q_scope.

Notation tiny := tc_accuracy.

Lemma tc_wide_false lo hi : 0 <= lo -> lo <= hi -> tc_wide lo hi = false -> hi <= lo * (1 + tiny).
Proof.
  intros H0 H1 H. unfold tc_wide in H. destruct (Qeq_bool lo 0) eqn:E.
  - apply Qeq_bool_iff in E. apply negb_false_iff, Qeq_bool_iff in H. rewrite E, H. unfold tc_accuracy. lra.
  - apply Qeq_bool_false in E. apply Qltb_false in H. assert (P : 0 < lo) by lra.
    assert (N : 0 <= hi / lo - 1).
    { assert (1 <= hi / lo) by (apply Qle_shift_div_l; lra). lra. }
    rewrite Qabs_pos in H by auto.
    assert (X : hi / lo <= 1 + tiny) by (unfold tc_accuracy; lra).
    setoid_replace hi with (hi / lo * lo) by (field; auto). rewrite (Qmult_comm lo).
    apply Qmult_le_compat_r; lra.
Qed.

Lemma bisect_spec dV L H fuel : forall lo mid hi r, 0 <= L -> L <= lo -> lo <= hi -> hi <= H ->
  (mid = lo \/ mid = hi) -> is_pos (dV hi) = true -> is_pos (dV lo) = false ->
  tc_bisect dV fuel lo mid hi = Ok r ->
  exists a b, L <= a /\ a <= b /\ b <= H /\ (r = a \/ r = b) /\
    is_pos (dV b) = true /\ is_pos (dV a) = false /\ b <= a * (1 + tiny).
Proof.
  induction fuel as [|f IH]; intros lo mid hi r H0 H1 H2 H3 Hm Hp Hn E; [discriminate|]. cbn [tc_bisect] in E.
  destruct (tc_wide lo hi) eqn:W.
  - set (m := Qred ((hi + lo) / 2)) in *.
    assert (Hmid : lo <= m /\ m <= hi).
    { unfold m. rewrite Qred_correct. split; [apply Qle_shift_div_l|apply Qle_shift_div_r]; lra. }
    destruct (is_pos (dV m)) eqn:P.
    + apply (IH lo m m r); auto; lra.
    + apply (IH m m hi r); auto; lra.
  - injection E as <-. exists lo, hi. repeat split; auto. apply tc_wide_false; auto. lra.
Qed.

Lemma bisect_terminates dV L : 0 < L -> forall n lo mid hi, L <= lo -> lo <= hi ->
  hi - lo <= inject_Z (2 ^ Z.of_nat n) * (L * tiny) ->
  exists r, tc_bisect dV (S n) lo mid hi = Ok r.
Proof.
  intros HL. induction n as [|n IH]; intros lo mid hi H1 H2 Hd.
  - cbn [tc_bisect]. assert (E : tc_wide lo hi = false).
    { unfold tc_wide. assert (N : ~ lo == 0) by lra. rewrite (proj2 (Qeq_bool_false _ _) N). apply Qltb_false.
      setoid_replace (hi / lo - 1) with ((hi - lo) / lo) by (field; auto).
      rewrite Qabs_pos; [|apply Qle_shift_div_l; lra].
      apply Qle_shift_div_r; [lra|]. change (inject_Z (2 ^ Z.of_nat 0)) with 1 in Hd. unfold tc_accuracy in *. lra. }
    rewrite E. eauto.
  - remember (S n) as n1. cbn [tc_bisect]. destruct (tc_wide lo hi); [|eauto]. subst n1.
    set (m := Qred ((hi + lo) / 2)).
    assert (M : m == (hi + lo) * (1 # 2)) by (unfold m; rewrite Qred_correct; field).
    assert (P : inject_Z (2 ^ Z.of_nat (S n)) == 2 * inject_Z (2 ^ Z.of_nat n)).
    { rewrite Nat2Z.inj_succ, Z.pow_succ_r by lia. rewrite inject_Z_mult. reflexivity. }
    rewrite P in Hd.
    destruct (is_pos (dV m)); apply IH; lra.
Qed.

Lemma plot_same fuel : forall T n lo hi, lo == hi -> T == hi -> plot_loop lo hi fuel T n = OutOfFuel.
Proof.
  induction fuel as [|f IH]; intros T n lo hi H1 H2; [reflexivity|]. cbn [plot_loop].
  assert (E : Qle_bool T hi = true) by (apply Qle_bool_iff; lra). rewrite E. apply IH; [auto|].
  rewrite Qred_correct, H1, H2. field.
Qed.

Lemma plot_terminates lo hi : lo < hi -> forall k T n,
  hi - T < inject_Z (Z.of_nat k) * ((hi - lo) * (1 # 100)) ->
  forall extra, exists m, plot_loop lo hi (S k + extra) T n = Ok m.
Proof.
  intros H. induction k as [|k IH]; intros T n Hd extra.
  - cbn [plot_loop Nat.add]. assert (E : Qle_bool T hi = false).
    { apply Qle_bool_false. change (inject_Z (Z.of_nat 0)) with 0 in Hd. lra. }
    rewrite E. eauto.
  - remember (S k) as k1. cbn [plot_loop Nat.add]. destruct (Qle_bool T hi); [|eauto]. subst k1. apply IH.
    rewrite Qred_correct. setoid_replace ((hi - lo) / 100) with ((hi - lo) * (1 # 100)) by field.
    rewrite Nat2Z.inj_succ, <- Z.add_1_r, inject_Z_plus in Hd. change (inject_Z 1) with 1 in Hd. lra.
Qed.

Lemma bisect_more dV f : forall lo mid hi r e, tc_bisect dV f lo mid hi = Ok r -> tc_bisect dV (f + e) lo mid hi = Ok r.
Proof.
  induction f as [|f IH]; intros lo mid hi r e H; [discriminate|]. cbn [tc_bisect Nat.add] in *.
  destruct (tc_wide lo hi); [|auto]. destruct (is_pos _); auto.
Qed.

Lemma tc_terminates dV lo hi : 0 < lo -> lo < hi -> exists fuel s, CalculateTc dV fuel lo hi = Ok s.
Proof.
  intros H0 H1. destruct (pow2_unbounded ((hi - lo) / (lo * tiny))) as [n Hn].
  assert (Pt : 0 < lo * tiny) by (unfold tc_accuracy; lra).
  destruct (bisect_terminates dV lo H0 n lo lo hi) as [r Hr]; try lra.
  { setoid_replace (hi - lo) with ((hi - lo) / (lo * tiny) * (lo * tiny)) by (field; unfold tc_accuracy; lra).
    apply Qmult_le_compat_r; lra. }
  destruct (plot_terminates lo hi H1 101 lo 0) with (extra := S n) as [m Hm].
  { change (inject_Z (Z.of_nat 101)) with 101. lra. }
  exists (102 + S n)%nat. unfold CalculateTc. change (S 101 + S n)%nat with (102 + S n)%nat in Hm. rewrite Hm. cbn [bind].
  destruct (_ && _); [eauto|]. destruct (_ && _); [eauto|]. destruct (_ && _); [|eauto].
  replace (102 + S n)%nat with (S n + 102)%nat by lia. rewrite (bisect_more _ _ _ _ _ _ 102 Hr). cbn. eauto.
Qed.

Lemma tc_cases dV fuel lo hi st T : 0 <= lo -> lo <= hi ->
  CalculateTc dV fuel lo hi = Ok (st, T) -> tc_meaning dV lo hi st T.
Proof.
  intros H0 H1 H. unfold tc_meaning, CalculateTc in *. destruct (plot_loop lo hi fuel lo 0) as [n0| | |]; cbn [bind] in H; try discriminate.
  destruct (dV hi) eqn:Eh, (dV lo) eqn:El; cbn [is_pos is_neg andb] in H;
    try (injection H as <- <-; auto 10; fail).
  destruct (tc_bisect dV fuel lo lo hi) as [r| | |] eqn:B; cbn [bind] in H; try discriminate. injection H as <- <-.
  split; [auto|]. split; [auto|].
  destruct (bisect_spec dV lo hi fuel lo lo hi r) as (a & b & A1 & A2 & A3 & A4 & A5 & A6 & A7); auto; try lra.
  - now rewrite Eh.
  - now rewrite El.
  - exists a, b. repeat split; auto.
    + destruct (dV b); discriminate || reflexivity.
    + intro X. rewrite X in A6. discriminate.
Qed.

Lemma tc_stuck dV T fuel : CalculateTc dV fuel T T = OutOfFuel.
Proof. unfold CalculateTc. rewrite plot_same; reflexivity. Qed.
