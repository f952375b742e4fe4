(** Proofs about the nucleation and false vacuum fraction searches. *)
From Coq Require Import QArith Qabs Qround Lqa Lia Qfield.
From Verif.Model Require Import Base BounceScan Tracer.
From Verif.Spec Require Import BounceScanSpec.
From Verif.Proofs Require Import BounceScanProofs.
Open Scope Q_scope.

Section S.
Variables (g : Q -> option Q) (c : Q).

Lemma above_not_below T : above g c T = true -> below g c T = false.
Proof.
  unfold above, below. destruct (g T) as [v|]; [|reflexivity]. intro H. qb. apply Qlt_bool_false. lra.
Qed.

Lemma bracket_sound : forall Ts up down u d,
  (up = -1 \/ below g c up = true) -> (down = -1 \/ above g c down = true) ->
  bracket g c Ts up down = (u, d) ->
  (u = -1 \/ below g c u = true /\ (u = up \/ In u Ts)) /\ (d = -1 \/ above g c d = true /\ (d = down \/ In d Ts)).
Proof.
  induction Ts as [|T Ts IH]; intros up down u d Hu Hd E; cbn [bracket] in E.
  - injection E as <- <-. tauto.
  - set (up' := if Qeq_bool up (-1) && below g c T then T else up) in *.
    set (down' := if Qeq_bool down (-1) && above g c T then T else down) in *.
    assert (U : (up' = -1 \/ below g c up' = true) /\ (up' = up \/ up' = T)).
    { unfold up'. destruct (Qeq_bool up (-1) && below g c T) eqn:B; [|tauto]. qb. tauto. }
    assert (D : (down' = -1 \/ above g c down' = true) /\ (down' = down \/ down' = T)).
    { unfold down'. destruct (Qeq_bool down (-1) && above g c T) eqn:B; [|tauto]. qb. tauto. }
    destruct (Qlt_bool 0 up' && Qlt_bool 0 down').
    + injection E as <- <-. cbn [In]. intuition congruence.
    + specialize (IH up' down' u d (proj1 U) (proj1 D) E). cbn [In]. intuition congruence.
Qed.

(** the search finds both sides whenever they occur *)
Lemma bracket_complete : forall Ts up down, Forall (fun T => 0 < T) Ts ->
  (up = -1 \/ 0 < up) -> (down = -1 \/ 0 < down) ->
  (0 < up \/ exists T, In T Ts /\ below g c T = true) -> (0 < down \/ exists T, In T Ts /\ above g c T = true) ->
  0 < fst (bracket g c Ts up down) /\ 0 < snd (bracket g c Ts up down).
Proof.
  induction Ts as [|T Ts IH]; intros up down P Hu Hd EU ED; cbn [bracket].
  - destruct EU as [EU|(T & [] & _)]. destruct ED as [ED|(T & [] & _)]. split; assumption.
  - apply Forall_cons_iff in P as [PT P].
    set (up' := if Qeq_bool up (-1) && below g c T then T else up).
    set (down' := if Qeq_bool down (-1) && above g c T then T else down).
    destruct (Qlt_bool 0 up' && Qlt_bool 0 down') eqn:B.
    + qb. split; assumption.
    + apply IH; auto.
      * unfold up'. destruct (Qeq_bool up (-1) && below g c T); [right; exact PT|exact Hu].
      * unfold down'. destruct (Qeq_bool down (-1) && above g c T); [right; exact PT|exact Hd].
      * destruct EU as [EU|(T' & [<-|I] & Bl)].
        -- left. unfold up'. destruct (Qeq_bool up (-1)) eqn:Z; [apply Qeq_bool_iff in Z; lra|exact EU].
        -- left. unfold up'. rewrite Bl, andb_true_r. destruct Hu as [->|Hu]; [exact PT|]. destruct (Qeq_bool up (-1)); assumption.
        -- right. now exists T'.
      * destruct ED as [ED|(T' & [<-|I] & Bl)].
        -- left. unfold down'. destruct (Qeq_bool down (-1)) eqn:Z; [apply Qeq_bool_iff in Z; lra|exact ED].
        -- left. unfold down'. rewrite Bl, andb_true_r. destruct Hd as [->|Hd]; [exact PT|]. destruct (Qeq_bool down (-1)); assumption.
        -- right. now exists T'.
Qed.

Lemma mid_between lo hi a b : lo <= a <= hi -> lo <= b <= hi -> lo <= Qred ((a + b) / 2) <= hi.
Proof. intros A B. rewrite Qred_correct. setoid_replace ((a + b) / 2) with ((a + b) * (1 # 2)) by field. lra. Qed.
Lemma mid_width a b : Qabs (Qred ((a + b) / 2) - b) == Qabs (a - b) * (1 # 2) /\ Qabs (a - Qred ((a + b) / 2)) == Qabs (a - b) * (1 # 2).
Proof.
  assert (H : forall x, Qabs (x * (1 # 2)) == Qabs x * (1 # 2)).
  { intro x. rewrite Qabs_Qmult. reflexivity. }
  split; rewrite <- H; apply Qabs_wd; rewrite Qred_correct; field.
Qed.
Lemma ratio_abs u d : 0 < d -> Qabs (u / d - 1) == Qabs (u - d) / d.
Proof.
  intro H. setoid_replace (u / d - 1) with ((u - d) * / d) by (field; lra). rewrite Qabs_Qmult.
  rewrite (Qabs_pos (/ d)); [reflexivity|]. apply Qlt_le_weak, Qinv_lt_0_compat, H.
Qed.
Lemma below_dec T : below g c T = true -> exists v, g T = Some v /\ v < c.
Proof. unfold below. destruct (g T) as [v|]; [|discriminate]. intro H. qb. now exists v. Qed.
Lemma not_below T : below g c T = false -> ~ exists v, g T = Some v /\ v < c.
Proof. unfold below. intros H (v & E & L). rewrite E in H. qb. lra. Qed.

Lemma bisect_sound lo hi : forall n up down T, 0 < lo -> lo <= up <= hi -> lo <= down <= hi ->
  below g c up = true -> below g c down = false -> bisect g c n up down = Some T ->
  sign_change g c (1 # 10000000000) T lo hi.
Proof.
  induction n as [|n IH]; intros up down T L HU HD BU BD E; [discriminate|]. cbn [bisect] in E.
  set (mid := Qred ((up + down) / 2)) in *. assert (HM : lo <= mid <= hi) by now apply mid_between.
  destruct (below g c mid) eqn:BM.
  - destruct (Qlt_bool _ _) eqn:C in E; [|now apply (IH mid down)]. qb.
    assert (mid = T) by congruence. subst T. destruct (below_dec _ BM) as (v & V1 & V2).
    exists mid, down, v. split; [now left|]. split; [exact C|]. split; [exact V1|]. split; [exact V2|].
    split; [now apply not_below|]. now split.
  - destruct (Qlt_bool _ _) eqn:C in E; [|now apply (IH up mid)]. qb.
    assert (mid = T) by congruence. subst T. destruct (below_dec _ BU) as (v & V1 & V2).
    exists up, mid, v. split; [now right|]. split; [exact C|]. split; [exact V1|]. split; [exact V2|].
    split; [now apply not_below|]. now split.
Qed.

Definition pow2 (n : nat) : Q := inject_Z (2 ^ Z.of_nat n).
Lemma pow2_S n : pow2 (S n) == 2 * pow2 n.
Proof.
  unfold pow2. rewrite Nat2Z.inj_succ, Z.pow_succ_r by lia. now rewrite inject_Z_mult.
Qed.
Lemma pow2_0 : pow2 0 == 1. Proof. reflexivity. Qed.

Lemma bisect_complete lo hi : forall n up down, 0 < lo -> lo <= up <= hi -> lo <= down <= hi ->
  (0 < n)%nat -> Qabs (up - down) < (1 # 10000000000) * lo * pow2 n -> exists T, bisect g c n up down = Some T.
Proof.
  induction n as [|n IH]; intros up down L HU HD N W; [lia|]. cbn [bisect].
  set (mid := Qred ((up + down) / 2)). assert (HM : lo <= mid <= hi) by now apply mid_between.
  destruct (mid_width up down) as (W1 & W2). fold mid in W1, W2.
  assert (W' : Qabs (up - down) * (1 # 2) < (1 # 10000000000) * lo * pow2 n).
  { rewrite pow2_S in W. lra. }
  assert (G : forall u d, lo <= u <= hi -> lo <= d <= hi -> Qabs (u - d) == Qabs (up - down) * (1 # 2) ->
     exists T, (if Qlt_bool (Qabs (u / d - 1)) (1 # 10000000000) then Some mid else bisect g c n u d) = Some T).
  { intros u d Hu Hd E. destruct (Qlt_bool _ _) eqn:C; [now eexists|]. qb. apply IH; auto.
    - destruct n as [|n]; [|lia]. exfalso. rewrite ratio_abs in C by lra.
      assert ((1 # 10000000000) * d <= Qabs (u - d)).
      { setoid_replace (Qabs (u - d)) with (Qabs (u - d) / d * d) by (field; lra).
        apply Qmult_le_compat_r; [exact C|lra]. }
      rewrite pow2_0 in W'. rewrite E in H. lra.
    - rewrite E. exact W'. }
  destruct (below g c mid); apply G; auto.
Qed.

Lemma span_rev Ts lo hi : span Ts lo hi -> span (rev Ts) lo hi.
Proof. unfold span. intro H. apply Forall_rev. exact H. Qed.

Lemma bracket_span Ts lo hi u d : 0 < lo -> span Ts lo hi -> bracket g c (rev Ts) (-1) (-1) = (u, d) -> 0 < u -> 0 < d ->
  lo <= u <= hi /\ lo <= d <= hi /\ below g c u = true /\ above g c d = true.
Proof.
  intros L S E U D. apply bracket_sound in E; [|now left|now left]. apply span_rev in S. unfold span in S. rewrite Forall_forall in S.
  destruct E as ([->|(BU & IU)] & [->|(BD & ID)]); try (exfalso; lra).
  assert (IU' : In u (rev Ts)) by (destruct IU as [->|]; [exfalso; lra|assumption]).
  assert (ID' : In d (rev Ts)) by (destruct ID as [->|]; [exfalso; lra|assumption]).
  split; [now apply S|]. split; [now apply S|]. now split.
Qed.

Lemma nucleation_sound Ts lo hi T : 0 < lo -> span Ts lo hi -> nucleation g c Ts = Some T ->
  sign_change g c (1 # 10000000000) T lo hi.
Proof.
  intros L S. unfold nucleation. destruct (bracket g c (rev Ts) (-1) (-1)) as (u, d) eqn:E.
  destruct (Qlt_bool 0 u && Qlt_bool 0 d) eqn:C; [|discriminate]. qb.
  destruct (bracket_span Ts lo hi u d L S E) as (HU & HD & BU & BD); try assumption.
  apply bisect_sound; auto. now apply above_not_below.
Qed.

Lemma nucleation_iff Ts lo hi : 0 < lo -> hi <= 100000 * lo -> span Ts lo hi ->
  ((exists T, nucleation g c Ts = Some T) <->
   (exists T v, In T Ts /\ g T = Some v /\ v < c) /\ (exists T v, In T Ts /\ g T = Some v /\ c < v)).
Proof.
  intros L R S. unfold nucleation. destruct (bracket g c (rev Ts) (-1) (-1)) as (u, d) eqn:E. split.
  - intros (T & H). destruct (Qlt_bool 0 u && Qlt_bool 0 d) eqn:C; [|discriminate]. qb.
    apply bracket_sound in E; [|now left|now left].
    destruct E as ([->|(BU & IU)] & [->|(BD & ID)]); try (exfalso; lra). split.
    + destruct (below_dec _ BU) as (v & V1 & V2). exists u, v. split; [|now split].
      destruct IU as [->|I]; [exfalso; lra|]. now apply in_rev.
    + unfold above in BD. destruct (g d) as [v|] eqn:G; [|discriminate]. qb. exists d, v. split; [|now split].
      destruct ID as [->|I]; [exfalso; lra|]. now apply in_rev.
  - intros ((T1 & v1 & I1 & G1 & C1) & (T2 & v2 & I2 & G2 & C2)).
    assert (P : 0 < fst (bracket g c (rev Ts) (-1) (-1)) /\ 0 < snd (bracket g c (rev Ts) (-1) (-1))).
    { apply bracket_complete; try (now left).
      - apply span_rev in S. unfold span in S. rewrite Forall_forall in *. intros T HT. specialize (S T HT). lra.
      - right. exists T1. split; [now apply in_rev in I1|]. unfold below. rewrite G1. now apply Qlt_bool_true.
      - right. exists T2. split; [now apply in_rev in I2|]. unfold above. rewrite G2. now apply Qlt_bool_true. }
    rewrite E in P. cbn in P. destruct P as (U & D).
    destruct (bracket_span Ts lo hi u d L S E U D) as (HU & HD & BU & BD).
    assert (X : Qlt_bool 0 u && Qlt_bool 0 d = true) by (apply andb_true_iff; split; now apply Qlt_bool_true). rewrite X.
    apply (bisect_complete lo hi); auto; [lia|].
    assert (B : Qabs (u - d) <= hi - lo) by (apply Qabs_Qle_condition; lra).
    unfold pow2. change (2 ^ Z.of_nat 50)%Z with 1125899906842624%Z.
    assert (M : (1 # 10000000000) * lo * inject_Z 1125899906842624 == (1125899906842624 # 10000000000) * lo).
    { unfold inject_Z. rewrite <- Qmult_assoc, (Qmult_comm lo), Qmult_assoc. apply Qmult_comp; [|reflexivity]. reflexivity. }
    rewrite M. lra.
Qed.
End S.

(** ** the false vacuum fraction *)
Section F.
Variables (I : Q -> option Q) (target : Q).

Lemma same_spec a b r : same_opt a b r = true -> exists v, b = Some v /\
  (Qabs (a - v) < Qabs (a + v) / 2 * r \/ Qabs a < (1 # 10000000000) /\ Qabs v < (1 # 10000000000)).
Proof.
  unfold same_opt, almost_the_same. destruct b as [v|]; [|discriminate]. intro H. exists v. split; [reflexivity|].
  destruct (_ && _) eqn:E; qb; [right|left]; [now split|exact H].
Qed.

Lemma frac_loop_sound lo hi : forall fuel up down cur T, 0 < lo -> lo <= up <= hi -> lo <= down <= hi ->
  below I target up = true -> below I target down = false -> frac_loop I target fuel up down cur = Ok T ->
  T = -1 \/ solves I target T lo hi.
Proof.
  induction fuel as [|f IH]; intros up down cur T L HU HD BU BD E; [discriminate|]. cbn [frac_loop] in E.
  destruct (_ && _) eqn:W in E; [|left; congruence].
  set (mid := Qred ((up + down) / 2)) in *. assert (HM : lo <= mid <= hi) by now apply mid_between.
  destruct (below I target mid) eqn:BM.
  - destruct (_ && _) eqn:C in E; [|now apply (IH mid down (I mid))]. right. apply andb_true_iff in C as (C1 & C2).
    assert (mid = T) by congruence. subst T. qb. split.
    + destruct (below_dec _ _ _ BM) as (v & V1 & V2).
      exists mid, down, v. split; [now left|]. split; [exact C1|]. split; [exact V1|]. split; [exact V2|].
      split; [now apply not_below|]. now split.
    + now apply same_spec.
  - destruct (_ && _) eqn:C in E; [|now apply (IH up mid (I mid))]. right. apply andb_true_iff in C as (C1 & C2).
    assert (mid = T) by congruence. subst T. qb. split.
    + destruct (below_dec _ _ _ BU) as (v & V1 & V2).
      exists up, mid, v. split; [now right|]. split; [exact C1|]. split; [exact V1|]. split; [exact V2|].
      split; [now apply not_below|]. now split.
    + now apply same_spec.
Qed.

Lemma frac_loop_ends lo hi : forall n fuel up down cur, 0 < lo -> lo <= up <= hi -> lo <= down <= hi ->
  Qabs (up - down) <= RelT * Margin * lo * pow2 n -> (n < fuel)%nat -> exists T, frac_loop I target fuel up down cur = Ok T.
Proof.
  induction n as [|n IH]; intros fuel up down cur L HU HD W F; (destruct fuel as [|f]; [lia|]); cbn [frac_loop].
  - destruct (Qlt_bool _ _) eqn:C; [|now eexists]. exfalso. qb. rewrite ratio_abs in C by lra.
    assert (RelT * Margin * down < Qabs (up - down)).
    { setoid_replace (Qabs (up - down)) with (Qabs (up - down) / down * down) by (field; lra).
      apply Qmult_lt_compat_r; [lra|exact C]. }
    unfold RelT, Margin in *. rewrite pow2_0 in W. lra.
  - destruct (_ && _) eqn:C; [|now eexists].
    set (mid := Qred ((up + down) / 2)). assert (HM : lo <= mid <= hi) by now apply mid_between.
    destruct (mid_width up down) as (W1 & W2). fold mid in W1, W2.
    rewrite pow2_S in W. unfold RelT, Margin in *.
    destruct (below I target mid).
    + match goal with |- context [if ?b then Ok mid else _] => destruct b end; [now eexists|]. apply IH; auto; [|lia]. rewrite W1. lra.
    + match goal with |- context [if ?b then Ok mid else _] => destruct b end; [now eexists|]. apply IH; auto; [|lia]. rewrite W2. lra.
Qed.

Lemma fraction_sound Ts lo hi fuel T : 0 < lo -> span Ts lo hi ->
  CalcTempAtFalseVacFraction I target fuel Ts = Ok T -> T = -1 \/ solves I target T lo hi.
Proof.
  intros L S. unfold CalcTempAtFalseVacFraction. destruct (bracket I target (rev Ts) (-1) (-1)) as (u, d) eqn:E.
  destruct (Qlt_bool 0 u && Qlt_bool 0 d) eqn:C; [|intro H; left; congruence]. qb.
  destruct (bracket_span I target Ts lo hi u d L S E) as (HU & HD & BU & BD); try assumption.
  apply frac_loop_sound; auto. now apply above_not_below.
Qed.

Lemma pow2_large x : exists n, x <= pow2 n.
Proof.
  exists (Z.to_nat (Qceiling x)). unfold pow2. apply Qle_trans with (inject_Z (Qceiling x)); [apply Qle_ceiling|].
  rewrite <- Zle_Qle. destruct (Z.le_gt_cases (Qceiling x) 0) as [H|H].
  - pose proof (Z.pow_nonneg 2 (Z.of_nat (Z.to_nat (Qceiling x)))). lia.
  - rewrite Z2Nat.id by lia. apply Z.lt_le_incl, Z.pow_gt_lin_r; lia.
Qed.

Lemma fraction_ends Ts lo hi : 0 < lo -> span Ts lo hi ->
  exists f0, forall fuel, (f0 <= fuel)%nat -> exists T, CalcTempAtFalseVacFraction I target fuel Ts = Ok T.
Proof.
  intros L S. destruct (pow2_large ((hi - lo) / (RelT * Margin * lo))) as (n & Hn).
  exists (Datatypes.S n). intros fuel F. unfold CalcTempAtFalseVacFraction.
  destruct (bracket I target (rev Ts) (-1) (-1)) as (u, d) eqn:E.
  destruct (Qlt_bool 0 u && Qlt_bool 0 d) eqn:C; [|now eexists]. qb.
  destruct (bracket_span I target Ts lo hi u d L S E) as (HU & HD & BU & BD); try assumption.
  apply (frac_loop_ends lo hi n); auto.
  assert (B : Qabs (u - d) <= hi - lo) by (apply Qabs_Qle_condition; lra).
  assert (P : 0 < RelT * Margin * lo) by (unfold RelT, Margin; lra).
  assert (X : (hi - lo) / (RelT * Margin * lo) * (RelT * Margin * lo) <= pow2 n * (RelT * Margin * lo)).
  { apply Qmult_le_compat_r; [exact Hn|lra]. }
  setoid_replace ((hi - lo) / (RelT * Margin * lo) * (RelT * Margin * lo)) with (hi - lo) in X by (field; unfold RelT, Margin; lra).
  lra.
Qed.
End F.

(** ** status and temperature *)
Lemma perc_status o I0 I1 target Ts0 Ts1 f0 f1 lo hi uv v frac t0 t1 :
  0 < lo -> span Ts0 lo hi -> span Ts1 lo hi ->
  CalcTempAtFalseVacFraction I0 target f0 Ts0 = Ok t0 -> CalcTempAtFalseVacFraction I1 target f1 Ts1 = Ok t1 ->
  o_tfrac_0 o v frac = t0 -> o_tfrac_1 o v frac = t1 ->
  let b := CalculatePercolationTemp o frac (set_vwall v (new_bounce uv)) in
  (status_perc b = Te_Success <-> 0 < t0) /\ (status_perc b = Te_NotMet <-> t0 = -1) /\
  (status_perc b = Te_Success -> solves I0 target t0 lo hi /\ Tperc b = t1 /\ (t1 = -1 \/ solves I1 target t1 lo hi)).
Proof.
  intros L S0 S1 E0 E1 O0 O1 b.
  pose proof (fraction_sound I0 target Ts0 lo hi f0 t0 L S0 E0) as X0.
  pose proof (fraction_sound I1 target Ts1 lo hi f1 t1 L S1 E1) as X1.
  assert (P0 : t0 = -1 \/ 0 < t0 /\ solves I0 target t0 lo hi).
  { destruct X0 as [H|H]; [now left|right]. split; [|exact H].
    destruct H as ((u & d & vu & [->| ->] & _ & _ & _ & _ & Hu & Hd) & _); lra. }
  unfold b, CalculatePercolationTemp, set_vwall. cbn [perc_set new_bounce vwall uvwall compl_set Tcompl status_compl alpha].
  rewrite O0, O1, andb_true_r. unfold Qgt0, Qlt0.
  destruct P0 as [->|(H0 & Q0)].
  - cbn. split; [split; [congruence|intro Z; lra]|]. split; [tauto|congruence].
  - assert (B : Qle_bool t0 0 = false).
    { destruct (Qle_bool t0 0) eqn:B; [|reflexivity]. apply Qle_bool_iff in B. lra. }
    rewrite B. cbn [negb status_perc Tperc]. split; [tauto|]. split; [split; [congruence|intros ->; lra]|]. intros _. tauto.
Qed.

(** the integral is steep around 4/3 before and around 3/2 after the refinement *)
Lemma perc_success_refuted :
  exists I0 I1 target Ts0 Ts1 o uv v frac f t0,
    span Ts0 1 2 /\ span Ts1 1 2 /\ incl Ts0 Ts1 /\
    CalcTempAtFalseVacFraction I0 target f Ts0 = Ok t0 /\ 0 < t0 /\
    CalcTempAtFalseVacFraction I1 target f Ts1 = Ok (-1) /\
    o_tfrac_0 o v frac = t0 /\ o_tfrac_1 o v frac = -1 /\
    let b := CalculatePercolationTemp o frac (set_vwall v (new_bounce uv)) in
    status_perc b = Te_Success /\ Tperc b = -1.
Proof.
  set (I0 := fun T => Some (1 + 1000 * ((4 # 3) - T))). set (I1 := fun T => Some (1 + 1000 * ((3 # 2) - T))).
  set (t0 := match CalcTempAtFalseVacFraction I0 1 100 [1; 2] with Ok t => t | _ => 0 end).
  exists I0, I1, 1, [1; 2], [1; 3 # 2; 2],
    {| o_tfrac_0 := fun _ _ => t0; o_tfrac_1 := fun _ _ => -1; o_tfrac_2 := fun _ _ => -1; o_alpha := fun _ => None;
       o_v1 := fun _ _ => None; o_v2 := fun _ _ => None; o_crit := Cr_Success; o_Tc := None; o_false := fun _ => [];
       o_true := fun _ => []; o_bounce := Gw_Success; o_nucl_approx := (Te_NotMet, 0); o_nucl := (Te_NotMet, 0);
       o_beta := fun _ => None; o_spectrum := fun _ => (None, None, None, None, None, None, None, None, None) |},
    0.95, None, 0.71, 100%nat, t0.
  split; [unfold span; repeat (constructor; [lra|]); constructor|].
  split; [unfold span; repeat (constructor; [lra|]); constructor|].
  split; [intros x [<-|[<-|[]]]; cbn; tauto|].
  split; [vm_compute; reflexivity|].
  split; [vm_compute; reflexivity|].
  split; [vm_compute; reflexivity|].
  split; [reflexivity|]. split; [reflexivity|].
  split; vm_compute; reflexivity.
Qed.

(** a crossing exactly in the middle is missed *)
Lemma missed : exists I target Ts,
  span Ts 1 2 /\ (exists v, I (3 # 2) = Some v /\ v == target) /\
  (exists T v, In T Ts /\ I T = Some v /\ v < target) /\ (exists T v, In T Ts /\ I T = Some v /\ target < v) /\
  (forall S T v w, S < T -> I S = Some v -> I T = Some w -> w < v) /\
  forall fuel, (0 < fuel)%nat -> CalcTempAtFalseVacFraction I target fuel Ts = Ok (-1).
Proof.
  exists (fun T => Some (5 - 2 * T)), 2, [1; 2].
  split; [unfold span; repeat (constructor; [lra|]); constructor|].
  split; [eexists; split; [reflexivity|reflexivity]|].
  split; [exists 2, (5 - 2 * 2); split; [cbn; tauto|]; split; [reflexivity|lra]|].
  split; [exists 1, (5 - 2 * 1); split; [cbn; tauto|]; split; [reflexivity|lra]|].
  split.
  { intros S T v w H E1 E2. assert (v = 5 - 2 * S) by congruence. assert (w = 5 - 2 * T) by congruence. subst. lra. }
  intros [|f] F; [lia|]. vm_compute. reflexivity.
Qed.
