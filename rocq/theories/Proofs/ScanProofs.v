(** The temperatures at which the bounce equation is solved (C87-C89). *)
From Coq Require Import QArith Qabs Qround Lqa Lia List Sorted Setoid.
Import ListNotations.
From Verif.Model Require Import Base BounceScan.
From Verif.Spec Require Import BounceScanSpec ScanSpec.
From Verif.Proofs Require Import BounceScanProofs.
Open Scope Q_scope.

(** ** the initial scan *)
Lemma iter_shift dT k T : Nat.iter (S k) (fun t => t - dT) T = Nat.iter k (fun t => t - dT) (T - dT).
Proof.
  induction k as [|k IH]; [reflexivity|]. change (Nat.iter (S k) (fun t => t - dT) T - dT = Nat.iter k (fun t => t - dT) (T - dT) - dT). now rewrite IH.
Qed.
Lemma iter_value dT k T : Nat.iter k (fun t => t - dT) T == T - inject_Z (Z.of_nat k) * dT.
Proof.
  induction k as [|k IH]; [change (T == T - 0 * dT); ring|]. change (Nat.iter k (fun t => t - dT) T - dT == T - inject_Z (Z.of_nat (S k)) * dT). rewrite IH.
  rewrite Nat2Z.inj_succ. unfold Z.succ. rewrite inject_Z_plus. change (inject_Z 1) with 1. ring.
Qed.
Lemma steps_S T dT n : steps T dT (S n) = T :: steps (T - dT) dT n.
Proof.
  unfold steps. cbn [seq map]. f_equal. rewrite <- seq_shift, map_map. apply map_ext. intro k. apply iter_shift.
Qed.
Lemma planned_yes viable T Ts c : viable T = true -> planned viable (T :: Ts) c = (c, T) :: planned viable Ts (S c).
Proof. intro H. unfold planned. cbn [filter]. rewrite H. reflexivity. Qed.
Lemma planned_no viable T Ts c : viable T = false -> planned viable (T :: Ts) c = planned viable Ts c.
Proof. intro H. unfold planned. cbn [filter]. now rewrite H. Qed.

Section Initial.
  Variables (Tm dT : Q) (viable : Q -> bool) (action : nat -> Q -> bool -> option Q).
  Hypothesis Tm0 : 0 <= Tm.
  Hypothesis dT0 : 0 < dT.

  Lemma initial_char : forall n fuel T s,
    (forall k, (k < n)%nat -> Tm + dT <= Nat.iter k (fun t => t - dT) T) -> Nat.iter n (fun t => t - dT) T < Tm + dT ->
    (n < fuel)%nat -> Forall (fun x => T < sT x) (sols s) ->
    exists s' m, initial_loop Tm viable action fuel dT T s = Ok s' /\
      let E := planned viable (steps T dT n) (calls s) in
      (m <= length E)%nat /\ calls s' = (calls s + m)%nat /\
      sols s' = rev (flat_map (entry action) (firstn m E)) ++ sols s /\
      (forall k p, (S k < m)%nat -> nth_error E k = Some p -> ~ low_enough action p) /\
      (m = length E \/ exists p, nth_error E (m - 1) = Some p /\ (0 < m)%nat /\ low_enough action p).
  Proof.
    induction n as [|n IH]; intros fuel T s H1 H2 F A; (destruct fuel as [|fuel]; [lia|]); cbn [initial_loop].
    - change (T < Tm + dT) in H2. apply Qlt_bool_true in H2. rewrite H2. exists s, O. split; [reflexivity|]. cbn. rewrite Nat.add_0_r.
      split; [lia|]. split; [reflexivity|]. split; [reflexivity|]. split; [intros; lia|now left].
    - assert (HT := H1 O ltac:(lia)). change (Tm + dT <= T) in HT. destruct (Qlt_bool T (Tm + dT)) eqn:C; [qb; lra|]. clear C.
      assert (TP : 0 < T) by lra.
      assert (H1' : forall k, (k < n)%nat -> Tm + dT <= Nat.iter k (fun t => t - dT) (T - dT)) by (intros k K; rewrite <- iter_shift; apply H1; lia).
      assert (H2' : Nat.iter n (fun t => t - dT) (T - dT) < Tm + dT) by (rewrite <- iter_shift; exact H2).
      rewrite steps_S. destruct (viable T) eqn:V; cbn [negb].
      2:{ destruct (IH fuel (T - dT) s H1' H2' ltac:(lia)) as (s' & m & E & R).
          - eapply Forall_impl; [|exact A]. intros x X. cbn beta in *. lra.
          - exists s', m. split; [exact E|]. rewrite planned_no by exact V. exact R. }
      rewrite planned_yes by exact V. set (E := planned viable (steps (T - dT) dT n) (S (calls s))) in *.
      assert (W : forall a, action (calls s) T true = a ->
        let s1 := with_sol s (fun x => insert x (sols s)) T a in
        calls s1 = S (calls s) /\ sols s1 = rev (entry action (calls s, T)) ++ sols s).
      { intros a Ea. unfold entry. cbn [fst snd]. rewrite Ea. destruct a as [v|]; cbn [with_sol]; [|now split].
        unfold good. destruct (Qeq_bool T 0) eqn:T0; [apply Qeq_bool_iff in T0; lra|].
        destruct (Qlt_le_dec 0 v) as [P|P].
        - assert (Q : Qlt_bool 0 (v / T) = true) by (apply Qlt_bool_true; apply Qlt_shift_div_l; lra). rewrite Q. cbn [calls sols rev app].
          split; [reflexivity|]. apply insert_first. intros y Y. rewrite Forall_forall in A. apply (A y Y).
        - assert (Q : Qlt_bool 0 (v / T) = false) by (apply Qlt_bool_false; apply Qle_shift_div_r; lra). rewrite Q. now split. }
      specialize (W _ eq_refl). cbn zeta in W. destruct W as [W1 W2].
      set (s1 := with_sol s (fun x => insert x (sols s)) T (action (calls s) T true)) in *.
      assert (A1 : Forall (fun x => T - dT < sT x) (sols s1)).
      { rewrite W2. apply Forall_app. split.
        - unfold entry. cbn [fst snd]. destruct (action (calls s) T true) as [v|]; [|constructor]. destruct (Qlt_le_dec 0 v); [|constructor].
          cbn. constructor; [cbn; lra|constructor].
        - eapply Forall_impl; [|exact A]. intros x X. cbn beta in *. lra. }
      assert (STOP : low_enough action (calls s, T) -> exists s' m, Ok s1 = Ok s' /\ (m <= length ((calls s, T) :: E))%nat /\ calls s' = (calls s + m)%nat /\
        sols s' = rev (flat_map (entry action) (firstn m ((calls s, T) :: E))) ++ sols s /\
        (forall k p, (S k < m)%nat -> nth_error ((calls s, T) :: E) k = Some p -> ~ low_enough action p) /\
        (m = length ((calls s, T) :: E) \/ exists p, nth_error ((calls s, T) :: E) (m - 1) = Some p /\ (0 < m)%nat /\ low_enough action p)).
      { intro L. exists s1, 1%nat. split; [reflexivity|]. split; [cbn; lia|]. split; [rewrite W1; lia|].
        split; [cbn [firstn flat_map]; rewrite app_nil_r; exact W2|]. split; [intros; lia|]. right. exists (calls s, T). split; [reflexivity|]. split; [lia|exact L]. }
      assert (GO : ~ low_enough action (calls s, T) -> exists s' m, initial_loop Tm viable action fuel dT (T - dT) s1 = Ok s' /\ (m <= length ((calls s, T) :: E))%nat /\ calls s' = (calls s + m)%nat /\
        sols s' = rev (flat_map (entry action) (firstn m ((calls s, T) :: E))) ++ sols s /\
        (forall k p, (S k < m)%nat -> nth_error ((calls s, T) :: E) k = Some p -> ~ low_enough action p) /\
        (m = length ((calls s, T) :: E) \/ exists p, nth_error ((calls s, T) :: E) (m - 1) = Some p /\ (0 < m)%nat /\ low_enough action p)).
      { intro L. destruct (IH fuel (T - dT) s1 H1' H2' ltac:(lia) A1) as (s' & m & R0 & R1 & R2 & R3 & R4 & R5).
        rewrite W1 in R1, R2, R3, R4, R5. fold E in R1, R3, R4, R5. exists s', (S m). split; [exact R0|]. split; [cbn; lia|]. split; [lia|].
        split; [cbn [firstn flat_map]; rewrite rev_app_distr, <- app_assoc, <- W2; exact R3|]. split.
        - intros [|k] p K P; [injection P as <-; exact L|]. apply (R4 k p); [lia|exact P].
        - destruct R5 as [-> |(p & P1 & P2 & P3)]; [now left|]. right. exists p. destruct m as [|m]; [lia|]. cbn [Nat.sub nth_error].
          replace (S m - 1)%nat with m in P1 by lia. split; [exact P1|]. split; [lia|exact P3]. }
      cbn zeta. destruct (action (calls s) T true) as [v|] eqn:Ea.
      + destruct (Qlt_bool 0 v && (if Qeq_bool T 0 then false else Qlt_bool (v / T) 40)) eqn:L.
        * apply STOP. exists v. destruct (Qeq_bool T 0) eqn:T0; [apply Qeq_bool_iff in T0; lra|]. qb. now repeat split.
        * apply GO. intros (w & E1 & E2 & E3). cbn [fst snd] in *. rewrite Ea in E1. injection E1 as <-.
          destruct (Qeq_bool T 0) eqn:T0; [apply Qeq_bool_iff in T0; lra|]. apply Qlt_bool_true in E2, E3. rewrite E2, E3 in L. discriminate.
      + apply GO. intros (w & E1 & _). cbn [fst snd] in *. congruence.
  Qed.
End Initial.

Lemma iN_pos n : (0 < n)%nat -> 0 < inject_Z (Z.of_nat n).
Proof. intro H. change 0 with (inject_Z 0). rewrite <- Zlt_Qlt. lia. Qed.

(** the whole loop as GWInitialScan starts it *)
Lemma initial_scan Tm Tc N viable action fuel : 0 <= Tm -> Tm < Tc -> (0 < N)%nat -> (N <= fuel)%nat ->
  let dT := (Tc - Tm) / inject_Z (Z.of_nat N) in
  let E := planned viable (steps (Tc - dT) dT (N - 1)) 0 in
  exists s m, initial_loop Tm viable action fuel dT (Tc - dT) {| sols := []; calls := 0 |} = Ok s /\
    (m <= length E)%nat /\ calls s = m /\ sols s = rev (flat_map (entry action) (firstn m E)) /\
    (forall k p, (S k < m)%nat -> nth_error E k = Some p -> ~ low_enough action p) /\
    (m = length E \/ exists p, nth_error E (m - 1) = Some p /\ (0 < m)%nat /\ low_enough action p).
Proof.
  intros T0 T1 N0 F dT E. assert (NP := iN_pos N N0). assert (D : 0 < dT) by (apply Qlt_shift_div_l; lra).
  assert (DE : inject_Z (Z.of_nat N) * dT == Tc - Tm) by (unfold dT; field; lra).
  assert (V : forall k, Nat.iter k (fun t => t - dT) (Tc - dT) == Tm + dT + (inject_Z (Z.of_nat N) - inject_Z (Z.of_nat k) - 2) * dT).
  { intro k. rewrite iter_value. assert (Tc == Tm + inject_Z (Z.of_nat N) * dT) as -> by lra. ring. }
  destruct (initial_char Tm dT viable action T0 D (N - 1) fuel (Tc - dT) {| sols := []; calls := 0 |}) as (s & m & R0 & R1 & R2 & R3 & R4 & R5).
  - intros k K. rewrite V. assert (2 + inject_Z (Z.of_nat k) <= inject_Z (Z.of_nat N)).
    { change 2 with (inject_Z 2). rewrite <- inject_Z_plus, <- Zle_Qle. lia. }
    assert (0 <= (inject_Z (Z.of_nat N) - inject_Z (Z.of_nat k) - 2) * dT) by (apply Qmult_le_0_compat; lra). lra.
  - rewrite V. assert (inject_Z (Z.of_nat N) == inject_Z (Z.of_nat (N - 1)) + 1).
    { change 1 with (inject_Z 1). rewrite <- inject_Z_plus. replace (Z.of_nat (N - 1) + 1)%Z with (Z.of_nat N) by lia. reflexivity. }
    assert ((inject_Z (Z.of_nat N) - inject_Z (Z.of_nat (N - 1)) - 2) * dT == - dT) by (rewrite H; ring). lra.
  - lia.
  - constructor.
  - cbn [calls sols] in *. rewrite app_nil_r in R3. exists s, m. now repeat split.
Qed.

(** ** refinement *)
Lemma nth_map_seq (f : nat -> Q) k m d : (k < m)%nat -> nth k (map f (seq 1 m)) d = f (S k).
Proof. intro H. rewrite (nth_indep _ d (f O)) by (rewrite map_length, seq_length; exact H). rewrite map_nth, seq_nth by exact H. reflexivity. Qed.
Lemma between_cuts a b : 0 < sT a -> sT a < sT b -> per a < per b -> per a <= 200 -> 50 <= per b ->
  exists Ts, cuts a b 20 Ts /\
    between_two a b = Ok (filter (fun T => let p := (T - sT a) * (per b - per a) / (sT b - sT a) + per a in Qlt_bool p 400 && Qlt_bool 0 p) Ts).
Proof.
  intros A AB S S1 S2. unfold between_two. rewrite !ratio_some by lra. fold (per a) (per b).
  apply Qlt_bool_false in S1, S2. rewrite S1, S2. qb. set (n := Qceiling ((per b - per a) / 20)).
  assert (C1 : (per b - per a) / 20 <= inject_Z n) by apply Qle_ceiling.
  assert (C2 : inject_Z (n - 1) < (per b - per a) / 20) by apply Qceiling_lt.
  assert (P : 0 < (per b - per a) / 20) by (apply Qlt_shift_div_l; lra).
  assert (N0 : (0 < n)%Z). { rewrite Zlt_Qlt. change (inject_Z 0) with 0. lra. }
  assert (ID : inject_Z (Z.of_nat (Z.to_nat n)) = inject_Z n) by (rewrite Z2Nat.id by lia; reflexivity).
  assert (NP : 0 < inject_Z n) by (change 0 with (inject_Z 0); rewrite <- Zlt_Qlt; exact N0).
  eexists. split; [|reflexivity]. exists (Z.to_nat n). split; [lia|]. split; [rewrite map_length, seq_length; lia|]. split; [|split].
  - intros k K. rewrite nth_map_seq by lia. unfold on_line. rewrite Qred_correct, ID. field. lra.
  - rewrite ID. apply Qle_shift_div_r; [exact NP|]. apply (Qmult_le_compat_r _ _ 20) in C1; [|lra].
    assert ((per b - per a) / 20 * 20 == per b - per a) by field. lra.
  - replace (Z.of_nat (Z.to_nat n - 1)) with (n - 1)%Z by lia. apply (Qmult_lt_compat_r _ _ 20) in C2; [|lra].
    assert ((per b - per a) / 20 * 20 == per b - per a) by field. lra.
Qed.
Lemma between_none a b : 0 < sT a -> sT a < sT b -> 200 < per a \/ per b < 50 \/ per b <= per a -> between_two a b = Ok [].
Proof.
  intros A AB S. unfold between_two. rewrite !ratio_some by lra. fold (per a) (per b).
  destruct (Qlt_bool 200 (per a)) eqn:E1; [reflexivity|]. destruct (Qlt_bool (per b) 50) eqn:E2; [reflexivity|]. qb.
  destruct S as [S|[S|S]]; [lra|lra|].
  assert ((Qceiling ((per b - per a) / 20) <= 0)%Z).
  { rewrite <- (Qceiling_Z 0). apply Qceiling_resp_le. apply Qle_shift_div_r; [reflexivity|]. change (inject_Z 0) with 0. lra. }
  replace (Z.to_nat (Qceiling ((per b - per a) / 20) - 1)) with O by lia. reflexivity.
Qed.

(** ** extension *)
Section Ext.
  Variables (Tm Tc : Q) (viable : Q -> bool) (action : nat -> Q -> bool -> option Q).
  Hypothesis Tm0 : 0 < Tm.
  Notation CAA := (CalculateActionAt Tm Tc viable action).
  Notation inv := (inv Tm Tc).

  Lemma CAA_none s T smart : sols s <> [] -> Tm <= T <= Tc -> length (sols s) = length (sols (CAA s T smart)) ->
    sols (CAA s T smart) = sols s /\ unusable viable action (sols s) T [smart].
  Proof.
    intros NE R L. unfold CalculateActionAt in *.
    destruct (Qlt_bool T Tm) eqn:E1; [qb; lra|]. destruct (Qlt_bool Tc T) eqn:E2; [qb; lra|]. cbn [orb] in *.
    destruct (sols s) as [|y r] eqn:E; [contradiction|]. rewrite <- E in *.
    destruct (Qlt_bool (Qabs (sT (nearest T y r) - T)) 0.001) eqn:D.
    { split; [reflexivity|]. left. exists (nearest T y r). split; [rewrite E; apply nearest_in|]. qb. rewrite Qabs_Qminus. exact D. }
    destruct (viable T) eqn:V; cbn [negb] in *; [|split; [reflexivity|right; left; exact V]].
    unfold with_sol in *. destruct (action (calls s) T smart) as [v|] eqn:A.
    2:{ split; [reflexivity|]. right. right. constructor; [|constructor]. exists (calls s). intros (v & W & _). congruence. }
    destruct (good T (Some v)) eqn:G.
    { cbn [sols] in L. rewrite insert_length in L. lia. }
    split; [reflexivity|]. right. right. constructor; [|constructor]. exists (calls s). intros (w & W & P). rewrite A in W. injection W as <-.
    unfold good in G. destruct (Qeq_bool T 0) eqn:Z; [apply Qeq_bool_iff in Z; lra|]. apply Qlt_bool_false in G.
    assert (0 < v / T) by (apply Qlt_shift_div_l; lra). lra.
  Qed.
  Lemma unusable_both l T : unusable viable action l T [true] -> unusable viable action l T [false] -> unusable viable action l T [true; false].
  Proof.
    intros [H|[H|H]] K; [left; exact H|right; left; exact H|]. destruct K as [K|[K|K]]; [left; exact K|right; left; exact K|].
    right. right. inversion H; subst. constructor; assumption.
  Qed.
  Lemma pos_entry s x : inv s -> In x (sols s) -> 0 < sT x.
  Proof. intros (_ & P) H. unfold physical in P. rewrite Forall_forall in P. specialize (P x H). lra. Qed.
  Lemma up_line a b T : sT a < sT b -> per a < per b -> T == ((per a - (per b + 10)) * sT b - (per b - (per b + 10)) * sT a) / (per a - per b) -> on_line a b T (per b + 10).
  Proof. intros AB S E. unfold on_line. rewrite E. field. lra. Qed.
  Lemma down_line a b T : sT a < sT b -> per a < per b -> T == ((per a - (per a - 10)) * sT b - (per b - (per a - 10)) * sT a) / (per a - per b) -> on_line a b T (per a - 10).
  Proof. intros AB S E. unfold on_line. rewrite E. field. lra. Qed.
  Lemma div_pos_iff x y : 0 < y -> 0 < x -> 0 < x / y.
  Proof. intros. apply Qlt_shift_div_l; lra. Qed.

  Lemma up_char : forall fuel i s s', inv s -> (2 <= length (sols s))%nat ->
    GWScanTowardsHighAction Tm Tc viable action fuel i s = Ok s' ->
    exists new j, sols s' = sols s ++ new /\ extends_up Tc (sols s) new j /\ stops_up Tc viable action (sols s') (i + Z.of_nat j).
  Proof.
    induction fuel as [|fuel IH]; intros i s s' I L G; [discriminate|]. cbn [GWScanTowardsHighAction] in G.
    destruct (rev (sols s)) as [|b [|a rest]] eqn:E.
    { apply (f_equal (@length sol)) in E. rewrite rev_length in E. cbn in E. lia. }
    { apply (f_equal (@length sol)) in E. rewrite rev_length in E. cbn in E. lia. }
    pose proof (sorted_last2 _ _ _ _ (proj1 I) E) as AB.
    assert (EL : sols s = rev rest ++ [a; b]).
    { apply (f_equal (@rev sol)) in E. rewrite rev_involutive in E. cbn [rev] in E. rewrite <- app_assoc in E. exact E. }
    assert (PA : 0 < sT a) by (apply (pos_entry s); [exact I|rewrite EL; apply in_or_app; right; now left]).
    assert (PB : 0 < sT b) by (apply (pos_entry s); [exact I|rewrite EL; apply in_or_app; right; right; now left]).
    rewrite !ratio_some in G by assumption. fold (per a) (per b) in G. cbn zeta in G.
    assert (NE : sols s <> []) by (rewrite EL; destruct (rev rest); discriminate).
    assert (BT : sT b <= Tc).
    { destruct I as (_ & P). unfold physical in P. rewrite Forall_forall in P. specialize (P b ltac:(rewrite EL; apply in_or_app; right; right; now left)). lra. }
    assert (BM : Tm <= sT b).
    { destruct I as (_ & P). unfold physical in P. rewrite Forall_forall in P. specialize (P b ltac:(rewrite EL; apply in_or_app; right; right; now left)). lra. }
    assert (STOP : forall q, sols q = sols s -> stops_up Tc viable action (sols s) i -> Ok q = Ok s' ->
      exists new j, sols s' = sols s ++ new /\ extends_up Tc (sols s) new j /\ stops_up Tc viable action (sols s') (i + Z.of_nat j)).
    { intros q Q H K. injection K as <-. exists [], O. rewrite Q, app_nil_r, Z.add_0_r. split; [reflexivity|]. split; [constructor|exact H]. }
    destruct (negb (Qle_bool (inject_Z i) (1 + (200 - per b) / 10))) eqn:B1.
    { apply (STOP s); [reflexivity| |exact G]. exists (rev rest), a, b. split; [exact EL|]. right. left.
      apply negb_true_iff in B1. destruct (Qlt_le_dec (1 + (200 - per b) / 10) (inject_Z i)) as [|K]; [assumption|].
      apply Qle_bool_iff in K. congruence. }
    destruct (Qlt_bool 200 (per b)) eqn:B2.
    { apply (STOP s); [reflexivity| |exact G]. exists (rev rest), a, b. split; [exact EL|]. left. now qb. }
    destruct (Qeq_bool (per a) (per b)) eqn:B3.
    { apply (STOP s); [reflexivity| |exact G]. exists (rev rest), a, b. split; [exact EL|]. right. right. left. apply Qeq_bool_iff in B3. lra. }
    apply Qeq_bool_neq in B3. clear B1.
    set (T := Qred (((per a - (per b + 10)) * sT b - (per b - (per b + 10)) * sT a) / (per a - per b))) in *.
    destruct (Qlt_le_dec (per a) (per b)) as [LT|GE].
    2:{ assert (LT : per b < per a) by (apply Qle_lteq in GE as [|GE]; [assumption|]; symmetry in GE; contradiction).
        destruct (Qlt_bool T (sT b)) eqn:B4.
        - apply (STOP s); [reflexivity| |exact G]. exists (rev rest), a, b. split; [exact EL|]. right. right. left. exact GE.
        - exfalso. qb. assert (T == sT b - 10 * (sT b - sT a) / (per a - per b)) by (unfold T; rewrite Qred_correct; field; lra).
          assert (0 < 10 * (sT b - sT a) / (per a - per b)) by (apply div_pos_iff; lra). lra. }
    assert (OL : on_line a b T (per b + 10)) by (apply up_line; [exact AB|exact LT|apply Qred_correct]).
    assert (TB : sT b < T).
    { assert (T == sT b + 10 * (sT b - sT a) / (per b - per a)) by (unfold T; rewrite Qred_correct; field; lra).
      assert (0 < 10 * (sT b - sT a) / (per b - per a)) by (apply div_pos_iff; lra). lra. }
    destruct (Qlt_bool T (sT b)) eqn:B4; [qb; lra|]. clear B4. apply Qlt_bool_false in B2.
    assert (ADD : forall q U smart, inv q -> sols q = sols s -> sT b < U -> length (sols s) <> length (sols (CAA q U smart)) ->
      exists x, sT x = U /\ U <= Tc /\ sols (CAA q U smart) = sols s ++ [x] /\ inv (CAA q U smart)).
    { intros q U smart Iq Q HU N. destruct (CAA_cases Tm Tc ltac:(lra) viable action q U smart) as [F|(v & F & R & _)].
      - rewrite F, Q in N. contradiction.
      - exists {| sT := U; sS := v |}. split; [reflexivity|]. split; [lra|]. split; [|apply CAA_inv; [lra|exact Iq]].
        rewrite F, Q. apply insert_last. intros y Hy. cbn [sT]. pose proof (sorted_back _ _ _ (proj1 I) E y Hy). lra. }
    destruct (Qlt_bool Tc T) eqn:B5; qb.
    - destruct (Qlt_bool Tc (sT b + (sT b - sT a))) eqn:B6; qb.
      + apply (STOP s); [reflexivity| |exact G]. exists (rev rest), a, b. split; [exact EL|]. right. right. right. exists T.
        split; [exact LT|]. split; [exact OL|]. right. left. now split.
      + set (U := sT b + (sT b - sT a)) in *.
        destruct (Nat.eqb_spec (length (sols s)) (length (sols (CAA s U true)))) as [EQ|NQ].
        * destruct (CAA_none s U true NE ltac:(unfold U in *; lra) EQ) as [C1 C2].
          apply (STOP (CAA s U true)); [exact C1| |exact G]. exists (rev rest), a, b. split; [exact EL|]. right. right. right. exists T.
          split; [exact LT|]. split; [exact OL|]. right. right. now split.
        * destruct (ADD s U true I eq_refl ltac:(unfold U; lra) NQ) as (x & X1 & X2 & X3 & X4).
          destruct (IH i _ s' X4 ltac:(rewrite X3, app_length; cbn; lia) G) as (new & j & R1 & R2 & R3).
          exists (x :: new), j. rewrite X3 in R1, R2. split; [rewrite R1, <- app_assoc; reflexivity|]. split; [|exact R3].
          rewrite EL in *. rewrite <- app_assoc in R2. apply (up_mirrored Tc (rev rest) a b x T new j); [exact B2|exact LT|exact OL|exact B5|rewrite X1; reflexivity|rewrite X1; lra|exact R2].
    - destruct (Nat.eqb_spec (length (sols s)) (length (sols (CAA s T true)))) as [EQ|NQ].
      + destruct (CAA_none s T true NE ltac:(lra) EQ) as [C1 C2]. set (q := CAA s T true) in *.
        assert (Iq : inv q) by (apply CAA_inv; [lra|exact I]).
        destruct (Nat.eqb_spec (length (sols s)) (length (sols (CAA q T false)))) as [EQ2|NQ2].
        * destruct (CAA_none q T false ltac:(rewrite C1; exact NE) ltac:(lra) ltac:(rewrite C1; exact EQ2)) as [C3 C4].
          apply (STOP (CAA q T false)); [congruence| |exact G]. exists (rev rest), a, b. split; [exact EL|]. right. right. right. exists T.
          split; [exact LT|]. split; [exact OL|]. left. split; [lra|]. rewrite C1 in C4. now apply unusable_both.
        * destruct (ADD q T false Iq C1 TB NQ2) as (x & X1 & X2 & X3 & X4).
          destruct (IH (i + 1)%Z _ s' X4 ltac:(rewrite X3, app_length; cbn; lia) G) as (new & j & R1 & R2 & R3).
          exists (x :: new), (S j). rewrite X3 in R1, R2. split; [rewrite R1, <- app_assoc; reflexivity|]. split.
          -- rewrite EL in *. rewrite <- app_assoc in R2. apply (up_projected Tc (rev rest) a b x new j); auto; try (rewrite X1); auto.
          -- replace (i + Z.of_nat (S j))%Z with (i + 1 + Z.of_nat j)%Z by lia. exact R3.
      + destruct (Nat.eqb_spec (length (sols s)) (length (sols (CAA s T true)))) as [|_]; [contradiction|].
        destruct (ADD s T true I eq_refl TB NQ) as (x & X1 & X2 & X3 & X4).
        destruct (IH (i + 1)%Z _ s' X4 ltac:(rewrite X3, app_length; cbn; lia) G) as (new & j & R1 & R2 & R3).
        exists (x :: new), (S j). rewrite X3 in R1, R2. split; [rewrite R1, <- app_assoc; reflexivity|]. split.
        * rewrite EL in *. rewrite <- app_assoc in R2. apply (up_projected Tc (rev rest) a b x new j); auto; try (rewrite X1); auto.
        * replace (i + Z.of_nat (S j))%Z with (i + 1 + Z.of_nat j)%Z by lia. exact R3.
  Qed.

  Lemma down_char : forall fuel i s s', inv s -> (2 <= length (sols s))%nat ->
    GWScanTowardsLowAction Tm Tc viable action fuel i s = Ok s' ->
    exists new j, sols s' = new ++ sols s /\ extends_down Tm (sols s) new j /\ stops_down Tm viable action (sols s') (i + Z.of_nat j).
  Proof.
    induction fuel as [|fuel IH]; intros i s s' I L G; [discriminate|]. cbn [GWScanTowardsLowAction] in G.
    destruct (sols s) as [|a [|b rest]] eqn:EL; [cbn in L; lia|cbn in L; lia|]. rewrite <- EL in *.
    pose proof (sorted_second _ _ _ _ (proj1 I) EL) as AB.
    assert (PA : 0 < sT a) by (apply (pos_entry s); [exact I|rewrite EL; now left]).
    assert (PB : 0 < sT b) by (apply (pos_entry s); [exact I|rewrite EL; right; now left]).
    rewrite !ratio_some in G by assumption. fold (per a) (per b) in G. cbn zeta in G.
    assert (NE : sols s <> []) by (rewrite EL; discriminate).
    assert (BT : Tm <= sT a <= Tc).
    { destruct I as (_ & P). unfold physical in P. rewrite Forall_forall in P. specialize (P a ltac:(rewrite EL; now left)). lra. }
    assert (FIRST : forall y, In y (sols s) -> sT a <= sT y).
    { intros y Y. destruct I as (S & _). rewrite EL in S, Y. apply StronglySorted_inv in S as [_ F]. rewrite Forall_forall in F.
      destruct Y as [<-|Y]; [lra|]. specialize (F y Y). lra. }
    assert (STOP : forall q, sols q = sols s -> stops_down Tm viable action (sols s) i -> Ok q = Ok s' ->
      exists new j, sols s' = new ++ sols s /\ extends_down Tm (sols s) new j /\ stops_down Tm viable action (sols s') (i + Z.of_nat j)).
    { intros q Q H K. injection K as <-. exists [], O. rewrite Q, Z.add_0_r. split; [reflexivity|]. split; [constructor|exact H]. }
    destruct (negb (Qle_bool (inject_Z i) (1 + (per a - 50) / 10))) eqn:B1.
    { apply (STOP s); [reflexivity| |exact G]. exists rest, a, b. split; [exact EL|]. right. left.
      apply negb_true_iff in B1. destruct (Qlt_le_dec (1 + (per a - 50) / 10) (inject_Z i)) as [|K]; [assumption|].
      apply Qle_bool_iff in K. congruence. }
    destruct (Qlt_bool (per a) 50) eqn:B2.
    { apply (STOP s); [reflexivity| |exact G]. exists rest, a, b. split; [exact EL|]. left. now qb. }
    destruct (Qeq_bool (per a) (per b)) eqn:B3.
    { apply (STOP s); [reflexivity| |exact G]. exists rest, a, b. split; [exact EL|]. right. right. left. apply Qeq_bool_iff in B3. lra. }
    apply Qeq_bool_neq in B3. clear B1.
    set (T := Qred (((per a - (per a - 10)) * sT b - (per b - (per a - 10)) * sT a) / (per a - per b))) in *.
    destruct (Qlt_le_dec (per a) (per b)) as [LT|GE].
    2:{ assert (LT : per b < per a) by (apply Qle_lteq in GE as [|GE]; [assumption|]; symmetry in GE; contradiction).
        destruct (Qlt_bool (sT a) T) eqn:B4.
        - apply (STOP s); [reflexivity| |exact G]. exists rest, a, b. split; [exact EL|]. right. right. left. exact GE.
        - exfalso. qb. assert (T == sT a + 10 * (sT b - sT a) / (per a - per b)) by (unfold T; rewrite Qred_correct; field; lra).
          assert (0 < 10 * (sT b - sT a) / (per a - per b)) by (apply div_pos_iff; lra). lra. }
    assert (OL : on_line a b T (per a - 10)) by (apply down_line; [exact AB|exact LT|apply Qred_correct]).
    assert (TB : T < sT a).
    { assert (T == sT a - 10 * (sT b - sT a) / (per b - per a)) by (unfold T; rewrite Qred_correct; field; lra).
      assert (0 < 10 * (sT b - sT a) / (per b - per a)) by (apply div_pos_iff; lra). lra. }
    destruct (Qlt_bool (sT a) T) eqn:B4; [qb; lra|]. clear B4. apply Qlt_bool_false in B2.
    assert (ADD : forall q U smart, inv q -> sols q = sols s -> U < sT a -> length (sols s) <> length (sols (CAA q U smart)) ->
      exists x, sT x = U /\ Tm <= U /\ sols (CAA q U smart) = x :: sols s /\ inv (CAA q U smart)).
    { intros q U smart Iq Q HU N. destruct (CAA_cases Tm Tc ltac:(lra) viable action q U smart) as [F|(v & F & R & _)].
      - rewrite F, Q in N. contradiction.
      - exists {| sT := U; sS := v |}. split; [reflexivity|]. split; [lra|]. split; [|apply CAA_inv; [lra|exact Iq]].
        rewrite F, Q. apply insert_first. intros y Hy. cbn [sT]. specialize (FIRST y Hy). lra. }
    destruct (Qlt_bool T Tm) eqn:B5; qb.
    - destruct (Qlt_bool (sT a - (sT b - sT a)) Tm) eqn:B6; qb.
      + apply (STOP s); [reflexivity| |exact G]. exists rest, a, b. split; [exact EL|]. right. right. right. exists T.
        split; [exact LT|]. split; [exact OL|]. right. left. now split.
      + set (U := sT a - (sT b - sT a)) in *.
        destruct (Nat.eqb_spec (length (sols s)) (length (sols (CAA s U true)))) as [EQ|NQ].
        * destruct (CAA_none s U true NE ltac:(unfold U in *; lra) EQ) as [C1 C2].
          apply (STOP (CAA s U true)); [exact C1| |exact G]. exists rest, a, b. split; [exact EL|]. right. right. right. exists T.
          split; [exact LT|]. split; [exact OL|]. right. right. now split.
        * destruct (ADD s U true I eq_refl ltac:(unfold U; lra) NQ) as (x & X1 & X2 & X3 & X4).
          destruct (IH i _ s' X4 ltac:(rewrite X3; cbn; lia) G) as (new & j & R1 & R2 & R3).
          exists (new ++ [x]), j. rewrite X3 in R1, R2. split; [rewrite R1, <- app_assoc; reflexivity|]. split; [|exact R3].
          rewrite EL in *. apply (down_mirrored Tm rest a b x T new j); [exact B2|exact LT|exact OL|exact B5|rewrite X1; reflexivity|rewrite X1; lra|exact R2].
    - destruct (Nat.eqb_spec (length (sols s)) (length (sols (CAA s T true)))) as [EQ|NQ].
      + destruct (CAA_none s T true NE ltac:(lra) EQ) as [C1 C2]. set (q := CAA s T true) in *.
        assert (Iq : inv q) by (apply CAA_inv; [lra|exact I]).
        destruct (Nat.eqb_spec (length (sols s)) (length (sols (CAA q T false)))) as [EQ2|NQ2].
        * destruct (CAA_none q T false ltac:(rewrite C1; exact NE) ltac:(lra) ltac:(rewrite C1; exact EQ2)) as [C3 C4].
          apply (STOP (CAA q T false)); [congruence| |exact G]. exists rest, a, b. split; [exact EL|]. right. right. right. exists T.
          split; [exact LT|]. split; [exact OL|]. left. split; [lra|]. rewrite C1 in C4. now apply unusable_both.
        * destruct (ADD q T false Iq C1 TB NQ2) as (x & X1 & X2 & X3 & X4).
          destruct (IH (i + 1)%Z _ s' X4 ltac:(rewrite X3; cbn; lia) G) as (new & j & R1 & R2 & R3).
          exists (new ++ [x]), (S j). rewrite X3 in R1, R2. split; [rewrite R1, <- app_assoc; reflexivity|]. split.
          -- rewrite EL in *. apply (down_projected Tm rest a b x new j); auto; try (rewrite X1); auto.
          -- replace (i + Z.of_nat (S j))%Z with (i + 1 + Z.of_nat j)%Z by lia. exact R3.
      + destruct (Nat.eqb_spec (length (sols s)) (length (sols (CAA s T true)))) as [|_]; [contradiction|].
        destruct (ADD s T true I eq_refl TB NQ) as (x & X1 & X2 & X3 & X4).
        destruct (IH (i + 1)%Z _ s' X4 ltac:(rewrite X3; cbn; lia) G) as (new & j & R1 & R2 & R3).
        exists (new ++ [x]), (S j). rewrite X3 in R1, R2. split; [rewrite R1, <- app_assoc; reflexivity|]. split.
        * rewrite EL in *. apply (down_projected Tm rest a b x new j); auto; try (rewrite X1); auto.
        * replace (i + Z.of_nat (S j))%Z with (i + 1 + Z.of_nat j)%Z by lia. exact R3.
  Qed.
End Ext.
