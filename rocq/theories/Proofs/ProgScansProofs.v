(** Proofs about the scans. *)
From Coq Require Import Reals List ZArith Ascii String SpecFloat Lia Lra Arith.
From Verif Require Import Model.ProgScans Spec.ProgScansSpec.
Import ListNotations.
Local Open Scope R_scope.

(** * Exact arithmetic *)
Section Exact.
  Variable vec value : Type.
  Variable no_solution : vec.
  Variable EWSBVEV : vec -> value.
  Variable VEff : vec -> R -> value.
  Variable Minimize : nat -> R -> vec -> vec.
  Variable tree : vec.
  Notation rscan := (scan R Rplus rleb reqb vec value EWSBVEV VEff Minimize tree).

  Lemma scan_rows : forall fuel k Start End Step T sol, (forall j, (j < fuel)%nat -> T + INR j * Step <= End) ->
    map row_T (fst (rscan fuel k Start End Step T sol)) = progression T Step fuel.
  Proof.
    induction fuel as [|fuel IH]; intros k Start End Step T sol H; [reflexivity|]. cbn [scan].
    unfold rleb. destruct (Rle_dec T End) as [|N]; [|exfalso; apply N; specialize (H 0%nat ltac:(lia)); cbn [INR] in H; lra].
    cbn [fst map row_T]. rewrite IH.
    - unfold progression. cbn [seq map]. f_equal; [cbn [INR]; ring|]. rewrite <- seq_shift, map_map. apply map_ext. intros j. rewrite S_INR. ring.
    - intros j J. specialize (H (S j) ltac:(lia)). rewrite S_INR in H. lra.
  Qed.
  (** the loop stops at the first temperature above the end *)
  Lemma scan_stops : forall n fuel k Start End Step T sol, (forall j, (j < n)%nat -> T + INR j * Step <= End) -> End < T + INR n * Step -> (n < fuel)%nat ->
    rscan fuel k Start End Step T sol = (fst (rscan n k Start End Step T sol), true).
  Proof.
    induction n as [|n IH]; intros fuel k Start End Step T sol H E F.
    - destruct fuel as [|fuel]; [lia|]. cbn [scan fst]. cbn [INR] in E. unfold rleb. destruct (Rle_dec T End); [lra|]. reflexivity.
    - destruct fuel as [|fuel]; [lia|]. cbn [scan].
      unfold rleb. destruct (Rle_dec T End) as [|N]; [|exfalso; apply N; specialize (H 0%nat ltac:(lia)); cbn [INR] in H; lra].
      rewrite (IH fuel).
      + reflexivity.
      + intros j J. specialize (H (S j) ltac:(lia)). rewrite S_INR in H. lra.
      + rewrite S_INR in E. lra.
      + lia.
  Qed.
  (** what each row holds, and where the minimizer started *)
  Lemma scan_row : forall fuel k Start End Step T sol i r, 0 < Step -> (T = Start \/ Start < T) ->
    nth_error (fst (rscan fuel k Start End Step T sol)) i = Some r ->
    row_T r = T + INR i * Step /\ row_T r <= End /\ row_sol r = Minimize (k + i) (row_T r) (row_start r) /\
    row_v r = EWSBVEV (row_sol r) /\ row_V r = VEff (row_sol r) (row_T r) /\
    (row_T r = Start -> row_start r = tree) /\
    (row_T r <> Start -> match i with
                         | 0%nat => row_start r = sol
                         | S j => exists p, nth_error (fst (rscan fuel k Start End Step T sol)) j = Some p /\ row_start r = row_sol p
                         end).
  Proof.
    induction fuel as [|fuel IH]; intros k Start End Step T sol i r S0 C H.
    - destruct i; discriminate H.
    - cbn [scan] in H |- *. unfold rleb in H |- *. destruct (Rle_dec T End) as [LE|]; [|destruct i; discriminate H]. cbn [fst] in H |- *.
      destruct i as [|i]; cbn [nth_error] in H |- *.
      + injection H as <-. cbn [row_T row_sol row_v row_V row_start]. cbn [INR]. rewrite Nat.add_0_r. unfold reqb.
        split; [ring|]. split; [exact LE|]. split; [reflexivity|]. split; [reflexivity|]. split; [reflexivity|].
        destruct (Req_EM_T T Start); split; intros; try reflexivity; contradiction.
      + apply IH in H; [|exact S0|right; destruct C; lra]. destruct H as [HT [HE [Hs [Hv [HV [Hst Hpr]]]]]].
        split; [rewrite S_INR; rewrite HT; ring|]. split; [exact HE|]. split; [rewrite <- Nat.add_succ_comm; exact Hs|].
        split; [exact Hv|]. split; [exact HV|]. split; [exact Hst|]. intros NE. specialize (Hpr NE). destruct i as [|i].
        * eexists. split; [reflexivity|]. exact Hpr.
        * destruct Hpr as [p [P Q]]. exists p. split; [exact P|exact Q].
  Qed.
End Exact.

Lemma archimed_last : forall a b s, 0 < s -> a <= b -> exists n : nat, a + INR n * s <= b /\ b < a + INR (S n) * s.
Proof.
  intros a b s S0 L. set (x := (b - a) / s).
  assert (X0 : 0 <= x) by (unfold x; apply Rmult_le_pos; [lra|left; apply Rinv_0_lt_compat; lra]).
  assert (Xe : x * s = b - a) by (unfold x; field; lra).
  destruct (archimed x) as [A1 A2]. assert (0 < up x)%Z by (apply lt_IZR; lra).
  exists (Z.to_nat (up x - 1)).
  assert (E : INR (Z.to_nat (up x - 1)) = IZR (up x) - 1) by (rewrite INR_IZR_INZ, Z2Nat.id by lia; rewrite minus_IZR; reflexivity).
  rewrite S_INR, E. split; nra.
Qed.
Lemma good_T_spec : forall Start End Step, good_T rltb rleb 0 Start End Step = true <-> 0 < Step /\ 0 <= Start /\ Start <= End.
Proof.
  intros. unfold good_T, rltb, rleb. destruct (Rle_dec Step 0), (Rlt_dec Start 0), (Rlt_dec End Start); cbn; split; intros H; try discriminate; try reflexivity; lra.
Qed.
Lemma good_vw_spec : forall lo hi Step, good_vw rltb rleb reqb 0 1 lo hi Step = true <-> 0 < lo /\ lo <= hi /\ hi <= 1 /\ Step <> 0.
Proof.
  intros. unfold good_vw, rltb, rleb, reqb.
  destruct (Rle_dec lo 0), (Rlt_dec 1 lo), (Rle_dec hi 0), (Rlt_dec 1 hi), (Req_EM_T Step 0), (Rlt_dec hi lo); cbn; split; intros H; try discriminate; try reflexivity; try lra;
  repeat split; lra.
Qed.

Section Velocity.
  Variable value : Type.
  Variable CalcEta : R -> value.
  Notation vscan := (scan_vw R Rplus rleb value CalcEta).
  Lemma vw_rows : forall fuel vw hi Step, (forall j, (j < fuel)%nat -> vw + INR j * Step <= hi) ->
    vscan fuel vw hi Step = (map (fun x => (x, CalcEta x)) (progression vw Step fuel), false).
  Proof.
    induction fuel as [|fuel IH]; intros vw hi Step H; [reflexivity|]. cbn [scan_vw].
    unfold rleb. destruct (Rle_dec vw hi) as [|N]; [|exfalso; apply N; specialize (H 0%nat ltac:(lia)); cbn [INR] in H; lra].
    rewrite IH.
    - cbn [fst snd]. unfold progression. cbn [seq map]. cbn [INR]. replace (vw + 0 * Step) with vw by ring. do 2 f_equal.
      rewrite <- seq_shift, !map_map. apply map_ext. intros j. rewrite S_INR. replace (vw + Step + INR j * Step) with (vw + (INR j + 1) * Step) by ring. reflexivity.
    - intros j J. specialize (H (S j) ltac:(lia)). rewrite S_INR in H. lra.
  Qed.
  Lemma vw_stops : forall n fuel vw hi Step, (forall j, (j < n)%nat -> vw + INR j * Step <= hi) -> hi < vw + INR n * Step -> (n < fuel)%nat ->
    vscan fuel vw hi Step = (map (fun x => (x, CalcEta x)) (progression vw Step n), true).
  Proof.
    induction n as [|n IH]; intros fuel vw hi Step H E F.
    - destruct fuel as [|fuel]; [lia|]. cbn [scan_vw]. cbn [INR] in E. unfold rleb. destruct (Rle_dec vw hi); [lra|]. reflexivity.
    - destruct fuel as [|fuel]; [lia|]. cbn [scan_vw].
      unfold rleb. destruct (Rle_dec vw hi) as [|N]; [|exfalso; apply N; specialize (H 0%nat ltac:(lia)); cbn [INR] in H; lra].
      rewrite (IH fuel).
      + cbn [fst snd]. unfold progression. cbn [seq map]. cbn [INR]. replace (vw + 0 * Step) with vw by ring. do 2 f_equal.
        rewrite <- seq_shift, !map_map. apply map_ext. intros j. rewrite S_INR. replace (vw + Step + INR j * Step) with (vw + (INR j + 1) * Step) by ring. reflexivity.
      + intros j J. specialize (H (S j) ltac:(lia)). rewrite S_INR in H. lra.
      + rewrite S_INR in E. lra.
      + lia.
  Qed.
End Velocity.

(** * Doubles *)
Lemma absorbed : forall vec value EWSBVEV VEff Minimize tree fuel k Start End Step sol, dadd Start Step = Start -> dleb Start End = true -> deqb Start Start = true ->
  let r := scan double dadd dleb deqb vec value EWSBVEV VEff Minimize tree fuel k Start End Step Start sol in
  snd r = false /\ List.length (fst r) = fuel /\ Forall (fun x => row_T x = Start /\ row_start x = tree) (fst r).
Proof.
  intros vec value EWSBVEV VEff Minimize tree fuel. induction fuel as [|fuel IH]; intros k Start End Step sol A L Q.
  - cbn [scan]. repeat split. constructor.
  - cbv zeta. cbn [scan]. rewrite L, Q, A.
    specialize (IH (S k) Start End Step (Minimize k Start tree) A L Q). cbv zeta in IH. destruct IH as [I1 [I2 I3]].
    cbn [fst snd List.length]. split; [exact I1|]. split; [rewrite I2; reflexivity|]. constructor; [split; reflexivity|exact I3].
Qed.

(** * Columns *)
Lemma columns_app : forall a b, columns (a ++ sep ++ b) = (columns a + columns b)%nat.
Proof. intros a b. unfold columns, sep. rewrite !count_occ_app. cbn [count_occ]. destruct (ascii_dec (ascii_of_nat 9) (ascii_of_nat 9)); [lia|contradiction]. Qed.
Lemma columns_one : forall a, ~ In (ascii_of_nat 9) a -> columns a = 1%nat.
Proof. intros a H. unfold columns. rewrite (proj1 (count_occ_not_In ascii_dec a _) H). reflexivity. Qed.
Lemma columns_flat : forall (f : list ascii -> list ascii) l a, (forall x, In x l -> ~ In (ascii_of_nat 9) (f x)) ->
  columns (a ++ flat_map (fun x => sep ++ f x) l) = (columns a + List.length l)%nat.
Proof.
  intros f. induction l as [|x l IH]; intros a H; cbn [flat_map List.length].
  - rewrite app_nil_r. lia.
  - rewrite <- app_assoc. rewrite columns_app. rewrite IH by (intros; apply H; right; assumption).
    rewrite (columns_one (f x)) by (apply H; left; reflexivity). lia.
Qed.
