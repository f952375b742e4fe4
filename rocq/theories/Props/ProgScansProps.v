(** C138: the scans over the temperature and the wall velocity. *)
From Coq Require Import Reals List ZArith Ascii String SpecFloat Lia Lra.
From Verif Require Import Model.ProgScans Spec.ProgScansSpec Proofs.ProgScansProofs.
Import ListNotations.
Local Open Scope R_scope.

(** With exact arithmetic the scan of the temperature ends; it has the temperatures Start, Start + Step, ... up to the last one that is
    not above End, and End itself if the step divides the interval. *)
Theorem C138_temperatures_partial : forall vec value nosol EWSBVEV VEff Minimize tree Start End Step, good_T rltb rleb 0 Start End Step = true ->
  exists n rows, (forall fuel, (S n < fuel)%nat -> VEVEVO R Rplus rleb reqb vec value nosol EWSBVEV VEff Minimize tree fuel Start End Step = (rows, true)) /\
    map row_T rows = progression Start Step (S n) /\ Start + INR n * Step <= End < Start + INR (S n) * Step /\
    (forall m : nat, End = Start + INR m * Step -> exists r, In r rows /\ row_T r = End).
Proof.
  intros vec value nosol EWSBVEV VEff Minimize tree Start End Step G. apply good_T_spec in G. destruct G as [P [_ L]].
  destruct (archimed_last Start End Step P L) as [n [A B]]. exists n, (fst (scan R Rplus rleb reqb vec value EWSBVEV VEff Minimize tree (S n) 0 Start End Step Start nosol)).
  assert (Q : forall j, (j < S n)%nat -> Start + INR j * Step <= End).
  { intros j J. assert (INR j <= INR n) by (apply le_INR; lia). nra. }
  split; [intros fuel F; apply scan_stops; assumption|]. assert (M := scan_rows vec value EWSBVEV VEff Minimize tree (S n) 0 Start End Step Start nosol Q).
  split; [exact M|]. split; [split; assumption|]. intros m E. assert (I : In End (progression Start Step (S n))).
  { unfold progression. apply in_map_iff. exists m. split; [symmetry; exact E|]. apply in_seq. split; [lia|].
    assert (INR m < INR (S n)) by nra. apply INR_lt in H. lia. }
  rewrite <- M in I. apply in_map_iff in I. destruct I as [r [R1 R2]]. exists r. split; assumption.
Qed.
(** Each row is the minimum found at its temperature; the search starts at the tree-level minimum for the first temperature and at
    the previous minimum for the others. *)
Theorem C138_rows : forall vec value nosol EWSBVEV VEff Minimize tree fuel Start End Step i r, 0 < Step ->
  let rows := fst (VEVEVO R Rplus rleb reqb vec value nosol EWSBVEV VEff Minimize tree fuel Start End Step) in
  nth_error rows i = Some r ->
  row_T r = Start + INR i * Step /\ row_sol r = Minimize i (row_T r) (row_start r) /\
  row_v r = EWSBVEV (row_sol r) /\ row_V r = VEff (row_sol r) (row_T r) /\
  match i with 0%nat => row_start r = tree | S j => exists p, nth_error rows j = Some p /\ row_start r = row_sol p end.
Proof.
  intros vec value nosol EWSBVEV VEff Minimize tree fuel Start End Step i r P rows H. unfold rows, VEVEVO in H |- *.
  destruct (scan_row vec value EWSBVEV VEff Minimize tree _ _ _ _ _ _ _ _ _ P (or_introl eq_refl) H) as [HT [_ [Hs [Hv [HV [Hst Hpr]]]]]].
  split; [exact HT|]. split; [exact Hs|]. split; [exact Hv|]. split; [exact HV|]. destruct i as [|i].
  - apply Hst. rewrite HT. cbn [INR]. ring.
  - apply Hpr. rewrite HT. assert (0 < INR (S i)) by (apply lt_0_INR; lia). nra.
Qed.

(** 0.1 and 0.3 as doubles *)
Notation tenth := (S754_finite false 7205759403792794 (-56)).
Notation three_tenths := (S754_finite false 5404319552844595 (-54)).
(** With doubles the last temperature is lost: 0, 0.1, 0.2 and not 0.3. *)
Theorem C138_end_refuted : exists Start End Step, good_T dltb dleb (S754_zero false) Start End Step = true /\
  SFeqb End (SFdiv 53 1024 (S754_finite false 6755399441055744 (-51)) (S754_finite false 5629499534213120 (-49))) = true /\
  SFeqb Step (SFdiv 53 1024 (S754_finite false 4503599627370496 (-52)) (S754_finite false 5629499534213120 (-49))) = true /\
  forall vec value nosol EWSBVEV VEff Minimize tree fuel, exists rows,
    VEVEVO double dadd dleb deqb vec value nosol EWSBVEV VEff Minimize tree (4 + fuel) Start End Step = (rows, true) /\
    List.length rows = 3%nat /\ Forall (fun r => dltb (row_T r) End = true) rows.
Proof.
  exists (S754_zero false), three_tenths, tenth. split; [vm_compute; reflexivity|]. split; [vm_compute; reflexivity|]. split; [vm_compute; reflexivity|].
  intros vec value nosol EWSBVEV VEff Minimize tree fuel. unfold VEVEVO. cbn [Nat.add scan].
  set (z := S754_zero false). set (e := three_tenths). set (t1 := dadd z tenth). set (t2 := dadd t1 tenth). set (t3 := dadd t2 tenth).
  assert (A0 : dleb z e = true) by (vm_compute; reflexivity). assert (A1 : dleb t1 e = true) by (vm_compute; reflexivity).
  assert (A2 : dleb t2 e = true) by (vm_compute; reflexivity). assert (A3 : dleb t3 e = false) by (vm_compute; reflexivity).
  assert (B0 : dltb z e = true) by (vm_compute; reflexivity). assert (B1 : dltb t1 e = true) by (vm_compute; reflexivity).
  assert (B2 : dltb t2 e = true) by (vm_compute; reflexivity).
  rewrite A0, A1, A2, A3. cbn [fst snd]. eexists. split; [reflexivity|]. split; [reflexivity|].
  repeat constructor; assumption.
Qed.
(** A positive step that is below the resolution of the start is accepted and the scan does not end: it writes the same temperature
    for ever.  Here 100, 200 and 2 to the power -50. *)
Theorem C138_end_of_scan_refuted : exists Start End Step, good_T dltb dleb (S754_zero false) Start End Step = true /\
  forall vec value nosol EWSBVEV VEff Minimize tree fuel,
    let r := VEVEVO double dadd dleb deqb vec value nosol EWSBVEV VEff Minimize tree fuel Start End Step in
    snd r = false /\ List.length (fst r) = fuel /\ Forall (fun x => row_T x = Start) (fst r).
Proof.
  exists (S754_finite false 7036874417766400 (-46)), (S754_finite false 7036874417766400 (-45)), (S754_finite false 4503599627370496 (-102)).
  split; [vm_compute; reflexivity|]. intros. cbv zeta. unfold VEVEVO.
  destruct (absorbed vec value EWSBVEV VEff Minimize tree fuel 0 (S754_finite false 7036874417766400 (-46)) (S754_finite false 7036874417766400 (-45)) (S754_finite false 4503599627370496 (-102)) nosol)
    as [H1 [H2 H3]]; try (vm_compute; reflexivity).
  split; [exact H1|]. split; [exact H2|]. eapply Forall_impl; [|exact H3]. intros x [X _]. exact X.
Qed.

(** The scan of the wall velocity with a positive step ends and stays between the bounds, inside (0, 1]. *)
Theorem C138_velocities_partial : forall value (CalcEta : R -> value) lo hi Step, good_vw rltb rleb reqb 0 1 lo hi Step = true -> 0 < Step ->
  exists n, (forall fuel, (S n < fuel)%nat -> scan_vw R Rplus rleb value CalcEta fuel lo hi Step = (map (fun x => (x, CalcEta x)) (progression lo Step (S n)), true)) /\
    lo + INR n * Step <= hi < lo + INR (S n) * Step /\ Forall (fun x => 0 < x <= 1) (progression lo Step (S n)).
Proof.
  intros value CalcEta lo hi Step G P. apply good_vw_spec in G. destruct G as [L0 [LH [H1 _]]].
  destruct (archimed_last lo hi Step P LH) as [n [A B]]. exists n.
  assert (Q : forall j, (j < S n)%nat -> lo + INR j * Step <= hi).
  { intros j J. assert (INR j <= INR n) by (apply le_INR; lia). nra. }
  split; [intros fuel F; apply vw_stops; assumption|]. split; [split; assumption|].
  apply Forall_forall. intros x X. unfold progression in X. apply in_map_iff in X. destruct X as [j [<- J]]. apply in_seq in J.
  specialize (Q j ltac:(lia)). assert (0 <= INR j) by apply pos_INR. nra.
Qed.
(** A negative step is accepted, although the message asks for one larger than zero; then the scan never ends and leaves the range
    of velocities. *)
Theorem C138_step_refuted : exists lo hi Step, good_vw rltb rleb reqb 0 1 lo hi Step = true /\ Step < 0 /\
  forall value (CalcEta : R -> value) fuel, let r := scan_vw R Rplus rleb value CalcEta (3 + fuel) lo hi Step in
    snd r = false /\ exists vw, In (vw, CalcEta vw) (fst r) /\ vw < 0.
Proof.
  exists (1 / 10), (1 / 2), (- (1 / 10)). split; [apply good_vw_spec; lra|]. split; [lra|]. intros value CalcEta fuel. cbv zeta.
  rewrite vw_rows.
  2: { intros j _. assert (0 <= INR j) by apply pos_INR. nra. }
  split; [reflexivity|]. exists (1 / 10 + INR 2 * - (1 / 10)). split; [|cbn [INR]; lra]. cbn [fst].
  apply in_map_iff. exists (1 / 10 + INR 2 * - (1 / 10)). split; [reflexivity|]. unfold progression. apply in_map_iff. exists 2%nat. split; [reflexivity|]. apply in_seq. lia.
Qed.

(** The rows of the scan of the velocity have the columns of the header. *)
Theorem C138_columns_partial : forall line1 line2 legend TC vc vw LW eta, columns line1 = columns line2 -> List.length eta = List.length legend ->
  (forall x, In x (TC :: vc :: vw :: LW :: eta ++ legend) -> ~ In (ascii_of_nat 9) x) ->
  columns (row_vw line2 TC vc vw LW eta) = columns (header_vw line1 legend).
Proof.
  intros line1 line2 legend TC vc vw LW eta C L T. unfold row_vw, header_vw.
  rewrite !columns_app.
  rewrite (columns_flat (fun x => x)) by (intros x X; apply T; do 4 right; apply in_or_app; left; exact X).
  rewrite (columns_flat (fun x => x ++ text "_var")).
  2: { intros x X I. apply in_app_or in I. destruct I as [I|I]; [apply (T x); [do 4 right; apply in_or_app; right; exact X|exact I]|].
       cbn in I. repeat destruct I as [I|I]; try discriminate I. exact I. }
  rewrite (columns_one TC), (columns_one vc), (columns_one vw), (columns_one LW) by (apply T; cbn; tauto).
  rewrite C, L. reflexivity.
Qed.
(** The line that is written without a strong first-order transition has a single column, and not those of the header. *)
Theorem C138_columns_refuted : forall linestr legend, no_transition = text "-1-1-1-1-1" /\ columns no_transition = 1%nat /\
  (5 <= columns (header_vw linestr legend))%nat /\ (10 <= columns (header_nL linestr))%nat.
Proof.
  intros linestr legend. split; [reflexivity|]. split; [reflexivity|]. unfold header_vw, header_nL. rewrite !columns_app. split.
  - assert (forall a, (1 <= columns a)%nat) by (intros a; unfold columns; lia).
    pose proof (H linestr). pose proof (H (text "T_c_var")). pose proof (H (text "omega_c_var")). pose proof (H (text "vw_var")).
    match goal with |- context [columns (text "LW_var" ++ ?x)] => pose proof (H (text "LW_var" ++ x)) end. lia.
  - assert (1 <= columns linestr)%nat by (unfold columns; lia).
    assert (forall a, (1 <= columns a)%nat) by (intros a; unfold columns; lia).
    pose proof (H0 (text "T_c_nLvar")). pose proof (H0 (text "omega_c_nLvar")). pose proof (H0 (text "vw_nLvar")). pose proof (H0 (text "LW_nLvar")).
    pose proof (H0 (text "z")). pose proof (H0 (text "z/LW")). pose proof (H0 (text "nL_VIA")). pose proof (H0 (text "muL_FH")). pose proof (H0 (text "nL_FH")). lia.
Qed.

(** * The hypotheses are met *)
Example C138_nonvacuous_temperatures : good_T rltb rleb 0 0 300 (1 / 2) = true /\ good_vw rltb rleb reqb 0 1 (1 / 10) (1 / 2) (1 / 10) = true.
Proof. split; [apply good_T_spec|apply good_vw_spec]; lra. Qed.
(** a minimizer that halves its start: three temperatures *)
Example C138_nonvacuous_rows :
  map (fun r => (row_T r, row_start r)) (fst (VEVEVO R Rplus rleb reqb R R 0 (fun x => x) (fun x _ => x) (fun _ _ x => x / 2) 8 3 0 2 1)) = [(0, 8); (1, 4); (2, 2)].
Proof.
  unfold VEVEVO. cbn [scan]. unfold rleb, reqb.
  repeat (match goal with |- context [Rle_dec ?a ?b] => destruct (Rle_dec a b); [|lra] | |- context [Req_EM_T ?a ?b] => destruct (Req_EM_T a b); try lra end).
  cbn [fst map row_T row_start]. repeat f_equal; lra.
Qed.
Example C138_nonvacuous_columns : columns (header_vw (text "m") [text "tau"; text "bot"]) = 7%nat /\
  columns (row_vw (text "125") (text "140") (text "200") (text "0.1") (text "0.2") [text "1"; text "2"]) = 7%nat.
Proof. split; reflexivity. Qed.

Print Assumptions C138_temperatures_partial.
Print Assumptions C138_rows.
Print Assumptions C138_end_refuted.
Print Assumptions C138_end_of_scan_refuted.
Print Assumptions C138_velocities_partial.
Print Assumptions C138_step_refuted.
Print Assumptions C138_columns_partial.
Print Assumptions C138_columns_refuted.
