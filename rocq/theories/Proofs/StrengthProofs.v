(** Proofs about CalculatePTStrength and the order of evaluation in the transition tracer. *)
From Coq Require Import QArith Qabs.
From Verif.Model Require Import Base History Tracer.
From Verif.Spec Require Import ReportSpec.
From Verif.Proofs Require Import ReportProofs.
Open Scope Z_scope.

Section Strength.
Variable o : oracles.

Lemma perc_fields f b : let b' := CalculatePercolationTemp o f b in
  uvwall b' = uvwall b /\ vwall b' = vwall b /\ alpha b' = alpha b /\ Tcompl b' = Tcompl b /\
  (perc_set b = true -> perc_set b' = true /\ Tperc b' = o_tfrac_1 o (vwall b) f).
Proof.
  unfold CalculatePercolationTemp. destruct (perc_set b) eqn:E; cbn [negb]; rewrite ?andb_false_r, ?andb_true_r.
  - cbn. auto 10.
  - destruct (Qgt0 _); cbn; (split; [reflexivity|]); (split; [reflexivity|]); (split; [reflexivity|]); (split; [reflexivity|discriminate]).
Qed.

Lemma wall_fields b : let b' := CalculateWallVelocity o b in
  uvwall b' = uvwall b /\ alpha b' = alpha b /\ Tperc b' = Tperc b /\ perc_set b' = perc_set b /\
  (Qle_bool 0 (uvwall b) = true -> vwall b' = Some (uvwall b)).
Proof.
  unfold CalculateWallVelocity. destruct (Qle_bool 0 (uvwall b)) eqn:E; [cbn; auto 10|].
  destruct (Qeq_bool (uvwall b) (-1)); [cbn; auto 10; intuition congruence|].
  destruct (Qeq_bool (uvwall b) (-2)); cbn; intuition congruence.
Qed.

Lemma round_fields b : perc_set b = true -> let b' := pt_round o b in
  uvwall b' = uvwall b /\ perc_set b' = true /\ Tperc b' = o_tfrac_1 o (vwall b) default_perc /\
  alpha b' = o_alpha o (Tperc b') /\ (Qle_bool 0 (uvwall b) = true -> vwall b' = Some (uvwall b)).
Proof.
  intro P. unfold pt_round. set (b1 := CalculatePercolationTemp o default_perc b).
  destruct (perc_fields default_perc b) as (A1 & A2 & A3 & A4 & A5). fold b1 in A1, A2, A3, A4, A5.
  destruct (A5 P) as (A6 & A7).
  destruct (wall_fields (set_alpha (o_alpha o (Tperc b1)) b1)) as (B1 & B2 & B3 & B4 & B5). cbn in *.
  rewrite B1, B2, B3, B4, A1. rewrite A1 in B5. auto 10.
Qed.

(** the loop ends in a state whose strength belongs to its percolation temperature *)
Lemma loop_fields : forall n b b' ok, perc_set b = true -> pt_loop o n b = (b', ok) ->
  uvwall b' = uvwall b /\ perc_set b' = true /\
  (ok = true -> alpha b' = o_alpha o (Tperc b') /\
     exists v, Tperc b' = o_tfrac_1 o v default_perc /\
       (Qle_bool 0 (uvwall b) = true -> vwall b = Some (uvwall b) -> v = Some (uvwall b) /\ vwall b' = Some (uvwall b))).
Proof.
  induction n as [|n IH]; intros b b' ok P H; cbn [pt_loop] in H.
  - injection H as <- <-. split; [reflexivity|]. split; [exact P|discriminate].
  - destruct (round_fields b P) as (R1 & R2 & R3 & R4 & R5). cbv zeta in *.
    destruct (converged _ _).
    + injection H as <- <-. split; [exact R1|]. split; [exact R2|]. intros _. split; [exact R4|].
      exists (vwall b). split; [exact R3|]. intros U V. split; [exact V|]. now apply R5.
    + destruct (IH _ _ _ R2 H) as (I1 & I2 & I3). split; [congruence|]. split; [exact I2|].
      intro E. destruct (I3 E) as (I4 & v & I5 & I6). split; [exact I4|]. exists v. split; [exact I5|].
      intros U V. rewrite R1 in I6. apply I6; [exact U|]. now apply R5.
Qed.

Lemma strength_fields : forall fuel b b', CalculatePTStrength o fuel b = Ok b' ->
  alpha b' = o_alpha o (Tperc b') /\ (uvwall b' = uvwall b \/ uvwall b' = 0.95%Q) /\
  exists v, Tperc b' = o_tfrac_1 o v default_perc /\
    (Qle_bool 0 (uvwall b') = true -> v = Some (uvwall b') /\ vwall b' = Some (uvwall b')).
Proof.
  induction fuel as [|f IH]; intros b b' H; cbn [CalculatePTStrength] in H; [discriminate|].
  destruct (perc_set b) eqn:P; cbn [negb] in H; [|discriminate].
  set (b0 := set_vwall _ b) in H. assert (P0 : perc_set b0 = true) by exact P.
  destruct (pt_loop o 20 b0) as [b1 ok] eqn:L. destruct (loop_fields _ _ _ _ P0 L) as (F1 & F2 & F3).
  destruct ok.
  - assert (b1 = b') by congruence. subst b1. destruct (F3 eq_refl) as (F4 & v & F5 & F6). split; [exact F4|]. split; [left; exact F1|].
    exists v. split; [exact F5|]. intro U. rewrite F1 in *. cbn in U |- *. apply F6; [exact U|]. cbn. now rewrite U.
  - destruct (IH _ _ H) as (G1 & G2 & G3). split; [exact G1|]. split; [right; destruct G2; assumption|exact G3].
Qed.

Lemma converged_same a : ~ (a == 0)%Q -> converged (Some a) (Some a) = true.
Proof.
  intro H. unfold converged. destruct (Qeq_bool a 0) eqn:E; [apply Qeq_bool_eq in E; contradiction|]. cbn [negb andb].
  assert (X : (Qabs (a / a - 1) == 0)%Q).
  { unfold Qdiv. rewrite Qmult_inv_r by exact H. reflexivity. }
  destruct (Qle_bool 1e-7 (Qabs (a / a - 1))) eqn:E2; [|reflexivity].
  apply Qle_bool_iff in E2. rewrite X in E2. exfalso. apply Qle_not_lt in E2. apply E2. reflexivity.
Qed.

(** with a fixed wall velocity the second round converges *)
Lemma fixed_velocity_converges n b v a : perc_set b = true -> Qle_bool 0 v = true -> uvwall b = v -> vwall b = Some v ->
  o_alpha o (o_tfrac_1 o (Some v) default_perc) = Some a -> ~ (a == 0)%Q ->
  exists b', pt_loop o (S (S n)) b = (b', true).
Proof.
  intros P V U W A Z. cbn [pt_loop]. destruct (converged _ _); [eauto|].
  destruct (round_fields b P) as (R1 & R2 & R3 & R4 & R5). rewrite U in R1, R5. specialize (R5 V).
  set (b1 := pt_round o b) in *.
  destruct (round_fields b1 R2) as (S1 & S2 & S3 & S4 & S5).
  set (b2 := pt_round o b1) in *.
  assert (E1 : alpha b1 = Some a) by (rewrite R4, R3, W; exact A).
  assert (E2 : alpha b2 = Some a) by (rewrite S4, S3, R5; exact A).
  rewrite E1, E2, converged_same by exact Z. eauto.
Qed.

Theorem strength_terminates b a :
  perc_set b = true ->
  o_alpha o (o_tfrac_1 o (Some 0.95%Q) default_perc) = Some a -> ~ (a == 0)%Q ->
  exists b', CalculatePTStrength o 2 b = Ok b'.
Proof.
  intros P A Z. remember 1%nat as f. cbn [CalculatePTStrength]. rewrite P. cbn [negb].
  set (b0 := set_vwall _ b). destruct (pt_loop o 20 b0) as [b1 [|]] eqn:L; [eauto|].
  destruct (loop_fields 20 b0 b1 false P L) as (F1 & F2 & _). subst f. cbn [CalculatePTStrength set_uvwall perc_set].
  rewrite F2. cbn [negb uvwall].
  set (b2 := set_vwall _ _).
  assert (exists b3, pt_loop o 20 b2 = (b3, true)) as (b3 & ->); [|eauto].
  exact (fixed_velocity_converges 18 b2 0.95%Q a F2 eq_refl eq_refl eq_refl A Z).
Qed.

Theorem strength_diverges : (forall T, o_alpha o T = None \/ exists a, o_alpha o T = Some a /\ (a == 0)%Q) ->
  forall fuel b, perc_set b = true -> CalculatePTStrength o fuel b = OutOfFuel.
Proof.
  intro A.
  assert (C : forall x T, converged (o_alpha o T) x = false).
  { intros [y|] T; destruct (A T) as [->|(a & -> & Ha)]; try reflexivity. unfold converged.
    assert (Q : (Qabs (a / y - 1) == 1)%Q) by (rewrite Ha; unfold Qdiv; rewrite Qmult_0_l; reflexivity).
    assert (X : Qle_bool 1e-7 (Qabs (a / y - 1)) = true) by (apply Qle_bool_iff; rewrite Q; discriminate).
    rewrite X. apply andb_false_r. }
  assert (L : forall n b, perc_set b = true -> exists b', pt_loop o n b = (b', false) /\ perc_set b' = true).
  { induction n as [|n IH]; intros b P; cbn [pt_loop]; [eauto|].
    destruct (round_fields b P) as (_ & R2 & _ & R4 & _). rewrite R4, C. exact (IH _ R2). }
  induction fuel as [|f IH]; intros b P; [reflexivity|]. cbn [CalculatePTStrength]. rewrite P. cbn [negb].
  set (b0 := set_vwall _ b). destruct (L 20%nat b0 P) as (b' & -> & P'). apply IH. exact P'.
Qed.

Theorem strength_needs_percolation fuel b : perc_set b = false -> CalculatePTStrength o (S fuel) b = Throw RuntimeError.
Proof. intro P. cbn [CalculatePTStrength]. now rewrite P. Qed.

(** it never throws once the percolation temperature is set *)
Lemma strength_no_throw : forall fuel b e, perc_set b = true -> CalculatePTStrength o fuel b <> Throw e.
Proof.
  induction fuel as [|f IH]; intros b e P; cbn [CalculatePTStrength]; [discriminate|]. rewrite P. cbn [negb].
  set (b0 := set_vwall _ b). destruct (pt_loop o 20 b0) as [b1 ok] eqn:L.
  destruct (loop_fields _ _ _ _ (P : perc_set b0 = true) L) as (_ & F & _).
  destruct ok; [discriminate|]. apply IH. exact F.
Qed.
Lemma strength_no_UB : forall fuel b, CalculatePTStrength o fuel b <> UB.
Proof.
  induction fuel as [|f IH]; intros b; cbn [CalculatePTStrength]; [discriminate|].
  destruct (perc_set b); cbn [negb]; [|discriminate].
  set (b0 := set_vwall _ b). destruct (pt_loop o 20 b0) as [b1 [|]]; [discriminate|apply IH].
Qed.
End Strength.

(** ** What the tracer does with it *)

Lemma bounce_of_fields o inp : let b := bounce_of o inp in
  uvwall b = i_vwall inp /\ vwall b = Some 0.95%Q /\
  (status_perc b = Te_Success <-> perc_set b = true) /\
  (status_perc b = Te_Success -> Tperc b = o_tfrac_1 o (Some 0.95%Q) default_perc) /\
  (status_compl b = Te_Success -> Tcompl b = o_tfrac_2 o (Some 0.95%Q) default_compl).
Proof.
  unfold bounce_of. set (b1 := CalculatePercolationTemp o default_perc (new_bounce (i_vwall inp))).
  assert (P : uvwall b1 = i_vwall inp /\ vwall b1 = Some 0.95%Q /\ (status_perc b1 = Te_Success <-> perc_set b1 = true) /\
     (status_perc b1 = Te_Success -> Tperc b1 = o_tfrac_1 o (Some 0.95%Q) default_perc) /\
     status_compl b1 = Te_NotSet /\ compl_set b1 = false).
  { unfold b1, CalculatePercolationTemp. cbn. destruct (Qgt0 _); cbn.
    - split; [reflexivity|]. split; [reflexivity|]. split; [tauto|]. split; [reflexivity|]. split; reflexivity.
    - destruct (Qlt0 _); (split; [reflexivity|]); (split; [reflexivity|]); (split; [split; discriminate|]);
        (split; [discriminate|]); split; reflexivity. }
  destruct P as (P1 & P2 & P3 & P4 & P5 & P6). unfold CalculateCompletionTemp. rewrite P6.
  destruct (Qgt0 _ && _); cbn; rewrite ?P1, ?P2.
  - split; [reflexivity|]. split; [reflexivity|]. split; [exact P3|]. split; [exact P4|]. reflexivity.
  - split; [reflexivity|]. split; [reflexivity|]. split; [exact P3|]. split; [exact P4|].
    rewrite P5. destruct (Qlt0 _); discriminate.
Qed.

(** the data of a pair with a bounce solution *)
Lemma run_pair_bounce n inp fuel o s s' : tried o -> o_bounce o = Gw_Success ->
  run_pair n inp fuel o s = Ok s' ->
  let b := bounce_of o inp in
  exists d g, v_trans s' = v_trans s ++ [d] /\ v_gw s' = v_gw s ++ [g] /\
    s_p s' = s_p s ++ [status_perc b] /\ s_c s' = s_c s ++ [status_compl b] /\
    (status_perc b = Te_Success -> d_p d = Some (Tperc b)) /\ (status_compl b = Te_Success -> d_c d = Some (Tcompl b)) /\
    (if is_temp_success (trans_status o b (i_which inp)) && i_gw inp
     then gw_calc fuel o (i_which inp) b = Ok g else g = no_gw).
Proof.
  intros T B H b. unfold run_pair in H.
  assert (PB : status_perc (CalculatePercolationTemp o default_perc (new_bounce (i_vwall inp))) = status_perc b /\
               Tperc (CalculatePercolationTemp o default_perc (new_bounce (i_vwall inp))) = Tperc b).
  { unfold b, bounce_of. unfold CalculateCompletionTemp. set (b1 := CalculatePercolationTemp _ _ _). now destruct (Qgt0 _ && _). }
  destruct PB as [PB1 PB2].
  fold (bounce_of o inp) in H. fold b in H. rewrite B in H. cbv zeta in H.
  assert (Z : exists g, (if is_temp_success (trans_status o b (i_which inp)) && i_gw inp then gw_calc fuel o (i_which inp) b else Ok no_gw) = Ok g).
  { destruct T as [T|T]; rewrite T in H;
      destruct (if is_temp_success _ && _ then _ else _) as [g| | |]; try discriminate; eauto. }
  destruct Z as (g & Z).
  assert (H' : exists d0, s' = finish o (stage n o set_c (status_compl b) (Tcompl b) (stage n o set_p (status_perc b) (Tperc b) d0)) g
     (push_c (status_compl b) (push_p (status_perc b) (push_n (fst (o_nucl o)) (push_na (fst (o_nucl_approx o))
        (push_bounce Gw_Success (push_crit (o_crit o) s))))))).
  { rewrite Z, PB1, PB2 in H. destruct T as [T|T]; rewrite T in H |- *; cbn [bind] in H; injection H as <-; eexists; reflexivity. }
  destruct H' as (d0 & ->).
  eexists _, g. unfold finish, push_data. cbn [v_trans v_gw s_p s_c push_c push_p push_n push_na push_bounce push_crit].
  split; [reflexivity|]. split; [reflexivity|]. split; [reflexivity|]. split; [reflexivity|].
  cbn [d_p d_c set_crit]. split; [|split].
  - intro E. unfold stage. rewrite E. cbn [is_temp_success]. destruct (is_temp_success (status_compl b)); reflexivity.
  - intro E. unfold stage. rewrite E. reflexivity.
  - destruct (_ && _); [exact Z|congruence].
Qed.

Lemma gw_calc_fields fuel o which b g : gw_calc fuel o which b = Ok g ->
  g_vwall g = vwall b /\ exists b', CalculatePTStrength o fuel b = Ok b' /\ g_alpha g = alpha b'.
Proof.
  unfold gw_calc. intro H. destruct (CalculatePTStrength o fuel b) as [b'| | |]; try discriminate. cbn [bind] in H.
  destruct (o_spectrum o b') as [[[[[[[[x1 x2] x3] x4] x5] x6] x7] x8] x9].
  destruct (gw_status0 o b' which); injection H as <-; (split; [reflexivity|]); exists b'; split; reflexivity.
Qed.

(** the data do not depend on the requested fractions *)
Lemma run_pair_ignores_fractions n inp fuel o s p c :
  run_pair n {| i_vwall := i_vwall inp; i_perc_prbl := p; i_compl_prbl := c; i_ewsr_check := i_ewsr_check inp;
                i_nlo_check := i_nlo_check inp; i_gw := i_gw inp; i_which := i_which inp |} fuel o s = run_pair n inp fuel o s.
Proof. reflexivity. Qed.

(** no exception for the default transition temperature *)
Lemma run_pair_no_throw n inp fuel o s e : i_which inp = 3 \/ i_gw inp = false ->
  run_pair n inp fuel o s <> Throw e /\ run_pair n inp fuel o s <> UB.
Proof.
  intro W.
  assert (G : let b := bounce_of o inp in
    (if is_temp_success (trans_status o b (i_which inp)) && i_gw inp then gw_calc fuel o (i_which inp) b else Ok no_gw) <> Throw e /\
    (if is_temp_success (trans_status o b (i_which inp)) && i_gw inp then gw_calc fuel o (i_which inp) b else Ok no_gw) <> UB).
  { intro b. destruct W as [W|W]; rewrite W; [|rewrite andb_false_r; split; discriminate].
    unfold trans_status. cbn [Z.eqb Pos.eqb]. destruct (status_perc b) eqn:E; cbn [is_temp_success andb]; try (split; discriminate).
    destruct (i_gw inp); [|split; discriminate].
    destruct (bounce_of_fields o inp) as (_ & _ & F & _). fold b in F. apply F in E. unfold gw_calc.
    assert (N1 := strength_no_throw o fuel b e E). assert (N2 := strength_no_UB o fuel b).
    destruct (CalculatePTStrength o fuel b) as [b'| | |]; cbn [bind]; try (split; congruence).
    destruct (o_spectrum o b') as [[[[[[[[x1 x2] x3] x4] x5] x6] x7] x8] x9].
    destruct (gw_status0 o b' 3); split; discriminate. }
  cbv zeta in G. destruct G as [G1 G2].
  unfold run_pair. fold (bounce_of o inp). cbv zeta.
  destruct (o_crit o); try (split; discriminate); destruct (o_bounce o); try (split; discriminate);
    destruct (if is_temp_success _ && _ then _ else _) as [g|e0| |]; cbn [bind]; split; congruence.
Qed.

(** ** Statements about the tracer *)
Lemma default_fractions n inp fuel o s s' :
  i_perc_prbl inp = 0.71%Q -> i_compl_prbl inp = 0.01%Q -> tried o -> o_bounce o = Gw_Success ->
  run_pair n inp fuel o s = Ok s' ->
  exists d p c, v_trans s' = v_trans s ++ [d] /\ s_p s' = s_p s ++ [p] /\ s_c s' = s_c s ++ [c] /\
    (p = Te_Success -> exists v, d_p d = Some (o_tfrac_1 o v (i_perc_prbl inp))) /\
    (c = Te_Success -> exists v, d_c d = Some (o_tfrac_2 o v (i_compl_prbl inp))).
Proof.
  intros -> -> T B H. destruct (run_pair_bounce n inp fuel o s s' T B H) as (d & g & H1 & _ & H2 & H3 & H4 & H5 & _).
  destruct (bounce_of_fields o inp) as (_ & _ & _ & F1 & F2).
  exists d, (status_perc (bounce_of o inp)), (status_compl (bounce_of o inp)).
  split; [exact H1|]. split; [exact H2|]. split; [exact H3|].
  split; intro E; exists (Some 0.95%Q).
  - rewrite (H4 E), (F1 E). reflexivity.
  - rewrite (H5 E), (F2 E). reflexivity.
Qed.

Lemma percolation_velocity n inp fuel o s s' :
  i_vwall inp = 0.95%Q -> tried o -> o_bounce o = Gw_Success ->
  run_pair n inp fuel o s = Ok s' ->
  exists d p c, v_trans s' = v_trans s ++ [d] /\ s_p s' = s_p s ++ [p] /\ s_c s' = s_c s ++ [c] /\
    (p = Te_Success -> exists f, d_p d = Some (o_tfrac_1 o (Some (i_vwall inp)) f)) /\
    (c = Te_Success -> exists f, d_c d = Some (o_tfrac_2 o (Some (i_vwall inp)) f)).
Proof.
  intros V T B H. destruct (run_pair_bounce n inp fuel o s s' T B H) as (d & g & H1 & _ & H2 & H3 & H4 & H5 & _).
  destruct (bounce_of_fields o inp) as (_ & _ & _ & F1 & F2).
  exists d, (status_perc (bounce_of o inp)), (status_compl (bounce_of o inp)). rewrite V.
  split; [exact H1|]. split; [exact H2|]. split; [exact H3|].
  split; intro E.
  - exists default_perc. rewrite (H4 E), (F1 E). reflexivity.
  - exists default_compl. rewrite (H5 E), (F2 E). reflexivity.
Qed.

Lemma used_velocity o fuel b b' : CalculatePTStrength o fuel b = Ok b' ->
  alpha b' = o_alpha o (Tperc b') /\
  ((0 <= uvwall b)%Q -> exists v, (v = uvwall b \/ v = 0.95%Q) /\ vwall b' = Some v /\
     Tperc b' = o_tfrac_1 o (Some v) 0.71%Q).
Proof.
  intro H. destruct (strength_fields o fuel b b' H) as (A & U & v & T & V). split; [exact A|]. intro P.
  assert (Q : Qle_bool 0 (uvwall b') = true).
  { destruct U as [->| ->]; [now apply Qle_bool_iff|reflexivity]. }
  destruct (V Q) as (-> & W). exists (uvwall b'). split; [exact U|]. split; [exact W|exact T].
Qed.

Lemma always_default n inp fuel o s s' :
  tried o -> o_bounce o = Gw_Success -> i_gw inp = true ->
  trans_status o (bounce_of o inp) (i_which inp) = Te_Success ->
  run_pair n inp fuel o s = Ok s' ->
  exists g b', v_gw s' = v_gw s ++ [g] /\ g_vwall g = Some 0.95%Q /\
    CalculatePTStrength o fuel (bounce_of o inp) = Ok b' /\ g_alpha g = alpha b'.
Proof.
  intros T B G S H. destruct (run_pair_bounce n inp fuel o s s' T B H) as (d & g & _ & H1 & _ & _ & _ & _ & H2).
  rewrite S, G in H2. cbn [is_temp_success andb] in H2. apply gw_calc_fields in H2 as (E & b' & E1 & E2).
  exists g, b'. split; [exact H1|]. split; [|split; assumption]. rewrite E. apply (bounce_of_fields o inp).
Qed.

Lemma reported_velocity n inp fuel o s s' :
  i_vwall inp = 0.95%Q -> tried o -> o_bounce o = Gw_Success -> i_gw inp = true ->
  trans_status o (bounce_of o inp) (i_which inp) = Te_Success ->
  run_pair n inp fuel o s = Ok s' ->
  exists g b', v_gw s' = v_gw s ++ [g] /\ CalculatePTStrength o fuel (bounce_of o inp) = Ok b' /\
    g_vwall g = vwall b' /\ g_alpha g = alpha b'.
Proof.
  intros V T B G S H. destruct (always_default n inp fuel o s s' T B G S H) as (g & b' & H1 & H2 & H3 & H4).
  exists g, b'. split; [exact H1|]. split; [exact H3|]. split; [|exact H4].
  destruct (used_velocity _ _ _ _ H3) as (_ & U). destruct (bounce_of_fields o inp) as (F & _). rewrite F, V in U.
  destruct U as (v & Hv & -> & _); [discriminate|]. rewrite H2. f_equal. destruct Hv; congruence.
Qed.

(** ** Witnesses *)
Definition demo_input : user_input :=
  {| i_vwall := 0.95%Q; i_perc_prbl := 0.71%Q; i_compl_prbl := 0.01%Q; i_ewsr_check := 0; i_nlo_check := true; i_gw := true; i_which := 3 |}.
(** percolation temperature [tf v f], strength 1/5 *)
Definition oracles_of (tf : dbl -> Q -> Q) (cr : st_crit) (n : st_temp) : oracles :=
  {| o_tfrac_0 := tf; o_tfrac_1 := tf; o_tfrac_2 := tf; o_alpha := fun _ => Some (1 # 5)%Q;
     o_v1 := fun _ _ => Some (1 # 2)%Q; o_v2 := fun _ _ => Some (1 # 2)%Q; o_crit := cr; o_Tc := Some 100%Q;
     o_false := fun _ => [Some 1%Q]; o_true := fun _ => [Some 2%Q]; o_bounce := Gw_Success;
     o_nucl_approx := (Te_Success, 60%Q); o_nucl := (n, 61%Q); o_beta := fun _ => Some 300%Q;
     o_spectrum := fun _ => (Some 1, Some 1, Some 1, Some 1, Some 1, Some 1, Some 1, Some 1, Some 1)%Q |}.
Definition demo_oracles : oracles := oracles_of (fun _ f => 100 * f)%Q Cr_Success Te_Success.
Definition skipped_oracles : oracles := oracles_of (fun _ f => 100 * f)%Q Cr_FalseLower Te_Success.

Lemma fractions_ignored :
  (forall n inp fuel o s p c,
    run_pair n {| i_vwall := i_vwall inp; i_perc_prbl := p; i_compl_prbl := c; i_ewsr_check := i_ewsr_check inp;
                  i_nlo_check := i_nlo_check inp; i_gw := i_gw inp; i_which := i_which inp |} fuel o s =
    run_pair n inp fuel o s) /\
  exists inp o s d,
    (forall v f, o_tfrac_0 o v f = (100 * f)%Q /\ o_tfrac_1 o v f = (100 * f)%Q) /\
    run_pair 1 inp 0 o empty_store = Ok s /\ v_trans s = [d] /\ s_p s = [Te_Success] /\
    i_perc_prbl inp = (1 # 2)%Q /\ (exists T, d_p d = Some T /\ T == 71)%Q.
Proof.
  split; [exact run_pair_ignores_fractions|].
  exists {| i_vwall := 0.95%Q; i_perc_prbl := (1 # 2)%Q; i_compl_prbl := 0.01%Q; i_ewsr_check := 0; i_nlo_check := true; i_gw := false; i_which := 3 |}, demo_oracles.
  eexists. eexists. split; [intros; split; reflexivity|]. split; [vm_compute; reflexivity|]. split; [reflexivity|].
  split; [reflexivity|]. split; [reflexivity|]. eexists. split; reflexivity.
Qed.

Definition slow_input : user_input :=
  {| i_vwall := (3 # 10)%Q; i_perc_prbl := 0.71%Q; i_compl_prbl := 0.01%Q; i_ewsr_check := 0; i_nlo_check := true; i_gw := true; i_which := 3 |}.
Definition velocity_oracles : oracles :=
  oracles_of (fun v _ => match v with Some x => 100 * x | None => -1 end)%Q Cr_Success Te_Success.

Lemma velocity_refuted :
  (forall n inp fuel o s s',
     tried o -> o_bounce o = Gw_Success -> i_gw inp = true ->
     trans_status o (bounce_of o inp) (i_which inp) = Te_Success ->
     run_pair n inp fuel o s = Ok s' ->
     exists g, v_gw s' = v_gw s ++ [g] /\ g_vwall g = Some 0.95%Q) /\
  exists inp o s b' g,
    i_vwall inp = (3 # 10)%Q /\ run_pair 1 inp 2 o empty_store = Ok s /\ v_gw s = [g] /\
    CalculatePTStrength o 2 (bounce_of o inp) = Ok b' /\
    vwall b' = Some (3 # 10)%Q /\ g_vwall g = Some 0.95%Q /\ g_status g = Gw_Success.
Proof.
  split.
  - intros n inp fuel o s s' T B G S H. destruct (always_default n inp fuel o s s' T B G S H) as (g & _ & H1 & H2 & _).
    exists g. now split.
  - exists slow_input, velocity_oracles. eexists. eexists. eexists. split; [reflexivity|]. split; [vm_compute; reflexivity|].
    split; [reflexivity|]. split; [vm_compute; reflexivity|]. split; [reflexivity|]. split; reflexivity.
Qed.

Lemma percolation_velocity_refuted :
  exists inp o s b' d T T',
    i_vwall inp = (3 # 10)%Q /\ (forall v f, o_tfrac_1 o (Some v) f = (100 * v)%Q) /\
    run_pair 1 inp 2 o empty_store = Ok s /\ v_trans s = [d] /\ s_p s = [Te_Success] /\
    CalculatePTStrength o 2 (bounce_of o inp) = Ok b' /\
    d_p d = Some T /\ (T == 95)%Q /\ Tperc b' = T' /\ (T' == 30)%Q.
Proof.
  exists slow_input, velocity_oracles. eexists. eexists. eexists. eexists. eexists. split; [reflexivity|]. split; [reflexivity|].
  split; [vm_compute; reflexivity|]. split; [reflexivity|]. split; [reflexivity|]. split; [vm_compute; reflexivity|].
  split; [reflexivity|]. split; [reflexivity|]. split; reflexivity.
Qed.
