(** Statuses of a parameter point and gravitational wave columns. *)
From Coq Require Import QArith.
From Verif.Model Require Import Base History Tracer Report.
From Verif.Spec Require Import ReportSpec ColumnsSpec.
From Verif.Proofs Require Import HistoryProofs ReportProofs StrengthProofs.
Open Scope Z_scope.

Lemma ewsr_code z : GetStatusEWSR z = ewsr_meaning z.
Proof.
  unfold GetStatusEWSR, ewsr_meaning.
  destruct (Z.eqb_spec z 3) as [->|N3]; [reflexivity|]. destruct (Z.eqb_spec z 2) as [->|N2]; [reflexivity|].
  destruct (Z.eqb_spec z 1) as [->|N1]; [reflexivity|]. destruct (Z.eqb_spec z 0) as [->|N0]; [reflexivity|].
  destruct (Z.eqb_spec z (-1)) as [->|Nm]; [reflexivity|].
  destruct z as [|[[p|p|]|[p|p|]|]|[p|p|]]; try reflexivity; congruence.
Qed.

Definition untouched (out : output) : Prop :=
  status_tracing out = Tr_NotSet /\ status_coex out = Cx_NotSet /\ num_coex_phase_pairs out = 0%nat /\
  pairs_out out = empty_store /\ history out = s2l "not_set".

Lemma point_statuses vevs nvev fuel inp p out : TransitionTracer vevs nvev fuel inp p = Ok out ->
  (i_nlo_check inp = false -> status_nlo out = Nlo_Off) /\
  (i_nlo_check inp = true -> pt_nlo p = true -> status_nlo out = Nlo_Success) /\
  (i_nlo_check inp = true -> pt_nlo p = false ->
     status_nlo out = Nlo_NoNLOStability /\ status_ewsr out = Ew_NotSet /\ untouched out) /\
  (i_nlo_check inp = false \/ pt_nlo p = true ->
     (i_ewsr_check inp <= 0 -> status_ewsr out = Ew_Off) /\
     (0 < i_ewsr_check inp -> status_ewsr out = ewsr_meaning (pt_ewsr p)) /\
     (given_up (i_ewsr_check inp) (pt_ewsr p) -> untouched out) /\
     (~ given_up (i_ewsr_check inp) (pt_ewsr p) ->
        status_tracing out = pt_tracing p /\ status_coex out = pt_coex p /\
        num_coex_phase_pairs out = length (pt_pairs p) /\
        (pt_tracing p = Tr_Success -> pt_coex p = Cx_Success ->
           run_pairs nvev inp fuel (pt_pairs p) empty_store = Ok (pairs_out out) /\
           exists h, pt_history p (pairs_out out) = Ok h /\ history out = render (fst h) (snd h)))).
Proof.
  intro H. unfold TransitionTracer in H. rewrite ewsr_code in H.
  assert (F : (0 <? i_ewsr_check inp) && ((i_ewsr_check inp =? 2) && (pt_ewsr p <? 2) || (i_ewsr_check inp =? 3) && (pt_ewsr p <? 3)) = true
     <-> given_up (i_ewsr_check inp) (pt_ewsr p)).
  { unfold given_up. rewrite andb_true_iff, orb_true_iff, !andb_true_iff, Z.ltb_lt, !Z.eqb_eq, !Z.ltb_lt. lia. }
  assert (go : forall nlo,
    (let ew := if 0 <? i_ewsr_check inp then ewsr_meaning (pt_ewsr p) else Ew_Off in
     let filtered := (0 <? i_ewsr_check inp) &&
          (((i_ewsr_check inp =? 2) && (pt_ewsr p <? 2)) || ((i_ewsr_check inp =? 3) && (pt_ewsr p <? 3))) in
     if filtered then
        Ok {| legend := GetLegend vevs 0 (i_gw inp); status_nlo := nlo; status_ewsr := ew; status_tracing := Tr_NotSet; status_coex := Cx_NotSet;
              pairs_out := empty_store; num_coex_phase_pairs := 0; history := s2l "not_set" |}
      else
        let n := length (pt_pairs p) in
        match pt_tracing p, pt_coex p with
        | Tr_Success, Cx_Success =>
            bind (run_pairs nvev inp fuel (pt_pairs p) empty_store) (fun rs =>
              bind (pt_history p rs) (fun h =>
                Ok {| legend := GetLegend vevs n (i_gw inp); status_nlo := nlo; status_ewsr := ew;
                      status_tracing := Tr_Success; status_coex := Cx_Success;
                      pairs_out := rs; num_coex_phase_pairs := n; history := render (fst h) (snd h) |}))
        | tr, cx =>
            Ok {| legend := GetLegend vevs 0 (i_gw inp); status_nlo := nlo; status_ewsr := ew; status_tracing := tr; status_coex := cx;
                  pairs_out := empty_store; num_coex_phase_pairs := n; history := s2l "not_set" |}
        end) = Ok out ->
     status_nlo out = nlo /\
     (i_ewsr_check inp <= 0 -> status_ewsr out = Ew_Off) /\
     (0 < i_ewsr_check inp -> status_ewsr out = ewsr_meaning (pt_ewsr p)) /\
     (given_up (i_ewsr_check inp) (pt_ewsr p) -> untouched out) /\
     (~ given_up (i_ewsr_check inp) (pt_ewsr p) ->
        status_tracing out = pt_tracing p /\ status_coex out = pt_coex p /\
        num_coex_phase_pairs out = length (pt_pairs p) /\
        (pt_tracing p = Tr_Success -> pt_coex p = Cx_Success ->
           run_pairs nvev inp fuel (pt_pairs p) empty_store = Ok (pairs_out out) /\
           exists h, pt_history p (pairs_out out) = Ok h /\ history out = render (fst h) (snd h)))).
  { intros nlo E. cbv zeta in E.
    assert (EW : forall x, status_ewsr x = (if 0 <? i_ewsr_check inp then ewsr_meaning (pt_ewsr p) else Ew_Off) ->
        (i_ewsr_check inp <= 0 -> status_ewsr x = Ew_Off) /\ (0 < i_ewsr_check inp -> status_ewsr x = ewsr_meaning (pt_ewsr p))).
    { intros x ->. destruct (Z.ltb_spec 0 (i_ewsr_check inp)); split; intro; try reflexivity; lia. }
    destruct (_ && _) eqn:B.
    - injection E as <-. assert (G := proj1 F eq_refl).
      split; [reflexivity|]. split; [apply EW; reflexivity|]. split; [apply EW; reflexivity|].
      split; [intros _; repeat split|intro; contradiction].
    - assert (G : ~ given_up (i_ewsr_check inp) (pt_ewsr p)) by (intro X; apply F in X; discriminate X).
      destruct (pt_tracing p) eqn:T, (pt_coex p) eqn:X;
        try (injection E as <-; split; [reflexivity|]; split; [apply EW; reflexivity|]; split; [apply EW; reflexivity|];
             split; [intro; contradiction|intros _; split; [reflexivity|split; [reflexivity|split; [reflexivity|intros; discriminate]]]]).
      destruct (run_pairs nvev inp fuel (pt_pairs p) empty_store) as [rs| | |] eqn:R; try discriminate. cbn [bind] in E.
      destruct (pt_history p rs) as [h| | |] eqn:Hh; try discriminate. cbn [bind] in E. injection E as <-.
      split; [reflexivity|]. split; [apply EW; reflexivity|]. split; [apply EW; reflexivity|].
      split; [intro; contradiction|]. intros _. split; [reflexivity|]. split; [reflexivity|]. split; [reflexivity|].
      intros _ _. split; [reflexivity|]. exists h. split; [exact Hh|reflexivity]. }
  destruct (i_nlo_check inp) eqn:C; [destruct (pt_nlo p) eqn:N|].
  - destruct (go Nlo_Success H) as (S0 & S1). split; [discriminate|]. split; [intros _ _; exact S0|]. split; [intros _ X; discriminate X|].
    intros _. exact S1.
  - cbn in H. injection H as <-. split; [discriminate|]. split; [intros _ X; discriminate X|]. split; [intros _ _; repeat split|].
    intros [X|X]; discriminate X.
  - destruct (go Nlo_Off H) as (S0 & S1). split; [intros _; exact S0|]. split; [discriminate|]. split; [discriminate|].
    intros _. exact S1.
Qed.

(** ** Gravitational wave columns *)
Section Keep.
Variable o : oracles.
Definition kept (b b' : bounce) : Prop := Tcompl b' = Tcompl b /\ status_compl b' = status_compl b.
Lemma kept_perc f b : kept b (CalculatePercolationTemp o f b).
Proof. unfold CalculatePercolationTemp. destruct (_ && _); split; reflexivity. Qed.
Lemma kept_wall b : kept b (CalculateWallVelocity o b).
Proof.
  unfold CalculateWallVelocity. destruct (Qle_bool 0 (uvwall b)); [split; reflexivity|].
  destruct (Qeq_bool _ _); [split; reflexivity|]. destruct (Qeq_bool _ _); split; reflexivity.
Qed.
Lemma kept_round b : kept b (pt_round o b).
Proof.
  unfold pt_round. set (b1 := CalculatePercolationTemp o default_perc b).
  destruct (kept_perc default_perc b) as [A1 A2]. fold b1 in A1, A2.
  destruct (kept_wall (set_alpha (o_alpha o (Tperc b1)) b1)) as [B1 B2]. split; [rewrite B1|rewrite B2]; assumption.
Qed.
Lemma kept_loop : forall n b, kept b (fst (pt_loop o n b)).
Proof.
  induction n as [|n IH]; intro b; [split; reflexivity|]. cbn [pt_loop]. destruct (kept_round b) as [A1 A2].
  destruct (converged _ _); [split; assumption|]. destruct (IH (pt_round o b)) as [B1 B2]. split; congruence.
Qed.
Lemma kept_strength : forall fuel b b', CalculatePTStrength o fuel b = Ok b' -> kept b b'.
Proof.
  induction fuel as [|f IH]; intros b b' H; cbn [CalculatePTStrength] in H; [discriminate|].
  destruct (negb (perc_set b)); [discriminate|].
  assert (K := kept_loop 20 (set_vwall (if Qle_bool 0 (uvwall b) then Some (uvwall b) else Some 0.95%Q) b)).
  destruct (pt_loop o 20 _) as [b1 ok]. cbn [fst] in K. destruct K as [K1 K2].
  destruct ok.
  - injection H as <-. split; assumption.
  - apply IH in H as [G1 G2]. split; [rewrite G1|rewrite G2]; assumption.
Qed.
End Keep.

Lemma app_last_inv {A} (l : list A) x y : l ++ [x] = l ++ [y] -> x = y.
Proof. intro H. apply app_inv_head in H. now injection H. Qed.

Lemma gw_columns n inp fuel o s s' :
  (forall T, length (o_true o T) = n /\ length (o_false o T) = n) ->
  run_pair n inp fuel o s = Ok s' ->
  exists na nu p c d g,
    s_na s' = s_na s ++ [na] /\ s_n s' = s_n s ++ [nu] /\ s_p s' = s_p s ++ [p] /\ s_c s' = s_c s ++ [c] /\
    v_trans s' = v_trans s ++ [d] /\ v_gw s' = v_gw s ++ [g] /\
    (i_gw inp = false \/ stage_of (i_which inp) na nu p c <> Te_Success -> nothing g) /\
    (i_gw inp = true -> stage_of (i_which inp) na nu p c = Te_Success ->
       exists b, CalculatePTStrength o fuel (bounce_of o inp) = Ok b /\
         g_alpha g = alpha b /\ g_beta g = o_beta o b /\
         (i_which inp <> 3 -> g_trans g = temp_of (i_which inp) d) /\
         (i_which inp = 3 -> g_trans g = Some (match status_perc b with Te_Success => Tperc b | _ => -1 end)%Q) /\
         ((exists x, g_beta g = Some x /\ (x < 1)%Q) \/ (exists x, g_trans g = Some x /\ (x == -1)%Q) ->
            g_status g = Gw_Failure /\ no_spectrum g) /\
         (~ (exists x, g_beta g = Some x /\ (x < 1)%Q) -> ~ (exists x, g_trans g = Some x /\ (x == -1)%Q) ->
            g_status g = Gw_Success /\
            o_spectrum o b = (g_f_sw g, g_h_sw g, g_f_turb g, g_h_turb g, g_SNR_sw g, g_SNR_turb g, g_SNR g, g_K_sw g, g_K_turb g))).
Proof.
  intros V H. assert (H0 := H). apply run_pair_spec in H0 as (e & -> & X); [|exact V].
  exists (e_na e), (e_n e), (e_p e), (e_c e), (e_d e), (e_g e).
  do 6 (split; [reflexivity|]).
  destruct X as (_ & R & _ & _ & _ & (SNA & _) & (SN & _) & _).
  assert (NB : forall x, x = Te_NaN -> x <> Te_Success) by (intros; congruence).
  assert (E0 : ~ (tried o /\ o_bounce o = Gw_Success) -> e_g e = no_gw /\ stage_of (i_which inp) (e_na e) (e_n e) (e_p e) (e_c e) <> Te_Success).
  { intro N. inversion R as [A1 A2 A3 A4 A5|A1 A2 A3 A4 A5|p c A1 A2]; [| |exfalso; tauto].
    all: split; [|unfold stage_of; destruct (i_which inp) as [|[[?|[?|?|]|]|[?|[?|?|]|]|]|?]; congruence].
    - unfold run_pair in H. unfold tried in *. apply (f_equal (fun r => match r with Ok r => v_gw r | _ => [] end)) in H.
      destruct (o_crit o); try (exfalso; tauto); cbn in H; apply app_last_inv in H; congruence.
    - unfold run_pair in H. unfold tried in *. apply (f_equal (fun r => match r with Ok r => v_gw r | _ => [] end)) in H.
      destruct (o_crit o); try (exfalso; intuition congruence); destruct (o_bounce o); try congruence; cbn in H;
        apply app_last_inv in H; congruence. }
  assert (D : (tried o /\ o_bounce o = Gw_Success) \/ ~ (tried o /\ o_bounce o = Gw_Success)).
  { unfold tried. destruct (o_crit o), (o_bounce o); intuition congruence. }
  destruct D as [[T B]|N].
  2:{ destruct (E0 N) as [-> NS]. split; [intros _; repeat split|]. intros _ S. contradiction. }
  assert (H1 := run_pair_bounce n inp fuel o s _ T B H). cbv zeta in H1.
  destruct H1 as (d & g & D1 & D2 & D3 & D4 & D5 & D6 & D7).
  cbn in D1, D2, D3, D4. apply app_last_inv in D1, D2, D3, D4. subst d g.
  set (b0 := bounce_of o inp) in *.
  assert (NA : e_na e = fst (o_nucl_approx o) /\ e_n e = fst (o_nucl o)).
  { inversion R; try (exfalso; tauto). split; congruence. }
  destruct NA as [NA1 NA2].
  assert (TS : trans_status o b0 (i_which inp) = stage_of (i_which inp) (e_na e) (e_n e) (e_p e) (e_c e)).
  { rewrite D3, D4, NA1, NA2. unfold trans_status, stage_of.
    destruct (i_which inp) as [|[[?|?|]|[?|[?|?|]|]|]|?]; reflexivity. }
  rewrite TS in D7. split.
  - intro C. assert (E : is_temp_success (stage_of (i_which inp) (e_na e) (e_n e) (e_p e) (e_c e)) && i_gw inp = false).
    { destruct C as [->|C]; [apply andb_false_r|]. destruct (stage_of _ _ _ _ _); try reflexivity. congruence. }
    rewrite E in D7. rewrite D7. repeat split.
  - intros G S. rewrite G, S in D7. cbn [is_temp_success andb] in D7. unfold gw_calc in D7.
    destruct (CalculatePTStrength o fuel b0) as [b| | |] eqn:PS; try discriminate. cbn [bind] in D7.
    exists b. split; [reflexivity|].
    destruct (o_spectrum o b) as [[[[[[[[x1 x2] x3] x4] x5] x6] x7] x8] x9] eqn:SP.
    destruct (kept_strength o _ _ _ PS) as [K1 K2].
    assert (CT : CalcTransitionTemp o b (i_which inp) = g_trans (e_g e)).
    { destruct (gw_status0 o b (i_which inp)); injection D7 as <-; reflexivity. }
    assert (CB : g_alpha (e_g e) = alpha b /\ g_beta (e_g e) = o_beta o b).
    { destruct (gw_status0 o b (i_which inp)); injection D7 as <-; split; reflexivity. }
    destruct CB as [CB1 CB2]. split; [exact CB1|]. split; [exact CB2|].
    assert (ST : gw_status0 o b (i_which inp) = Gw_Failure <->
      ((exists x, g_beta (e_g e) = Some x /\ (x < 1)%Q) \/ (exists x, g_trans (e_g e) = Some x /\ (x == -1)%Q))).
    { unfold gw_status0. rewrite CT, <- CB2. destruct (g_beta (e_g e)) as [x|]; cbn [dbl_lt1].
      - destruct (Qle_bool 1 x) eqn:Q; cbn [negb].
        + apply Qle_bool_iff in Q. destruct (g_trans (e_g e)) as [y|]; cbn [dbl_is_m1].
          * destruct (Qeq_bool y (-1)) eqn:Y.
            -- apply Qeq_bool_iff in Y. split; [intros _; right; exists y; now split|reflexivity].
            -- apply Qeq_bool_neq in Y. split; [discriminate|]. intros [(x' & E & L)|(y' & E & L)].
               ++ injection E as <-. exfalso. exact (Qlt_not_le _ _ L Q).
               ++ injection E as <-. contradiction.
          * split; [discriminate|]. intros [(x' & E & L)|(y' & E & L)]; [|discriminate].
            injection E as <-. exfalso. exact (Qlt_not_le _ _ L Q).
        + split; [intros _; left; exists x; split; [reflexivity|]|reflexivity].
          apply Qnot_le_lt. intro L. apply Qle_bool_iff in L. congruence.
      - destruct (g_trans (e_g e)) as [y|]; cbn [dbl_is_m1].
        + destruct (Qeq_bool y (-1)) eqn:Y.
          * apply Qeq_bool_iff in Y. split; [intros _; right; exists y; now split|reflexivity].
          * apply Qeq_bool_neq in Y. split; [discriminate|]. intros [(x' & E & L)|(y' & E & L)]; [discriminate|].
            injection E as <-. contradiction.
        + split; [discriminate|]. intros [(x' & E & L)|(y' & E & L)]; discriminate. }
    split; [|split; [|split]].
    + intro W. rewrite <- CT. unfold CalcTransitionTemp. rewrite K1, K2.
      assert (S1 : i_which inp = 1 \/ i_which inp = 2 \/ i_which inp = 4).
      { unfold stage_of in S. destruct (i_which inp) as [|[[?|?|]|[?|[?|?|]|]|]|?]; try discriminate; try lia. }
      destruct S1 as [W1|[W1|W1]]; rewrite W1 in *; cbn [Z.eqb Pos.eqb]; rewrite ?andb_false_r, ?andb_true_r; cbn [stage_of temp_of] in *.
      * rewrite <- NA1, S. cbn [is_temp_success]. symmetry. apply SNA. exact S.
      * rewrite <- NA2, S. cbn [is_temp_success]. symmetry. apply SN. exact S.
      * rewrite <- D4, S. cbn [is_temp_success]. symmetry. apply D6. now rewrite <- D4.
    + intro W. rewrite <- CT, W. unfold CalcTransitionTemp. cbn [Z.eqb Pos.eqb]. rewrite !andb_false_r, andb_true_r.
      destruct (status_perc b); reflexivity.
    + intro F. apply ST in F. rewrite F in D7. injection D7 as <-. split; [reflexivity|]. repeat split.
    + intros F1 F2. destruct (gw_status0 o b (i_which inp)) eqn:Q.
      3:{ exfalso. destruct (proj1 ST eq_refl); tauto. }
      all: injection D7 as <-; split; reflexivity.
Qed.

(** with percolation as transition the temperature of the transition differs from the reported
    percolation temperature *)
Lemma gw_temperature_refuted :
  exists inp o s d g T T',
    i_which inp = 3 /\ i_gw inp = true /\ run_pair 1 inp 2 o empty_store = Ok s /\ s_p s = [Te_Success] /\
    v_trans s = [d] /\ v_gw s = [g] /\ g_status g = Gw_Success /\
    d_p d = Some T /\ (T == 95)%Q /\ g_trans g = Some T' /\ (T' == 30)%Q.
Proof.
  exists slow_input, velocity_oracles. do 5 eexists. split; [reflexivity|]. split; [reflexivity|]. split; [vm_compute; reflexivity|].
  do 4 (split; [reflexivity|]). split; [reflexivity|]. split; [reflexivity|]. split; reflexivity.
Qed.
