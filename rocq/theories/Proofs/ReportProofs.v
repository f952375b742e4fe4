(** Proofs about the status lists of the transition tracer and the output tables. *)
From Coq Require Import QArith.
From Verif.Model Require Import Base History Tracer Report.
From Verif.Spec Require Import ReportSpec.
From Verif.Proofs Require Import HistoryProofs.
Open Scope Z_scope.

(** ** Status lists *)
Record entry := { e_crit : st_crit; e_bounce : st_gw; e_na : st_temp; e_n : st_temp; e_p : st_temp; e_c : st_temp;
                  e_d : tdata; e_g : gw_out }.
Definition extend (s : store) (es : list entry) : store :=
  {| s_crit := s_crit s ++ map e_crit es; s_bounce := s_bounce s ++ map e_bounce es; s_na := s_na s ++ map e_na es;
     s_n := s_n s ++ map e_n es; s_p := s_p s ++ map e_p es; s_c := s_c s ++ map e_c es;
     v_trans := v_trans s ++ map e_d es; v_gw := v_gw s ++ map e_g es |}.

Lemma extend_app s a b : extend (extend s a) b = extend s (a ++ b).
Proof. unfold extend. cbn. f_equal; now rewrite map_app, app_assoc. Qed.
Lemma extend_nil s : extend s [] = s.
Proof. destruct s. unfold extend. cbn. now rewrite !app_nil_r. Qed.

Definition vevs_ok (n : nat) (o : oracles) : Prop :=
  forall T, length (o_true o T) = n /\ length (o_false o T) = n.

Definition entry_ok (n : nat) (o : oracles) (e : entry) : Prop :=
  e_crit e = o_crit o /\ reported o (e_bounce e) (e_na e) (e_n e) (e_p e) (e_c e) /\
  d_crit (e_d e) = o_Tc o /\ length (d_crit_true (e_d e)) = n /\ length (d_crit_false (e_d e)) = n /\
  stage_data n o (e_na e) (snd (o_nucl_approx o)) (d_na (e_d e)) (d_na_true (e_d e)) (d_na_false (e_d e)) /\
  stage_data n o (e_n e) (snd (o_nucl o)) (d_n (e_d e)) (d_n_true (e_d e)) (d_n_false (e_d e)) /\
  (exists Tp, stage_data n o (e_p e) Tp (d_p (e_d e)) (d_p_true (e_d e)) (d_p_false (e_d e))) /\
  (exists Tc, stage_data n o (e_c e) Tc (d_c (e_d e)) (d_c_true (e_d e)) (d_c_false (e_d e))) /\
  crit_data n o (d_crit_true (e_d e)) (d_crit_false (e_d e)).

Lemma stage_data_nan n o x : stage_data n o Te_NaN x None (empties n) (empties n).
Proof. unfold stage_data, empties. rewrite repeat_length. repeat split; congruence. Qed.

Lemma stage_na n o s T d : vevs_ok n o ->
  let d' := stage n o set_na s T d in stage_data n o s T (d_na d') (d_na_true d') (d_na_false d').
Proof. intros V. unfold stage, stage_data, empties. destruct s; cbn; rewrite ?repeat_length; destruct (V (Some T)); repeat split; congruence. Qed.
Lemma stage_n n o s T d : vevs_ok n o ->
  let d' := stage n o set_n s T d in stage_data n o s T (d_n d') (d_n_true d') (d_n_false d').
Proof. intros V. unfold stage, stage_data, empties. destruct s; cbn; rewrite ?repeat_length; destruct (V (Some T)); repeat split; congruence. Qed.
Lemma stage_p n o s T d : vevs_ok n o ->
  let d' := stage n o set_p s T d in stage_data n o s T (d_p d') (d_p_true d') (d_p_false d').
Proof. intros V. unfold stage, stage_data, empties. destruct s; cbn; rewrite ?repeat_length; destruct (V (Some T)); repeat split; congruence. Qed.
Lemma stage_c n o s T d : vevs_ok n o ->
  let d' := stage n o set_c s T d in stage_data n o s T (d_c d') (d_c_true d') (d_c_false d').
Proof. intros V. unfold stage, stage_data, empties. destruct s; cbn; rewrite ?repeat_length; destruct (V (Some T)); repeat split; congruence. Qed.

Lemma perc_not_nan o f uv : status_perc (CalculatePercolationTemp o f (new_bounce uv)) <> Te_NaN.
Proof. unfold CalculatePercolationTemp. cbn. destruct (Qgt0 _); cbn; [congruence|]. destruct (Qlt0 _); congruence. Qed.
Lemma compl_not_nan o f b : status_compl b <> Te_NaN -> status_compl (CalculateCompletionTemp o f b) <> Te_NaN.
Proof. intro H. unfold CalculateCompletionTemp. destruct (Qgt0 _ && _); cbn; [congruence|]. destruct (Qlt0 _); congruence. Qed.
Lemma perc_keeps_compl o f b : status_compl (CalculatePercolationTemp o f b) = status_compl b.
Proof. unfold CalculatePercolationTemp. now destruct (Qgt0 _ && _). Qed.

Lemma run_pair_spec n inp fuel o s s' :
  vevs_ok n o -> run_pair n inp fuel o s = Ok s' ->
  exists e, s' = extend s [e] /\ entry_ok n o e.
Proof.
  intros V H. unfold run_pair in H.
  assert (Hskip : ~ tried o ->
    Ok (finish o (set_c None (empties n) (empties n) (set_p None (empties n) (empties n)
                 (set_n None (empties n) (empties n) (set_na None (empties n) (empties n)
                 (set_crit None (empties n) (empties n) new_tdata))))) no_gw
       (push_c Te_NaN (push_p Te_NaN (push_n Te_NaN (push_na Te_NaN (push_bounce Gw_NotSet (push_crit (o_crit o) s))))))) = Ok s' ->
    exists e, s' = extend s [e] /\ entry_ok n o e).
  { intros NT E. injection E as <-.
    eexists {| e_crit := o_crit o; e_bounce := Gw_NotSet; e_na := Te_NaN; e_n := Te_NaN; e_p := Te_NaN; e_c := Te_NaN;
              e_d := _; e_g := _ |}.
    split; [reflexivity|]. unfold entry_ok; cbn.
    split; [reflexivity|]. split; [now constructor|]. split; [reflexivity|].
    split; [unfold empties; apply repeat_length|]. split; [unfold empties; apply repeat_length|].
    split; [apply stage_data_nan|]. split; [apply stage_data_nan|].
    split; [exists 0%Q; apply stage_data_nan|]. split; [exists 0%Q; apply stage_data_nan|].
    split; [intro; contradiction|]. intros _. split; reflexivity. }
  assert (Hrun : tried o ->
    (let d := set_crit (o_Tc o) (o_true o (o_Tc o)) (o_false o (o_Tc o)) new_tdata in
      let s := push_bounce (o_bounce o) (push_crit (o_crit o) s) in
      match o_bounce o with
      | Gw_Success =>
          let s := push_na (fst (o_nucl_approx o)) s in
          let d := stage n o set_na (fst (o_nucl_approx o)) (snd (o_nucl_approx o)) d in
          let s := push_n (fst (o_nucl o)) s in
          let d := stage n o set_n (fst (o_nucl o)) (snd (o_nucl o)) d in
          let b := CalculatePercolationTemp o default_perc (new_bounce (i_vwall inp)) in
          let s := push_p (status_perc b) s in
          let d := stage n o set_p (status_perc b) (Tperc b) d in
          let b := CalculateCompletionTemp o default_compl b in
          let s := push_c (status_compl b) s in
          let d := stage n o set_c (status_compl b) (Tcompl b) d in
          bind (if is_temp_success (trans_status o b (i_which inp)) && i_gw inp
                then gw_calc fuel o (i_which inp) b else Ok no_gw) (fun g => Ok (finish o d g s))
      | _ =>
          let s := push_c Te_NaN (push_p Te_NaN (push_n Te_NaN (push_na Te_NaN s))) in
          let d := set_c None (empties n) (empties n) (set_p None (empties n) (empties n)
                     (set_n None (empties n) (empties n) (set_na None (empties n) (empties n) d))) in
          Ok (finish o d no_gw s)
      end) = Ok s' -> exists e, s' = extend s [e] /\ entry_ok n o e).
  { intros T E. cbv zeta in E.
    destruct (o_bounce o) eqn:B.
    2:{ set (b := CalculatePercolationTemp o default_perc (new_bounce (i_vwall inp))) in *.
        set (b' := CalculateCompletionTemp o default_compl b) in *.
        destruct (if is_temp_success (trans_status o b' (i_which inp)) && i_gw inp
                  then gw_calc fuel o (i_which inp) b' else Ok no_gw) as [g| | |]; try discriminate E.
        cbn [bind] in E. injection E as <-.
        eexists {| e_crit := o_crit o; e_bounce := Gw_Success; e_na := fst (o_nucl_approx o); e_n := fst (o_nucl o);
                  e_p := status_perc b; e_c := status_compl b';
                  e_d := _; e_g := g |}.
        split; [reflexivity|]. unfold entry_ok; cbn [e_crit e_bounce e_na e_n e_p e_c e_d e_g].
        set (d0 := set_crit _ _ _ new_tdata).
        set (d1 := stage n o set_na _ _ d0). set (d2 := stage n o set_n _ _ d1).
        set (d3 := stage n o set_p _ _ d2). set (d4 := stage n o set_c _ _ d3).
        split; [reflexivity|]. split.
        { apply rep_bounce; auto; [apply perc_not_nan|apply compl_not_nan; unfold b; rewrite perc_keeps_compl; discriminate]. }
        split; [reflexivity|].
        assert (C : d_crit_true d4 = d_crit_true d0 /\ d_crit_false d4 = d_crit_false d0).
        { unfold d4, d3, d2, d1. split; unfold stage;
            destruct (is_temp_success (status_compl b')), (is_temp_success (status_perc b)),
              (is_temp_success (fst (o_nucl o))), (is_temp_success (fst (o_nucl_approx o))); reflexivity. }
        cbn [d_crit_true d_crit_false set_crit finish]. destruct C as [-> ->]. cbn.
        split; [apply V|]. split; [apply V|].
        assert (A1 := stage_na n o (fst (o_nucl_approx o)) (snd (o_nucl_approx o)) d0 V). fold d1 in A1. cbv zeta in A1.
        assert (A2 := stage_n n o (fst (o_nucl o)) (snd (o_nucl o)) d1 V). fold d2 in A2. cbv zeta in A2.
        assert (A3 := stage_p n o (status_perc b) (Tperc b) d2 V). fold d3 in A3. cbv zeta in A3.
        assert (A4 := stage_c n o (status_compl b') (Tcompl b') d3 V). fold d4 in A4. cbv zeta in A4.
        assert (K3 : d_p d4 = d_p d3 /\ d_p_true d4 = d_p_true d3 /\ d_p_false d4 = d_p_false d3)
          by (unfold d4, stage; destruct (is_temp_success _); split; [|split| |split]; reflexivity).
        assert (K2 : d_n d4 = d_n d2 /\ d_n_true d4 = d_n_true d2 /\ d_n_false d4 = d_n_false d2)
          by (unfold d4, d3, stage; destruct (is_temp_success (status_compl b')), (is_temp_success (status_perc b));
              cbn; split; try split; reflexivity).
        assert (K1 : d_na d4 = d_na d1 /\ d_na_true d4 = d_na_true d1 /\ d_na_false d4 = d_na_false d1)
          by (unfold d4, d3, d2, stage; destruct (is_temp_success (status_compl b')), (is_temp_success (status_perc b)),
                (is_temp_success (fst (o_nucl o))); cbn; split; try split; reflexivity).
        destruct K1 as (-> & -> & ->), K2 as (-> & -> & ->), K3 as (-> & -> & ->).
        split; [exact A1|]. split; [exact A2|]. split; [eexists; exact A3|]. split; [eexists; exact A4|].
        split; [intros _; split; reflexivity|intro; contradiction]. }
    all: injection E as <-.
    all: eexists {| e_crit := o_crit o; e_bounce := o_bounce o; e_na := Te_NaN; e_n := Te_NaN; e_p := Te_NaN; e_c := Te_NaN;
              e_d := _; e_g := _ |}.
    all: split; [rewrite B; reflexivity|]; unfold entry_ok; cbn.
    all: split; [reflexivity|]; split; [apply rep_no_bounce; [exact T|congruence]|]; split; [reflexivity|].
    all: split; [apply V|]; split; [apply V|].
    all: split; [apply stage_data_nan|]; split; [apply stage_data_nan|];
      split; [exists 0%Q; apply stage_data_nan|]; split; [exists 0%Q; apply stage_data_nan|];
      split; [intros _; split; reflexivity|intro; contradiction]. }
  destruct (o_crit o) eqn:EC; unfold tried in *; rewrite EC in *.
  - apply Hskip; [intros [|]; discriminate|exact H].
  - apply Hrun; [now left|exact H].
  - apply Hskip; [intros [|]; discriminate|exact H].
  - apply Hrun; [now right|exact H].
  - apply Hskip; [intros [|]; discriminate|exact H].
Qed.

Lemma run_pairs_spec n inp fuel : forall os s s',
  Forall (vevs_ok n) os -> run_pairs n inp fuel os s = Ok s' ->
  exists es, s' = extend s es /\ Forall2 (entry_ok n) os es.
Proof.
  induction os as [|o os IH]; intros s s' V H; cbn in H.
  - injection H as <-. exists []. rewrite extend_nil. split; [reflexivity|constructor].
  - inversion V; subst. destruct (run_pair n inp fuel o s) as [s1| | |] eqn:E; try discriminate.
    cbn in H. apply run_pair_spec in E as (e & -> & E); [|assumption].
    apply IH in H as (es & -> & F); [|assumption]. exists (e :: es).
    rewrite extend_app. split; [reflexivity|]. now constructor.
Qed.
