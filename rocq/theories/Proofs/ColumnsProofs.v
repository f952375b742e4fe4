(** Every value of the output tables stands under the column naming it. *)
From Coq Require Import QArith.
From Verif.Model Require Import Base History Tracer Report.
From Verif.Spec Require Import ReportSpec ColumnsSpec.
From Verif.Proofs Require Import HistoryProofs ReportProofs TableProofs.
Open Scope Z_scope.

(** ** Words *)
Definition wcrit (s : st_crit) : string :=
  match s with Cr_NotSet => "not_set" | Cr_Success => "success" | Cr_FalseLower => "false_lower"
             | Cr_TrueLower => "true_lower" | Cr_Failure => "failure" end%string.
Definition wtemp (s : st_temp) : string :=
  match s with Te_NotSet => "not_set" | Te_Success => "success" | Te_NotMet => "not_met" | Te_NaN => "nan" end%string.
Definition wgw (s : st_gw) : string :=
  match s with Gw_NotSet => "not_set" | Gw_Success => "success" | Gw_Failure => "failure" end%string.
Lemma wcrit_ok s : word_crit s (wcrit s) /\ show_crit s = s2l (wcrit s). Proof. destruct s; split; reflexivity. Qed.
Lemma wtemp_ok s : word_temp s (wtemp s) /\ show_temp s = s2l (wtemp s). Proof. destruct s; split; reflexivity. Qed.
Lemma wgw_ok s : word_gw s (wgw s) /\ show_gw s = s2l (wgw s). Proof. destruct s; split; reflexivity. Qed.
Lemma wnlo_ok s : exists w, word_nlo s w /\ show_nlo s = s2l w. Proof. destruct s; eexists; split; reflexivity. Qed.
Lemma wewsr_ok s : exists w, word_ewsr s w /\ show_ewsr s = s2l w. Proof. destruct s; eexists; split; reflexivity. Qed.
Lemma wtrace_ok s : exists w, word_trace s w /\ show_trace s = s2l w. Proof. destruct s; eexists; split; reflexivity. Qed.
Lemma wcoex_ok s : exists w, word_coex s w /\ show_coex s = s2l w. Proof. destruct s; eexists; split; reflexivity. Qed.

(** ** Text of a list of cells *)
Lemma tab_separated_join l : tab_separated l = join l.
Proof. induction l as [|x [|y l] IH]; [reflexivity|reflexivity|]. cbn [tab_separated join] in *. now rewrite IH. Qed.
Lemma cells_cons x l : cells_text (x :: l) = x ++ sep ++ cells_text l.
Proof. unfold cells_text. cbn [map concat]. now rewrite app_assoc. Qed.
Lemma cells_app a b : cells_text (a ++ b) = cells_text a ++ cells_text b.
Proof. unfold cells_text. now rewrite map_app, concat_app. Qed.
Lemma cells_join l : l <> [] -> join l ++ sep = cells_text l.
Proof.
  induction l as [|x [|y l] IH]; intro H; [congruence| |].
  - cbn. now rewrite app_nil_r.
  - rewrite cells_cons, <- IH by discriminate. change (join (x :: y :: l)) with (x ++ sep ++ join (y :: l)).
    now rewrite <- !app_assoc.
Qed.
Lemma cells_end l h : cells_text l ++ h = join (l ++ [h]).
Proof.
  induction l as [|x l IH]; [reflexivity|]. rewrite cells_cons, <- !app_assoc, IH. cbn [app].
  destruct (l ++ [h]) eqn:E; [destruct l; discriminate|]. reflexivity.
Qed.
Lemma join_app a b : a <> [] -> b <> [] -> join a ++ sep ++ join b = join (a ++ b).
Proof.
  intros A B. induction a as [|x [|y a] IH]; [congruence| |].
  - cbn [join app]. destruct b; [congruence|reflexivity].
  - change (join (x :: y :: a)) with (x ++ sep ++ join (y :: a)). rewrite <- !app_assoc, IH by discriminate. reflexivity.
Qed.
Lemma padding_cells k : padding k = cells_text (repeat (s2l "nan") k).
Proof. unfold padding, cells_text. induction k as [|k IH]; [reflexivity|]. cbn [repeat map concat]. now rewrite IH. Qed.

(** ** One pair *)
Lemma map_fst_combine {A B} (a : list A) (b : list B) : length a = length b -> map fst (combine a b) = a.
Proof. revert b. induction a as [|x a IH]; intros [|y b] H; cbn in *; try discriminate; [reflexivity|]. f_equal. apply IH. lia. Qed.
Lemma map_snd_combine {A B} (a : list A) (b : list B) : length a = length b -> map snd (combine a b) = b.
Proof. revert b. induction a as [|x a IH]; intros [|y b] H; cbn in *; try discriminate; [reflexivity|]. f_equal. apply IH. lia. Qed.

Definition fits (n : nat) (d : tdata) : Prop :=
  length (d_crit_true d) = n /\ length (d_crit_false d) = n /\ length (d_na_true d) = n /\ length (d_na_false d) = n /\
  length (d_n_true d) = n /\ length (d_n_false d) = n /\ length (d_p_true d) = n /\ length (d_p_false d) = n /\
  length (d_c_true d) = n /\ length (d_c_false d) = n.

Section Named.
Variable show : dbl -> str.
Variable vevs : list str.
Hypothesis vevs_some : vevs <> [].

Lemma field_fst name i vs : length vs = length vevs -> map fst (field_cols show vevs name i vs) = vev_cols vevs name i.
Proof. intro H. unfold field_cols. rewrite map_fst_combine; [reflexivity|]. rewrite !map_length. lia. Qed.
Lemma field_snd name i vs : length vs = length vevs -> map snd (field_cols show vevs name i vs) = map show vs.
Proof. intro H. unfold field_cols. rewrite map_snd_combine; [reflexivity|]. rewrite !map_length. lia. Qed.

Lemma pair_named_fst gw i w1 w2 w3 w4 w5 w6 w7 d g : fits (length vevs) d ->
  map fst (pair_named show vevs gw i w1 w2 w3 w4 w5 w6 w7 d g) = legend_pair vevs gw i.
Proof.
  intros (L1 & L2 & L3 & L4 & L5 & L6 & L7 & L8 & L9 & L10).
  unfold pair_named, legend_pair. rewrite !map_app, !field_fst by assumption. destruct gw; reflexivity.
Qed.

Lemma vec_sep vs : length vs = length vevs -> vec show vs ++ sep = cells_text (map show vs).
Proof.
  intro H. unfold vec. apply cells_join. destruct vs; [|discriminate]. cbn in H.
  destruct vevs; [congruence|discriminate].
Qed.

Lemma pair_named_snd gw i cr bo na nu p c d g : fits (length vevs) d ->
  cells_text (map snd (pair_named show vevs gw i (wcrit cr) (wgw bo) (wtemp na) (wtemp nu) (wtemp p) (wtemp c) (wgw (g_status g)) d g)) =
  cells_text (pair_cells show gw cr bo na nu p c d g).
Proof.
  intros (L1 & L2 & L3 & L4 & L5 & L6 & L7 & L8 & L9 & L10).
  unfold pair_named, pair_cells. rewrite !map_app, !field_snd, !cells_app by assumption.
  rewrite <- !vec_sep by assumption.
  unfold col. cbn [map snd]. rewrite !cells_cons.
  change (cells_text []) with (@nil ascii). rewrite !app_nil_r.
  rewrite (proj2 (wcrit_ok cr)), (proj2 (wgw_ok bo)), (proj2 (wtemp_ok na)), (proj2 (wtemp_ok nu)), (proj2 (wtemp_ok p)), (proj2 (wtemp_ok c)).
  destruct gw; cbn [map app snd]; rewrite ?cells_cons, ?(proj2 (wgw_ok (g_status g))), <- ?app_assoc; reflexivity.
Qed.

Lemma blank_fits : fits (length vevs) (blank vevs).
Proof. unfold fits, blank. cbn. rewrite !repeat_length. repeat split. Qed.

Lemma nan_named_fst gw i : map fst (nan_named show vevs gw i) = legend_pair vevs gw i.
Proof. unfold nan_named. rewrite map_map. cbn [fst]. apply pair_named_fst, blank_fits. Qed.
Lemma nan_named_snd gw i : map snd (nan_named show vevs gw i) = repeat (s2l "nan") (per_pair (length vevs) gw).
Proof.
  unfold nan_named. rewrite map_map. cbn [snd].
  assert (L : length (pair_named show vevs gw i "" "" "" "" "" "" "" (blank vevs) no_gw) = per_pair (length vevs) gw).
  { rewrite <- (legend_pair_length vevs gw i), <- (pair_named_fst gw i "" "" "" "" "" "" "" (blank vevs) no_gw blank_fits).
    now rewrite map_length. }
  rewrite <- L. generalize (pair_named show vevs gw i "" "" "" "" "" "" "" (blank vevs) no_gw).
  intro l. induction l as [|x l IH]; [reflexivity|]. cbn [map repeat length]. now rewrite IH.
Qed.

(** ** All pairs *)
Lemma entry_fits n o e : entry_ok n o e -> fits n (e_d e).
Proof.
  intros (_ & _ & _ & L1 & L2 & (_ & _ & L3 & L4) & (_ & _ & L5 & L6) & (Tp & _ & _ & L7 & L8) & (Tc & _ & _ & L9 & L10) & _).
  unfold fits. tauto.
Qed.

Lemma pair_is_named gw os es i o : Forall2 (entry_ok (length vevs)) os es -> nth_error os i = Some o ->
  exists L t, is_pair_named show vevs gw (extend empty_store es) i L /\ map fst L = legend_pair vevs gw i /\
    pair_text show gw (extend empty_store es) i = Ok t /\ t = cells_text (map snd L).
Proof.
  intros F I.
  assert (exists e, nth_error es i = Some e /\ entry_ok (length vevs) o e) as (e & E & X).
  { revert i I. induction F as [|x y os es P F IH]; intros [|i] I; cbn in I; try discriminate.
    - injection I as ->. exists y. now split.
    - exact (IH i I). }
  apply entry_fits in X.
  exists (pair_named show vevs gw i (wcrit (e_crit e)) (wgw (e_bounce e)) (wtemp (e_na e)) (wtemp (e_n e)) (wtemp (e_p e))
           (wtemp (e_c e)) (wgw (g_status (e_g e))) (e_d e) (e_g e)).
  eexists. split; [|split; [|split; [|reflexivity]]].
  - exists (e_crit e), (e_bounce e), (e_na e), (e_n e), (e_p e), (e_c e), (e_d e), (e_g e).
    do 7 eexists. unfold extend. cbn [s_crit s_bounce s_na s_n s_p s_c v_trans v_gw empty_store app].
    do 8 (split; [exact (map_nth_error _ _ _ E)|]).
    split; [apply wcrit_ok|]. split; [apply wgw_ok|]. do 4 (split; [apply wtemp_ok|]). split; [apply wgw_ok|]. reflexivity.
  - now apply pair_named_fst.
  - rewrite pair_named_snd by exact X. unfold pair_text, extend.
    cbn [s_crit s_bounce s_na s_n s_p s_c v_trans v_gw empty_store app].
    rewrite !(nth_map _ _ _ _ E). cbn [bind]. destruct gw; reflexivity.
Qed.

Lemma pairs_text_app gw s a b :
  pairs_text show gw s (a ++ b) =
  bind (pairs_text show gw s a) (fun t => bind (pairs_text show gw s b) (fun u => Ok (t ++ u))).
Proof.
  induction a as [|i a IH]; cbn [pairs_text app bind].
  - destruct (pairs_text show gw s b); reflexivity.
  - rewrite IH. destruct (pair_text show gw s i); cbn [bind]; try reflexivity.
    destruct (pairs_text show gw s a); cbn [bind]; try reflexivity.
    destruct (pairs_text show gw s b); cbn [bind]; try reflexivity. now rewrite app_assoc.
Qed.

Lemma pairs_are_named gw os es : Forall2 (entry_ok (length vevs)) os es -> forall k, (k <= length os)%nat ->
  forall K, (k <= K)%nat ->
  exists L, pairs_named show vevs gw (extend empty_store es) K k L /\
    map fst L = flat_map (legend_pair vevs gw) (seq 0 k) /\
    pairs_text show gw (extend empty_store es) (seq 0 k) = Ok (cells_text (map snd L)).
Proof.
  intros F. induction k as [|k IH]; intros Hk K HK.
  - exists []. split; [constructor|]. split; reflexivity.
  - destruct (IH ltac:(lia) K ltac:(lia)) as (L & P1 & P2 & P3).
    destruct (nth_error os k) as [o|] eqn:E; [|apply nth_error_None in E; lia].
    destruct (pair_is_named gw os es k o F E) as (M & t & M1 & M2 & M3 & ->).
    exists (L ++ M). split; [apply pn_pair; auto|]. rewrite seq_S, Nat.add_0_l. split.
    + rewrite map_app, P2, M2, flat_map_app. cbn. now rewrite app_nil_r.
    + rewrite pairs_text_app, P3. cbn [bind pairs_text]. rewrite M3. cbn [bind].
      rewrite map_app, cells_app, app_nil_r. reflexivity.
Qed.

Lemma nan_pairs gw s k L : pairs_named show vevs gw s k k L -> forall m,
  exists M, pairs_named show vevs gw s k (k + m) (L ++ M) /\
    map fst M = flat_map (legend_pair vevs gw) (seq k m) /\
    map snd M = repeat (s2l "nan") (m * per_pair (length vevs) gw).
Proof.
  intros P. induction m as [|m IH].
  - exists []. rewrite app_nil_r, Nat.add_0_r. split; [exact P|]. split; reflexivity.
  - destruct IH as (M & P1 & P2 & P3). exists (M ++ nan_named show vevs gw (k + m)).
    rewrite app_assoc, Nat.add_succ_r. split; [apply pn_nan; [exact P1|lia]|]. split.
    + rewrite map_app, P2, nan_named_fst, seq_S, flat_map_app. cbn. now rewrite app_nil_r.
    + rewrite map_app, P3, nan_named_snd. rewrite <- repeat_app. f_equal. lia.
Qed.
End Named.

(** ** One point *)

(** number of pairs with columns of their own in the row of a point *)
Definition reported_pairs (out : output) (p : point) : nat :=
  match status_tracing out, status_coex out with Tr_Success, Cx_Success => length (pt_pairs p) | _, _ => 0 end.

Lemma tracer_cases vevs nvev fuel inp p out :
  Forall (vevs_ok nvev) (pt_pairs p) -> TransitionTracer vevs nvev fuel inp p = Ok out ->
  legend out = GetLegend vevs (reported_pairs out p) (i_gw inp) /\ no_tab (history out) /\
  ((status_tracing out = Tr_Success /\ status_coex out = Cx_Success /\ num_coex_phase_pairs out = length (pt_pairs p) /\
    exists es, pairs_out out = extend empty_store es /\ Forall2 (entry_ok nvev) (pt_pairs p) es) \/
   ((status_tracing out <> Tr_Success \/ status_coex out <> Cx_Success) /\ pairs_out out = empty_store)).
Proof.
  intros P H. unfold TransitionTracer in H.
  assert (simple : forall o, legend o = GetLegend vevs 0 (i_gw inp) -> history o = s2l "not_set" ->
      (status_tracing o <> Tr_Success \/ status_coex o <> Cx_Success) -> pairs_out o = empty_store ->
      legend o = GetLegend vevs (reported_pairs o p) (i_gw inp) /\ no_tab (history o) /\
      ((status_tracing o = Tr_Success /\ status_coex o = Cx_Success /\ num_coex_phase_pairs o = length (pt_pairs p) /\
        exists es, pairs_out o = extend empty_store es /\ Forall2 (entry_ok nvev) (pt_pairs p) es) \/
       ((status_tracing o <> Tr_Success \/ status_coex o <> Cx_Success) /\ pairs_out o = empty_store))).
  { intros o L Hh Hs Hp. split; [|split; [|right; now split]].
    - rewrite L. unfold reported_pairs. destruct (status_tracing o), (status_coex o); try reflexivity. destruct Hs; congruence.
    - rewrite Hh. apply no_tab_tabs. reflexivity. }
  destruct (if i_nlo_check inp then GetStatusNLOVEV (pt_nlo p) else Nlo_Off) eqn:EN.
  1,4: injection H as <-; apply simple; [reflexivity|reflexivity|left; discriminate|reflexivity].
  all: set (ew := if 0 <? i_ewsr_check inp then GetStatusEWSR (pt_ewsr p) else Ew_Off) in *;
    cbv zeta in H;
    destruct ((0 <? i_ewsr_check inp) && _) eqn:EF;
    [injection H as <-; apply simple; [reflexivity|reflexivity|left; discriminate|reflexivity]|].
  all: destruct (pt_tracing p) eqn:Etr, (pt_coex p) eqn:Ecx;
       try (injection H as <-; apply simple; [reflexivity|reflexivity|first [left; discriminate|right; discriminate]|reflexivity]).
  all: destruct (run_pairs nvev inp fuel (pt_pairs p) empty_store) as [st| | |] eqn:ER; try discriminate; cbn [bind] in H;
       destruct (pt_history p st) as [h| | |]; try discriminate; cbn [bind] in H;
       apply run_pairs_spec in ER as (es & -> & F); [|exact P];
       injection H as <-; (split; [reflexivity|]); (split; [apply no_tab_tabs, tabs_render|]); left;
       cbn [status_tracing status_coex num_coex_phase_pairs pairs_out];
       (split; [reflexivity|]); (split; [reflexivity|]); (split; [reflexivity|]); exists es; (split; [reflexivity|exact F]).
Qed.

Section Rows.
Variable show : dbl -> str.
Hypothesis show_no_tab : forall x, no_tab (show x).
Variables (vevs legCT : list str) (fuel : nat) (inp : user_input).
Hypothesis vevs_no_tab : Forall no_tab vevs.
Hypothesis vevs_some : vevs <> [].
Hypothesis legCT_no_tab : Forall no_tab legCT.
Hypothesis legCT_some : legCT <> [].
Variable header : str.
Notation nvev := (length vevs).
Notation gw := (i_gw inp).

Lemma nvev_pos : (1 <= nvev)%nat.
Proof. destruct vevs; [congruence|cbn; lia]. Qed.

Definition names (n : nat) : list str := header :: legCT ++ GetLegend vevs n gw.

Lemma full_legend n : header ++ sep ++ join legCT ++ sep ++ join (GetLegend vevs n gw) = tab_separated (names n).
Proof.
  rewrite (tab_separated_join (names n)). unfold names.
  rewrite (join_app legCT (GetLegend vevs n gw)) by (try assumption; discriminate).
  destruct (legCT ++ GetLegend vevs n gw) eqn:E; [destruct legCT; discriminate|]. reflexivity.
Qed.

Lemma row_is_named p out line ct time n row :
  Forall (vevs_ok nvev) (pt_pairs p) -> length ct = length legCT -> no_tab time -> columns line = columns header ->
  TransitionTracer vevs nvev fuel inp p = Ok out ->
  row_text show gw line ct time out = Ok row -> (reported_pairs out p <= n)%nat ->
  exists L, row_named show vevs gw legCT header line ct time out (reported_pairs out p) n L /\
    map fst L = names n /\
    row ++ padding (tabs (tab_separated (names n)) - tabs row) ++ history out = tab_separated (map snd L).
Proof.
  intros P C Ht Hl H R Hn.
  destruct (tracer_cases _ _ _ _ _ _ P H) as (Leg & Hh & Cases).
  destruct (row_tabs show show_no_tab vevs nvev fuel inp eq_refl nvev_pos p out line ct time P Ht H) as (row' & k' & R' & Tabs & Leg' & _).
  rewrite R in R'. injection R' as <-.
  set (k := reported_pairs out p) in *.
  assert (k' = k).
  { rewrite Leg in Leg'. apply (f_equal (@length str)) in Leg'. rewrite !legend_length in Leg'.
    assert (0 < per_pair nvev gw)%nat by (unfold per_pair; lia). nia. }
  subst k'.
  destruct (wnlo_ok (status_nlo out)) as (w1 & W1 & E1). destruct (wewsr_ok (status_ewsr out)) as (w2 & W2 & E2).
  destruct (wtrace_ok (status_tracing out)) as (w3 & W3 & E3). destruct (wcoex_ok (status_coex out)) as (w4 & W4 & E4).
  set (hd_cols := [(s2l "status_nlo_stability", s2l w1); (s2l "status_ewsr", s2l w2); (s2l "status_tracing", s2l w3);
         (s2l "status_coex_pairs", s2l w4); (s2l "runtime", time)]).
  assert (HD : cells_text [line; vec show ct; show_nlo (status_nlo out); show_ewsr (status_ewsr out);
                 show_trace (status_tracing out); show_coex (status_coex out); time] =
               cells_text (map snd ([(header, line)] ++ combine legCT (map show ct) ++ hd_cols))).
  { rewrite !map_app, map_snd_combine by (rewrite map_length; lia). cbn [map snd app]. rewrite !cells_cons, cells_app.
    rewrite <- (cells_join (map show ct)) by (intro X; apply (f_equal (@length str)) in X; rewrite map_length in X; cbn [length] in X; apply legCT_some, length_zero_iff_nil; lia).
    unfold vec, hd_cols. cbn [map snd]. rewrite !cells_cons, E1, E2, E3, E4, <- !app_assoc. reflexivity. }
  assert (exists M, pairs_named show vevs gw (pairs_out out) k k M /\ map fst M = flat_map (legend_pair vevs gw) (seq 0 k) /\
            row = cells_text (map snd ([(header, line)] ++ combine legCT (map show ct) ++ hd_cols)) ++ cells_text (map snd M)) as (M & M1 & M2 & M3).
  { destruct Cases as [(T & X & N & es & Es & F)|(Bad & Es)].
    - assert (Ek : k = length (pt_pairs p)) by (unfold k, reported_pairs; now rewrite T, X).
      destruct (pairs_are_named show vevs vevs_some gw _ _ F k ltac:(lia) k (le_n _)) as (M & M1 & M2 & M3).
      exists M. rewrite Es. split; [exact M1|]. split; [exact M2|].
      unfold row_text in R. cbv zeta in R. rewrite T, X, N, <- Ek, Es, M3 in R. cbn [bind] in R. injection R as <-.
      rewrite <- HD, T, X. reflexivity.
    - assert (Ek : k = 0%nat). { unfold k, reported_pairs. destruct (status_tracing out), (status_coex out); try reflexivity. destruct Bad; congruence. }
      exists []. rewrite Ek. split; [constructor|]. split; [reflexivity|]. rewrite app_nil_r, <- HD.
      unfold row_text in R. cbv zeta in R.
      destruct (status_tracing out), (status_coex out); try (injection R as <-; reflexivity). destruct Bad; congruence. }
  destruct (nan_pairs show vevs gw _ k M M1 (n - k)) as (Q & Q1 & Q2 & Q3).
  replace (k + (n - k))%nat with n in Q1 by lia.
  exists ([(header, line)] ++ combine legCT (map show ct) ++ hd_cols ++ (M ++ Q) ++ [(s2l "transition_history", history out)]).
  split; [|split].
  - exists w1, w2, w3, w4, (M ++ Q). split; [exact W1|]. split; [exact W2|]. split; [exact W3|]. split; [exact W4|].
    split; [exact Q1|]. reflexivity.
  - unfold names, GetLegend. rewrite !map_app, map_fst_combine by (rewrite map_length; lia). rewrite M2, Q2.
    assert (Es : seq 0 n = seq 0 k ++ seq k (n - k)) by (change k with (0 + k)%nat at 2; rewrite <- seq_app; f_equal; lia).
    rewrite Es, flat_map_app. unfold hd_cols. cbn [map fst app].
    rewrite <- !app_assoc. reflexivity.
  - assert (TL : (tabs (tab_separated (names n)) - tabs row = (n - k) * per_pair nvev gw)%nat).
    { rewrite <- full_legend, (full_legend_tabs vevs nvev inp vevs_no_tab eq_refl nvev_pos legCT legCT_no_tab header n), Tabs, C.
      rewrite !columns_tabs in Hl. injection Hl as ->. rewrite Nat.mul_sub_distr_r. lia. }
    rewrite TL, padding_cells, <- Q3, M3, tab_separated_join.
    rewrite !map_app. cbn [map snd]. rewrite !app_assoc, <- cells_end, !cells_app, <- !app_assoc. reflexivity.
Qed.

(** ** The file *)
Variable init : str -> str -> outcome (list dbl * point * str).
Hypothesis init_ok : forall h l ct p t, init h l = Ok (ct, p, t) ->
  length ct = length legCT /\ no_tab t /\ Forall (vevs_ok nvev) (pt_pairs p).
Variable np : Z.
Notation proc := (process show vevs legCT nvev fuel inp np init header).

(** a processed line: counterterms, point, time, result and row *)
Definition done (l : str) (x : list dbl * point * str * output * str) : Prop :=
  let '(ct, p, t, out, row) := x in
  init header l = Ok (ct, p, t) /\ TransitionTracer vevs nvev fuel inp p = Ok out /\ row_text show gw l ct t out = Ok row.
Definition d_out (x : list dbl * point * str * output * str) : output := let '(_, _, _, out, _) := x in out.
Definition d_row (x : list dbl * point * str * output * str) : str := let '(_, _, _, _, row) := x in row.
Definition d_k (x : list dbl * point * str * output * str) : nat := let '(_, p, _, out, _) := x in reported_pairs out p.

Lemma each_done : forall ls r r', each proc ls r = Ok r' ->
  exists xs, Forall2 done ls xs /\ rows r' = rows r ++ map d_row xs /\ hists r' = hists r ++ map (fun x => history (d_out x)) xs /\
    leg r' = fold_left (fun g x => if (length g <? length (legend (d_out x)))%nat then legend (d_out x) else g) xs (leg r) /\
    (ls <> [] -> file r' = write_file header legCT r').
Proof.
  induction ls as [|l ls IH]; intros r r' H; cbn [each] in H.
  - injection H as <-. exists []. cbn. rewrite !app_nil_r. repeat split; try constructor. congruence.
  - destruct (proc l r) as [r1| | |] eqn:E; try discriminate. cbn [bind] in H.
    unfold process in E. destruct (np <=? Z.of_nat (length (rows r))); [discriminate|].
    destruct (init header l) as [[[ct p] t]| | |] eqn:EI; try discriminate. cbn [bind] in E.
    destruct (TransitionTracer vevs nvev fuel inp p) as [out| | |] eqn:ET; try discriminate. cbn [bind] in E.
    destruct (row_text show gw l ct t out) as [row| | |] eqn:ER; try discriminate. cbn [bind] in E.
    injection E as <-.
    destruct (IH _ _ H) as (xs & F & R1 & R2 & R3 & R4). cbn [rows hists leg file] in *.
    exists ((ct, p, t, out, row) :: xs). split; [constructor; [split; [exact EI|split; [exact ET|exact ER]]|exact F]|].
    cbn [map d_row d_out fold_left]. rewrite R1, R2, R3, <- !app_assoc. split; [reflexivity|]. split; [reflexivity|]. split; [reflexivity|].
    intros _. destruct ls as [|l2 ls]; [|apply R4; discriminate].
    cbn in H. injection H as <-. reflexivity.
Qed.

Lemma legend_max : forall xs g n,
  Forall (fun x => legend (d_out x) = GetLegend vevs (d_k x) gw) xs ->
  (g = [] /\ n = 0%nat \/ g = GetLegend vevs n gw) ->
  exists m, (xs <> [] \/ g <> [] ->
      fold_left (fun g x => if (length g <? length (legend (d_out x)))%nat then legend (d_out x) else g) xs g = GetLegend vevs m gw) /\
    (n <= m)%nat /\ Forall (fun x => d_k x <= m)%nat xs /\ (m = n \/ Exists (fun x => d_k x = m) xs).
Proof.
  assert (PP : (0 < per_pair nvev gw)%nat) by (unfold per_pair; lia).
  induction xs as [|x xs IH]; intros g n F G; cbn [fold_left].
  - exists n. split; [|split; [lia|split; [constructor|now left]]].
    intros [|N]; [congruence|]. destruct G as [[-> _]| ->]; [congruence|reflexivity].
  - apply Forall_cons_iff in F as [Fx F]. rewrite Fx.
    assert (exists n', (if (length g <? length (GetLegend vevs (d_k x) gw))%nat then GetLegend vevs (d_k x) gw else g) = GetLegend vevs n' gw /\
              (n <= n')%nat /\ (d_k x <= n')%nat /\ (n' = n \/ n' = d_k x)) as (n' & E & A & B & D).
    { destruct G as [[-> ->]| ->].
      - exists (d_k x). rewrite legend_length. cbn [length]. replace (0 <? 6 + d_k x * per_pair nvev gw)%nat with true by (symmetry; apply Nat.ltb_lt; lia).
        split; [reflexivity|]. split; [lia|]. split; [lia|now right].
      - rewrite !legend_length. destruct (Nat.ltb_spec (6 + n * per_pair nvev gw) (6 + d_k x * per_pair nvev gw)).
        + exists (d_k x). split; [reflexivity|]. split; [nia|]. split; [lia|now right].
        + exists n. split; [reflexivity|]. split; [lia|]. split; [nia|now left]. }
    rewrite E. destruct (IH (GetLegend vevs n' gw) n' F (or_intror eq_refl)) as (m & M1 & M2 & M3 & M4).
    exists m. split; [intros _; apply M1; right; discriminate|]. split; [lia|]. split; [constructor; [lia|exact M3]|].
    destruct M4 as [->|M4]; [|right; now right]. destruct D as [->| ->]; [now left|]. right. now left.
Qed.

Lemma combine_map {A B C} (f : A -> B) (g : A -> C) l : combine (map f l) (map g l) = map (fun x => (f x, g x)) l.
Proof. induction l as [|x l IH]; [reflexivity|]. cbn. now rewrite IH. Qed.

Theorem table_named ls r' :
  ls <> [] -> Forall (fun l => columns l = columns header) ls ->
  each proc ls no_report = Ok r' ->
  exists n Ls, file r' = tab_separated (names n) :: map (fun L => tab_separated (map snd L)) Ls /\
    Forall2 (fun l L => map fst L = names n /\ exists ct p t out,
      init header l = Ok (ct, p, t) /\ TransitionTracer vevs nvev fuel inp p = Ok out /\
      (reported_pairs out p <= n)%nat /\
      row_named show vevs gw legCT header l ct t out (reported_pairs out p) n L) ls Ls /\
    (n = 0%nat \/ exists l ct p t out, In l ls /\ init header l = Ok (ct, p, t) /\
        TransitionTracer vevs nvev fuel inp p = Ok out /\ reported_pairs out p = n).
Proof.
  intros NE Cl H. destruct (each_done _ _ _ H) as (xs & F & R1 & R2 & R3 & R4). cbn [rows hists leg no_report app] in R1, R2, R3. specialize (R4 NE).
  assert (FL : Forall (fun x => legend (d_out x) = GetLegend vevs (d_k x) gw) xs).
  { clear -F init_ok. induction F as [|l [[[[ct p] t] out] row] ls xs (A & B & C) F IH]; constructor; [|exact IH].
    destruct (init_ok _ _ _ _ _ A) as (_ & _ & P). exact (proj1 (tracer_cases _ _ _ _ _ _ P B)). }
  destruct (legend_max xs [] 0 FL (or_introl (conj eq_refl eq_refl))) as (n & M1 & _ & M3 & M4).
  assert (NX : xs <> []) by (destruct F; congruence). specialize (M1 (or_introl NX)). rewrite M1 in R3.
  exists n. rewrite R4. unfold write_file. rewrite R1, R2, R3, combine_map, map_map, full_legend.
  assert (G : exists Ls, map (fun x => d_row x ++ padding (tabs (tab_separated (names n)) - tabs (d_row x)) ++ history (d_out x)) xs =
       map (fun L => tab_separated (map snd L)) Ls /\
       Forall2 (fun l L => map fst L = names n /\ exists ct p t out,
         init header l = Ok (ct, p, t) /\ TransitionTracer vevs nvev fuel inp p = Ok out /\
         (reported_pairs out p <= n)%nat /\
         row_named show vevs gw legCT header l ct t out (reported_pairs out p) n L) ls Ls).
  { clear -F M3 Cl init_ok show_no_tab vevs_no_tab vevs_some legCT_no_tab legCT_some.
    induction F as [|l [[[[ct p] t] out] row] ls xs (A & B & C) F IH].
    - exists []. split; [reflexivity|constructor].
    - apply Forall_cons_iff in M3 as [Mx M3]. apply Forall_cons_iff in Cl as [Cx Cl].
      destruct (IH Cl M3) as (Ls & L1 & L2).
      destruct (init_ok _ _ _ _ _ A) as (I1 & I2 & I3).
      destruct (row_is_named p out l ct t n row I3 I1 I2 Cx B C Mx) as (L & Q1 & Q2 & Q3).
      exists (L :: Ls). cbn [map d_row d_out]. rewrite Q3, L1. split; [reflexivity|].
      constructor; [|exact L2]. split; [exact Q2|]. exists ct, p, t, out. split; [exact A|]. split; [exact B|]. split; [exact Mx|exact Q1]. }
  destruct G as (Ls & L1 & L2). exists Ls. rewrite L1. split; [reflexivity|]. split; [exact L2|].
  destruct M4 as [->|M4]; [now left|]. right.
  clear -F M4. induction F as [|l [[[[ct p] t] out] row] ls xs (A & B & C) F IH]; inversion M4; subst.
  - exists l, ct, p, t, out. split; [now left|]. split; [exact A|]. split; [exact B|reflexivity].
  - destruct (IH H0) as (l' & ct' & p' & t' & out' & I & X). exists l', ct', p', t', out'. split; [now right|exact X].
Qed.
End Rows.
