(** Proofs about columns of the output tables and about reading the input file. *)
From Coq Require Import QArith.
From Verif.Model Require Import Base History Tracer Report.
From Verif.Spec Require Import ReportSpec.
From Verif.Proofs Require Import HistoryProofs ReportProofs.
Open Scope Z_scope.

(** ** Tabs *)
Lemma columns_tabs s : columns s = S (tabs s).
Proof.
  unfold columns, tabs, tab. f_equal. induction s as [|c s IH]; [reflexivity|]. cbn [filter count_occ].
  destruct (ascii_dec c "009"%char) as [->|N]; [rewrite Ascii.eqb_refl; cbn [length]; now rewrite IH|].
  destruct (Ascii.eqb_spec "009"%char c) as [E|]; [congruence|exact IH].
Qed.
Lemma tabs_app a b : tabs (a ++ b) = (tabs a + tabs b)%nat.
Proof. apply count_occ_app. Qed.
Lemma tabs_none s : no_tab s -> tabs s = 0%nat.
Proof. intro H. now apply count_occ_not_In. Qed.
Lemma tabs_sep : tabs sep = 1%nat. Proof. reflexivity. Qed.

Lemma tabs_join l : Forall no_tab l -> tabs (join l) = (length l - 1)%nat.
Proof.
  induction 1 as [|x l Hx Hl IH]; [reflexivity|]. destruct l as [|y l].
  - cbn. now apply tabs_none.
  - change (join (x :: y :: l)) with (x ++ sep ++ join (y :: l)).
    rewrite !tabs_app, (tabs_none x Hx), tabs_sep, IH. cbn [length]. lia.
Qed.

Lemma tabs_concat l : tabs (concat l) = list_sum (map tabs l).
Proof. induction l as [|x l IH]; [reflexivity|]. cbn [concat map list_sum fold_right]. now rewrite tabs_app, IH. Qed.
Lemma tabs_cells l : tabs (cells_text l) = list_sum (map (fun c => S (tabs c)) l).
Proof. unfold cells_text. rewrite tabs_concat, map_map. f_equal. apply map_ext. intro c. rewrite tabs_app, tabs_sep. lia. Qed.
Lemma tabs_padding k : tabs (padding k) = k.
Proof. unfold padding. induction k as [|k IH]; [reflexivity|]. cbn [repeat concat]. rewrite !tabs_app, IH. reflexivity. Qed.

Lemma tabs_s2l_digits s n : tabs (s2l s) = 0%nat -> tabs (s2l s ++ to_string n) = 0%nat.
Proof.
  intro H. rewrite tabs_app, H. cbn. apply tabs_none. intro I.
  assert (D := to_string_digits n). rewrite Forall_forall in D. apply D in I. discriminate.
Qed.
Lemma no_tab_tabs s : tabs s = 0%nat -> no_tab s.
Proof. apply count_occ_not_In. Qed.
Lemma tabs_to_string n : tabs (to_string n) = 0%nat.
Proof. exact (tabs_s2l_digits ""%string n eq_refl). Qed.

Lemma tabs_render ids : forall ps, tabs (render ids ps) = 0%nat.
Proof.
  intro ps. destruct ids as [|i ids]; [reflexivity|]. cbn [render]. rewrite tabs_app, tabs_to_string. cbn [Nat.add].
  revert ps. induction ids as [|j ids IH]; intros [|p ps]; try reflexivity.
  cbn [render_rest]. rewrite !tabs_app, !tabs_to_string, IH. reflexivity.
Qed.

Lemma tabs_shows : (forall s, tabs (show_nlo s) = 0%nat) /\ (forall s, tabs (show_ewsr s) = 0%nat) /\
  (forall s, tabs (show_trace s) = 0%nat) /\ (forall s, tabs (show_coex s) = 0%nat) /\
  (forall s, tabs (show_crit s) = 0%nat) /\ (forall s, tabs (show_temp s) = 0%nat) /\ (forall s, tabs (show_gw s) = 0%nat).
Proof. repeat split; intros []; reflexivity. Qed.

(** ** Legend *)
Definition per_pair (n : nat) (gw : bool) : nat := 11 + 10 * n + if gw then 14 else 0.

Lemma vev_cols_length v s i : length (vev_cols v s i) = length v.
Proof. apply map_length. Qed.
Lemma legend_pair_length vevs gw i : length (legend_pair vevs gw i) = per_pair (length vevs) gw.
Proof.
  unfold legend_pair, per_pair. rewrite !app_length, !vev_cols_length.
  destruct gw; cbn [length]; lia.
Qed.
Lemma flat_map_length_const {A B} (f : A -> list B) k l : (forall x, length (f x) = k) -> length (flat_map f l) = (length l * k)%nat.
Proof. intro H. induction l as [|x l IH]; [reflexivity|]. cbn. now rewrite app_length, H, IH. Qed.
Lemma legend_length vevs n gw : length (GetLegend vevs n gw) = (6 + n * per_pair (length vevs) gw)%nat.
Proof.
  unfold GetLegend. rewrite !app_length, (flat_map_length_const _ _ _ (legend_pair_length vevs gw)), seq_length.
  cbn [length]. lia.
Qed.

Lemma vev_cols_no_tab v s i : Forall no_tab v -> tabs (s2l s) = 0%nat -> Forall no_tab (vev_cols v s i).
Proof.
  intros H Hs. unfold vev_cols. apply Forall_map. eapply Forall_impl; [|exact H].
  intros x Hx. apply no_tab_tabs. rewrite tabs_app, (tabs_none x Hx). now apply tabs_s2l_digits.
Qed.
Lemma legend_pair_no_tab vevs gw i : Forall no_tab vevs -> Forall no_tab (legend_pair vevs gw i).
Proof.
  intro H. unfold legend_pair. cbv zeta.
  repeat match goal with
  | |- Forall _ (_ ++ _) => apply Forall_app; split
  | |- Forall _ (vev_cols _ _ _) => apply vev_cols_no_tab; [exact H|reflexivity]
  | |- Forall _ (if ?b then _ else _) => destruct b
  | |- Forall _ [] => constructor
  | |- Forall _ (_ :: _) => apply Forall_cons; [apply no_tab_tabs; apply tabs_s2l_digits; reflexivity|]
  end.
Qed.
Lemma legend_no_tab vevs n gw : Forall no_tab vevs -> Forall no_tab (GetLegend vevs n gw).
Proof.
  intro H. unfold GetLegend. apply Forall_app. split.
  { repeat (apply Forall_cons; [apply no_tab_tabs; reflexivity|]). constructor. }
  apply Forall_app. split.
  { apply Forall_flat_map. apply Forall_forall. intros i _. now apply legend_pair_no_tab. }
  apply Forall_cons; [apply no_tab_tabs; reflexivity|constructor].
Qed.

(** ** Rows *)
Section Rows.
Variable show : dbl -> str.
Hypothesis show_no_tab : forall x, no_tab (show x).

Lemma tabs_show x : tabs (show x) = 0%nat.
Proof. apply tabs_none, show_no_tab. Qed.
Lemma tabs_vec l : tabs (vec show l) = (length l - 1)%nat.
Proof.
  unfold vec. rewrite tabs_join, map_length; [reflexivity|]. apply Forall_map. apply Forall_forall. intros; apply show_no_tab.
Qed.

Lemma pair_cells_tabs n gw o e g : (1 <= n)%nat -> entry_ok n o e ->
  tabs (cells_text (pair_cells show gw (e_crit e) (e_bounce e) (e_na e) (e_n e) (e_p e) (e_c e) (e_d e) g)) = per_pair n gw.
Proof.
  intros N (_ & _ & _ & L1 & L2 & (_ & _ & L3 & L4) & (_ & _ & L5 & L6) & (Tp & _ & _ & L7 & L8) & (Tc & _ & _ & L9 & L10) & _).
  destruct tabs_shows as (_ & _ & _ & _ & T1 & T2 & T3).
  rewrite tabs_cells. unfold pair_cells, per_pair. destruct gw; cbn [map list_sum fold_right app];
    rewrite ?tabs_show, ?tabs_vec, ?T1, ?T2, ?T3, L1, L2, L3, L4, L5, L6, L7, L8, L9, L10; lia.
Qed.

Lemma nth_map {A B} (f : A -> B) l i x : nth_error l i = Some x -> at_ (map f l) i = Ok (f x).
Proof. intro H. unfold at_. now rewrite (map_nth_error f i l H). Qed.

Lemma pair_text_ok n gw os es i o : (1 <= n)%nat -> Forall2 (entry_ok n) os es -> nth_error os i = Some o ->
  exists t, pair_text show gw (extend empty_store es) i = Ok t /\ tabs t = per_pair n gw.
Proof.
  intros N F I.
  assert (exists e, nth_error es i = Some e /\ entry_ok n o e) as (e & E & Ok_).
  { revert i I. induction F as [|x y os es P F IH]; intros [|i] I; cbn in I; try discriminate.
    - injection I as ->. exists y. now split.
    - exact (IH i I). }
  unfold pair_text, extend. cbn [s_crit s_bounce s_na s_n s_p s_c v_trans v_gw empty_store app].
  rewrite !(nth_map _ _ _ _ E). cbn [bind].
  destruct gw; eexists; (split; [reflexivity|]).
  - now apply (pair_cells_tabs n true o).
  - now apply (pair_cells_tabs n false o).
Qed.

Lemma pairs_text_ok n gw os es : (1 <= n)%nat -> Forall2 (entry_ok n) os es -> forall is,
  (forall i, In i is -> (i < length os)%nat) ->
  exists t, pairs_text show gw (extend empty_store es) is = Ok t /\ tabs t = (length is * per_pair n gw)%nat.
Proof.
  intros N F. induction is as [|i is IH]; intro B.
  - exists []. split; reflexivity.
  - destruct (nth_error os i) as [o|] eqn:E.
    2:{ apply nth_error_None in E. specialize (B i (or_introl eq_refl)). lia. }
    destruct (pair_text_ok n gw os es i o N F E) as (t & T1 & T2).
    destruct IH as (u & U1 & U2); [intros; apply B; now right|].
    exists (t ++ u). cbn [pairs_text]. rewrite T1. cbn [bind]. rewrite U1. cbn [bind]. split; [reflexivity|].
    rewrite tabs_app, T2, U2. cbn [length]. lia.
Qed.

Variables (vevs : list str) (nvev fuel : nat) (inp : user_input).
Hypothesis vevs_no_tab : Forall no_tab vevs.
Hypothesis nvev_eq : nvev = length vevs.
Hypothesis nvev_pos : (1 <= nvev)%nat.

Definition point_ok (p : point) : Prop := Forall (vevs_ok nvev) (pt_pairs p).

(** number of tabs of the row before the history and of the legend *)
Lemma row_tabs p out line ct time :
  point_ok p -> no_tab time ->
  TransitionTracer vevs nvev fuel inp p = Ok out ->
  exists row k, row_text show (i_gw inp) line ct time out = Ok row /\
    tabs row = (tabs line + (length ct - 1) + 7 + k * per_pair nvev (i_gw inp))%nat /\
    legend out = GetLegend vevs k (i_gw inp) /\ no_tab (history out).
Proof.
  intros P Ht H. unfold TransitionTracer in H.
  destruct tabs_shows as (T1 & T2 & T3 & T4 & _).
  assert (Hd : forall o, tabs (cells_text [line; vec show ct; show_nlo (status_nlo o); show_ewsr (status_ewsr o);
                          show_trace (status_tracing o); show_coex (status_coex o); time]) = (tabs line + (length ct - 1) + 7)%nat).
  { intro o. rewrite tabs_cells. cbn [map list_sum fold_right]. rewrite T1, T2, T3, T4, tabs_vec, (tabs_none time Ht). lia. }
  assert (simple : forall o, legend o = GetLegend vevs 0 (i_gw inp) -> history o = s2l "not_set" ->
      (status_tracing o <> Tr_Success \/ status_coex o <> Cx_Success) ->
      exists row k, row_text show (i_gw inp) line ct time o = Ok row /\
      tabs row = (tabs line + (length ct - 1) + 7 + k * per_pair nvev (i_gw inp))%nat /\
      legend o = GetLegend vevs k (i_gw inp) /\ no_tab (history o)).
  { intros o L Hh Hs. unfold row_text.
    exists (cells_text [line; vec show ct; show_nlo (status_nlo o); show_ewsr (status_ewsr o);
                          show_trace (status_tracing o); show_coex (status_coex o); time]), 0%nat. split.
    - destruct (status_tracing o) eqn:E1, (status_coex o) eqn:E2; try reflexivity. destruct Hs; congruence.
    - split; [|split; [exact L|]].
      + rewrite <- (Hd o). lia.
      + rewrite Hh. apply no_tab_tabs. reflexivity. }
  destruct (if i_nlo_check inp then GetStatusNLOVEV (pt_nlo p) else Nlo_Off) eqn:EN.
  1,4: injection H as <-; apply simple; [reflexivity|reflexivity|left; discriminate].
  all: set (ew := if 0 <? i_ewsr_check inp then GetStatusEWSR (pt_ewsr p) else Ew_Off) in *;
    cbv zeta in H;
    destruct ((0 <? i_ewsr_check inp) && _) eqn:EF;
    [injection H as <-; apply simple; [reflexivity|reflexivity|left; discriminate]|].
  all: destruct (pt_tracing p) eqn:Etr, (pt_coex p) eqn:Ecx;
       try (injection H as <-; apply simple; [reflexivity|reflexivity|first [left; discriminate|right; discriminate]]).
  all: destruct (run_pairs nvev inp fuel (pt_pairs p) empty_store) as [st| | |] eqn:ER; try discriminate; cbn [bind] in H;
       destruct (pt_history p st) as [h| | |]; try discriminate; cbn [bind] in H;
       assert (out = {| legend := GetLegend vevs (length (pt_pairs p)) (i_gw inp); status_nlo := _; status_ewsr := ew;
                      status_tracing := Tr_Success; status_coex := Cx_Success;
                      pairs_out := st; num_coex_phase_pairs := length (pt_pairs p); history := render (fst h) (snd h) |})
         by (injection H; intros <-; reflexivity); subst out.
  all: apply run_pairs_spec in ER as (es & -> & F); [|exact P];
       destruct (pairs_text_ok nvev (i_gw inp) _ _ nvev_pos F (seq 0 (length (pt_pairs p)))) as (t & E1 & E2);
       [intros i I; apply in_seq in I; lia|];
       eexists; exists (length (pt_pairs p)); unfold row_text;
       cbn [status_tracing status_coex pairs_out num_coex_phase_pairs legend history];
       rewrite E1; cbn [bind]; (split; [reflexivity|]);
       (split; [|split; [reflexivity|apply no_tab_tabs, tabs_render]]);
       rewrite tabs_app, E2, seq_length;
       pose proof (fun a b => Hd {| legend := []; status_nlo := a; status_ewsr := b; status_tracing := Tr_Success; status_coex := Cx_Success;
                pairs_out := empty_store; num_coex_phase_pairs := 0; history := [] |}) as X;
       cbn [status_nlo status_ewsr status_tracing status_coex] in X |- *; rewrite X; lia.
Qed.

(** ** The file *)
Variable legCT : list str.
Hypothesis legCT_no_tab : Forall no_tab legCT.
Variable init : str -> str -> outcome (list dbl * point * str).
Variable num_points : Z.
Hypothesis init_ok : forall h l ct p t, init h l = Ok (ct, p, t) -> length ct = length legCT /\ point_ok p /\ no_tab t.

Notation pp := (per_pair nvev (i_gw inp)).

(** invariant of the collected rows *)
Definition rep_ok (header : str) (r : report) : Prop :=
  length (hists r) = length (rows r) /\ Forall no_tab (hists r) /\
  exists k, (rows r = [] -> leg r = []) /\ (rows r <> [] -> leg r = GetLegend vevs k (i_gw inp)) /\
    Forall (fun row => exists k', (k' <= k)%nat /\
       (tabs row <= tabs header + (length legCT - 1) + 7 + k' * pp)%nat) (rows r).

Definition rectangular (f : list str) : Prop :=
  match f with [] => True | h :: t => Forall (fun l => columns l = columns h) t end.

Lemma full_legend_tabs header k :
  tabs (header ++ sep ++ join legCT ++ sep ++ join (GetLegend vevs k (i_gw inp))) =
  (tabs header + (length legCT - 1) + 7 + k * pp)%nat.
Proof.
  rewrite !tabs_app, !tabs_sep, (tabs_join legCT legCT_no_tab), (tabs_join _ (legend_no_tab _ _ _ vevs_no_tab)), legend_length, nvev_eq.
  lia.
Qed.

Lemma process_ok header line r r' :
  (tabs line <= tabs header)%nat -> rep_ok header r ->
  process show vevs legCT nvev fuel inp num_points init header line r = Ok r' ->
  rep_ok header r' /\ rectangular (file r') /\ length (file r') = S (length (rows r')) /\
  length (rows r') = S (length (rows r)).
Proof.
  intros HL (L1 & L2 & k & L0 & L3 & L4) H. unfold process in H.
  destruct (num_points <=? Z.of_nat (length (rows r))); [discriminate|].
  destruct (init header line) as [[[ct p] time]| | |] eqn:EI; try discriminate. cbn [bind] in H.
  destruct (init_ok _ _ _ _ _ EI) as (C1 & C2 & C3).
  destruct (TransitionTracer vevs nvev fuel inp p) as [out| | |] eqn:ET; try discriminate. cbn [bind] in H.
  destruct (row_tabs p out line ct time C2 C3 ET) as (row & k1 & R1 & R2 & R3 & R4).
  rewrite R1 in H. cbn [bind] in H.
  set (leg' := if (length (leg r) <? length (legend out))%nat then legend out else leg r) in *.
  set (r1 := {| rows := rows r ++ [row]; hists := hists r ++ [history out]; leg := leg'; file := file r |}) in *.
  assert (E : r' = {| rows := rows r1; hists := hists r1; leg := leg r1; file := write_file header legCT r1 |}) by congruence.
  clear H. subst r'.
  assert (K : exists k', leg' = GetLegend vevs k' (i_gw inp) /\ (k1 <= k')%nat /\
     Forall (fun row => exists k0, (k0 <= k')%nat /\ (tabs row <= tabs header + (length legCT - 1) + 7 + k0 * pp)%nat) (rows r)).
  { unfold leg'. rewrite R3, legend_length, <- nvev_eq.
    assert (PP : (0 < pp)%nat) by (unfold per_pair; lia).
    destruct (rows r) as [|x l] eqn:ER.
    - destruct (Nat.ltb_spec (length (leg r)) (6 + k1 * pp)).
      + exists k1. split; [reflexivity|]. split; [lia|constructor].
      + exfalso. rewrite (L0 eq_refl) in *. cbn in *. lia.
    - rewrite (L3 ltac:(discriminate)), legend_length, <- nvev_eq.
      destruct (Nat.ltb_spec (6 + k * pp) (6 + k1 * pp)) as [B|B].
      + exists k1. split; [reflexivity|]. split; [lia|].
        assert (k < k1)%nat by nia.
        eapply Forall_impl; [|exact L4]. intros a (k0 & ? & ?). exists k0. split; [lia|assumption].
      + exists k. split; [reflexivity|]. split; [nia|exact L4]. }
  destruct K as (k' & K1 & K2 & K3).
  assert (Inv : Forall (fun row => exists k0, (k0 <= k')%nat /\ (tabs row <= tabs header + (length legCT - 1) + 7 + k0 * pp)%nat) (rows r1)).
  { unfold r1. cbn [rows]. apply Forall_app. split; [exact K3|]. constructor; [|constructor].
    exists k1. split; [exact K2|]. rewrite R2, C1. lia. }
  split; [|split; [|split]].
  - split; [unfold r1; cbn; rewrite !app_length; cbn; lia|]. split.
    + unfold r1; cbn. apply Forall_app. split; [exact L2|]. constructor; [exact R4|constructor].
    + exists k'. split; [unfold r1; cbn; destruct (rows r); discriminate|]. split; [intros _; exact K1|exact Inv].
  - cbn [file]. unfold write_file, rectangular. apply Forall_map.
    assert (HH : Forall no_tab (hists r1)).
    { unfold r1; cbn. apply Forall_app. split; [exact L2|]. constructor; [exact R4|constructor]. }
    change (leg r1) with leg'. rewrite K1.
    apply Forall_forall. intros [ro hi] I.
    rewrite Forall_forall in Inv, HH. specialize (Inv ro (in_combine_l _ _ _ _ I)). specialize (HH hi (in_combine_r _ _ _ _ I)).
    destruct Inv as (k0 & I1 & I2).
    rewrite !columns_tabs. f_equal. rewrite tabs_app, tabs_app, tabs_padding, (tabs_none hi HH), full_legend_tabs.
    assert (k0 * pp <= k' * pp)%nat by (apply Nat.mul_le_mono_r; exact I1). lia.
  - cbn [file rows]. unfold write_file. cbn [length]. rewrite map_length, combine_length.
    unfold r1; cbn. rewrite !app_length; cbn. lia.
  - cbn [rows]. unfold r1; cbn. rewrite app_length; cbn. lia.
Qed.
End Rows.

(** ** Reading the file *)
Lemma take_line_nl l rest : ~ In nl l -> take_line (l ++ nl :: rest) = (l, Some rest).
Proof.
  induction l as [|c l IH]; intro H; cbn [take_line app].
  - now rewrite Ascii.eqb_refl.
  - destruct (Ascii.eqb_spec c nl) as [->|N]; [exfalso; apply H; now left|].
    rewrite IH; [reflexivity|]. intro I. apply H. now right.
Qed.
Lemma take_line_end l : ~ In nl l -> take_line l = (l, None).
Proof.
  induction l as [|c l IH]; intro H; cbn [take_line]; [reflexivity|].
  destruct (Ascii.eqb_spec c nl) as [->|N]; [exfalso; apply H; now left|].
  rewrite IH; [reflexivity|]. intro I. apply H. now right.
Qed.

Lemma in_range_past first last : forall ls k, last < k -> in_range first last k ls = [].
Proof.
  induction ls as [|l ls IH]; intros k H; cbn; [reflexivity|].
  replace (k <=? last) with false by (symmetry; apply Z.leb_gt; lia). rewrite andb_false_r. apply IH. lia.
Qed.

Section Loop.
Context {S : Type}.
Variable process : str -> str -> S -> outcome S.
Variables first last : Z.

Lemma main_loop_spec content ls : lines_of content ls -> forall fuel header k s,
  (length content < fuel)%nat -> 1 <= k ->
  main_loop process first last fuel content false header k s =
  each (process (if k =? 1 then hd [] ls else header)) (in_range first last k ls) s.
Proof.
  induction 1 as [|l Hl Hn|l rest ls Hn HL IH]; intros fuel header k s F K.
  - destruct fuel; [lia|]. reflexivity.
  - destruct fuel as [|fuel]; [lia|]. cbn [main_loop]. unfold getline.
    destruct l as [|c l]; [congruence|]. rewrite (take_line_end _ Hn).
    cbn [in_range each hd].
    set (h := if k =? 1 then c :: l else header).
    destruct (Z.ltb_spec last k) as [B|B].
    + replace (k <=? last) with false by (symmetry; apply Z.leb_gt; lia). rewrite andb_false_r. reflexivity.
    + destruct ((first <=? k) && (k <=? last)) eqn:E; cbn [each bind]; reflexivity.
  - destruct fuel as [|fuel]; [lia|]. cbn [main_loop]. unfold getline.
    change "010"%char with nl in *. rewrite (take_line_nl _ _ Hn).
    replace (match l ++ nl :: rest with [] => None | _ :: _ => Some (l, rest, false) end) with (Some (l, rest, false))
      by (destruct l; reflexivity).
    set (h := if k =? 1 then l else header).
    cbn [hd]. fold h.
    destruct (Z.ltb_spec last k) as [B|B].
    + rewrite in_range_past by lia. reflexivity.
    + assert (forall s, main_loop process first last fuel rest false h (k + 1) s =
                 each (process h) (in_range first last (k + 1) ls) s) as R.
      { intro s0. rewrite IH; [|rewrite app_length in F; cbn in F; lia|lia].
        replace (k + 1 =? 1) with false by (symmetry; apply Z.eqb_neq; lia). reflexivity. }
      cbn [in_range]. destruct ((first <=? k) && (k <=? last)) eqn:E; cbn [each bind].
      * destruct (process h l s); cbn [bind]; auto.
      * apply R.
Qed.

Lemma read_file_spec content ls s : lines_of content ls ->
  read_file process first last content s = each (process (hd [] ls)) (in_range first last 1 ls) s.
Proof. intro H. unfold read_file. now rewrite (main_loop_spec content ls H) by lia. Qed.
End Loop.

Lemma lines_of_total content : exists ls, lines_of content ls.
Proof.
  assert (H : forall n (c : str), (length c <= n)%nat -> exists ls, lines_of c ls).
  { induction n as [|n IH]; intros c Hc.
    - destruct c; [exists []; constructor|cbn in Hc; lia].
    - destruct (in_dec ascii_dec "010"%char c) as [I|I].
      + apply in_split in I as (a & b & E).
        assert (exists a b, c = a ++ "010"%char :: b /\ ~ In "010"%char a) as (a' & b' & -> & N).
        { clear -E. revert c b E. induction a as [|x a IHa]; intros c b ->.
          - exists [], b. split; [reflexivity|now intros []].
          - destruct (ascii_dec x "010"%char) as [->|NX].
            + exists [], (a ++ "010"%char :: b). split; [reflexivity|now intros []].
            + destruct (IHa _ b eq_refl) as (a' & b' & E' & N'). exists (x :: a'), b'. cbn. rewrite E'.
              split; [reflexivity|]. intros [|]; [congruence|contradiction]. }
        rewrite app_length in Hc. cbn in Hc. destruct (IH b') as (ls & L); [lia|].
        exists (a' :: ls). now constructor.
      + destruct c as [|x c]; [exists []; constructor|]. exists [x :: c]. constructor; [discriminate|exact I]. }
  exact (H (length content) content (le_n _)).
Qed.

Lemma lines_of_unique c ls ls' : lines_of c ls -> lines_of c ls' -> ls = ls'.
Proof.
  intro H. revert ls'. induction H as [|l Hl Hn|l rest ls Hn HL IH]; intros ls' H'.
  - inversion H' as [|l1 E1 E2|l1 r1 ls1 E1 E2]; subst; [reflexivity|congruence|]. destruct l1; discriminate.
  - inversion H' as [|l1 E1 E2|l1 r1 ls1 E1 E2]; subst; [congruence|reflexivity|].
    exfalso. apply Hn. apply in_or_app. right. now left.
  - inversion H' as [E0|l1 E1 E2|l1 r1 ls1 E1 E2 E3]; subst.
    + destruct l; discriminate.
    + exfalso. apply E2. apply in_or_app. right. now left.
    + assert (l1 = l /\ r1 = rest) as [-> ->].
      { change "010"%char with nl in *. assert (X := take_line_nl l rest Hn). rewrite <- E3 in X || rewrite E3 in X.
        rewrite (take_line_nl l1 r1 E1) in X. now injection X. }
      f_equal. now apply IH.
Qed.

Lemma in_range_length first last : forall ls k,
  Z.of_nat (length (in_range first last k ls)) <= Z.max 0 (last - Z.max first k + 1).
Proof.
  induction ls as [|l ls IH]; intro k; cbn [in_range]; [cbn; lia|].
  specialize (IH (k + 1)).
  destruct (Z.leb_spec first k), (Z.leb_spec k last); cbn [andb length]; lia.
Qed.

(** ** The whole program *)
Section Main.
Variable show : dbl -> str.
Hypothesis show_no_tab : forall x, no_tab (show x).
Variables (vevs legCT : list str) (nvev fuel : nat) (inp : user_input).
Hypothesis vevs_no_tab : Forall no_tab vevs.
Hypothesis nvev_eq : nvev = length vevs.
Hypothesis nvev_pos : (1 <= nvev)%nat.
Hypothesis legCT_no_tab : Forall no_tab legCT.
Variable init : str -> str -> outcome (list dbl * point * str).
Hypothesis init_ok : forall h l ct p t, init h l = Ok (ct, p, t) -> length ct = length legCT /\ point_ok nvev p /\ no_tab t.

Notation proc np := (process show vevs legCT nvev fuel inp np init).

Lemma each_rectangular np header : forall ls r r',
  Forall (fun l => columns l <= columns header)%nat ls ->
  rep_ok vevs nvev inp legCT header r -> rectangular (file r) ->
  each (proc np header) ls r = Ok r' -> rectangular (file r').
Proof.
  induction ls as [|l ls IH]; intros r r' F I R H; cbn in H.
  - injection H as <-. exact R.
  - apply Forall_cons_iff in F as [Fl Fs]. destruct (proc np header l r) as [r1| | |] eqn:E; try discriminate. cbn [bind] in H.
    rewrite !columns_tabs in Fl. apply le_S_n in Fl.
    destruct (process_ok show show_no_tab vevs nvev fuel inp vevs_no_tab nvev_eq nvev_pos legCT legCT_no_tab init np init_ok
                header l r r1 Fl I E) as (I1 & R1 & _).
    exact (IH r1 r' Fs I1 R1 H).
Qed.

Lemma rep_ok_start header : rep_ok vevs nvev inp legCT header no_report.
Proof. split; [reflexivity|]. split; [constructor|]. exists 0%nat. split; [reflexivity|]. split; [intros []; reflexivity|constructor]. Qed.

Theorem main_rectangular first last content ls r :
  lines_of content ls ->
  Forall (fun l => columns l <= columns (hd [] ls))%nat (in_range first last 1 ls) ->
  main show vevs legCT nvev fuel inp init first last content = Ok r ->
  rectangular (file r).
Proof.
  intros L F H. unfold main in H. rewrite (read_file_spec _ _ _ _ ls _ L) in H.
  exact (each_rectangular _ _ _ _ _ F (rep_ok_start _) I H).
Qed.
End Main.

Section Order.
Variables (show : dbl -> str) (vevs legCT : list str) (nvev fuel : nat) (inp : user_input).
Variable init : str -> str -> outcome (list dbl * point * str).
Notation proc np := (process show vevs legCT nvev fuel inp np init).

Lemma process_row np header line r r' : proc np header line r = Ok r' ->
  length (hists r) = length (rows r) ->
  length (hists r') = length (rows r') /\
  exists rest, rows r' = rows r ++ [line ++ rest] /\ exists leg, file r' = leg :: map (fun '(a, b) => a ++ padding (tabs leg - tabs a) ++ b)
     (combine (rows r') (hists r')).
Proof.
  unfold process. intros H L. destruct (np <=? Z.of_nat (length (rows r))); [discriminate|].
  destruct (init header line) as [[[ct p] t]| | |]; try discriminate. cbn [bind] in H.
  destruct (TransitionTracer vevs nvev fuel inp p) as [out| | |]; try discriminate. cbn [bind] in H.
  destruct (row_text show (i_gw inp) line ct t out) as [row| | |] eqn:E; try discriminate. cbn [bind] in H.
  set (leg' := if (length (leg r) <? length (legend out))%nat then legend out else leg r) in *.
  set (r1 := {| rows := rows r ++ [row]; hists := hists r ++ [history out]; leg := leg'; file := file r |}) in *.
  assert (Er : r' = {| rows := rows r1; hists := hists r1; leg := leg r1; file := write_file header legCT r1 |}) by congruence.
  subst r'. cbn [rows hists file r1]. split; [rewrite !app_length; cbn; lia|].
  assert (exists rest, row = line ++ rest) as (rest & ->).
  { unfold row_text in E. unfold cells_text in E. cbn [map concat] in E.
    destruct (status_tracing out); try (injection E as <-; eexists; rewrite <- !app_assoc; reflexivity).
    destruct (status_coex out); try (injection E as <-; eexists; rewrite <- !app_assoc; reflexivity).
    destruct (pairs_text _ _ _ _); try discriminate. cbn [bind] in E. injection E as <-. eexists; rewrite <- !app_assoc; reflexivity. }
  exists rest. split; [reflexivity|]. eexists. unfold write_file. reflexivity.
Qed.

Lemma each_rows np header : forall ls r r', each (proc np header) ls r = Ok r' ->
  length (hists r) = length (rows r) ->
  length (hists r') = length (rows r') /\
  exists rests, length rests = length ls /\ rows r' = rows r ++ map (fun '(a, b) => a ++ b) (combine ls rests) /\
  (ls <> [] -> exists leg, file r' = leg :: map (fun '(a, b) => a ++ padding (tabs leg - tabs a) ++ b) (combine (rows r') (hists r'))).
Proof.
  induction ls as [|l ls IH]; intros r r' H L; cbn in H.
  - injection H as <-. split; [exact L|]. exists []. cbn. rewrite app_nil_r. split; [reflexivity|]. split; [reflexivity|congruence].
  - destruct (proc np header l r) as [r1| | |] eqn:E; try discriminate. cbn [bind] in H.
    destruct (process_row _ _ _ _ _ E L) as (L1 & rest & R1 & F1).
    destruct (IH r1 r' H L1) as (L2 & rests & R2 & R3 & R4). split; [exact L2|].
    exists (rest :: rests). cbn [length combine map]. split; [lia|]. split.
    + rewrite R3, R1, <- app_assoc. reflexivity.
    + intros _. destruct ls as [|l2 ls].
      * cbn in H. injection H as <-. destruct F1 as (leg & ->). exists leg. reflexivity.
      * apply R4. discriminate.
Qed.

Lemma each_capacity np header : forall ls r, Z.of_nat (length (rows r)) + Z.of_nat (length ls) <= np ->
  length (hists r) = length (rows r) ->
  each (proc np header) ls r = each (proc (np + 1) header) ls r.
Proof.
  induction ls as [|l ls IH]; intros r H L; [reflexivity|]. cbn [each length] in *.
  assert (E : proc np header l r = proc (np + 1) header l r).
  { unfold process. replace (np <=? Z.of_nat (length (rows r))) with false by (symmetry; apply Z.leb_gt; lia).
    replace (np + 1 <=? Z.of_nat (length (rows r))) with false by (symmetry; apply Z.leb_gt; lia). reflexivity. }
  rewrite <- E. destruct (proc np header l r) as [r1| | |] eqn:E1; try reflexivity. cbn [bind].
  destruct (process_row _ _ _ _ _ E1 L) as (L1 & rest & R1 & _).
  apply IH; [|exact L1]. rewrite R1, app_length. cbn [length]. lia.
Qed.
End Order.

(** ** Statements *)
Lemma status_lists n inp fuel os s :
  Forall (fun o => forall T, length (o_true o T) = n /\ length (o_false o T) = n) os ->
  run_pairs n inp fuel os empty_store = Ok s ->
  length (s_crit s) = length os /\ length (s_bounce s) = length os /\ length (s_na s) = length os /\
  length (s_n s) = length os /\ length (s_p s) = length os /\ length (s_c s) = length os /\
  length (v_trans s) = length os /\ length (v_gw s) = length os /\
  forall i o, nth_error os i = Some o ->
    exists bo na nu p c d,
      nth_error (s_crit s) i = Some (o_crit o) /\ nth_error (s_bounce s) i = Some bo /\
      nth_error (s_na s) i = Some na /\ nth_error (s_n s) i = Some nu /\
      nth_error (s_p s) i = Some p /\ nth_error (s_c s) i = Some c /\
      nth_error (v_trans s) i = Some d /\ reported o bo na nu p c /\
      d_crit d = o_Tc o /\ length (d_crit_true d) = n /\ length (d_crit_false d) = n /\
      stage_data n o na (snd (o_nucl_approx o)) (d_na d) (d_na_true d) (d_na_false d) /\
      stage_data n o nu (snd (o_nucl o)) (d_n d) (d_n_true d) (d_n_false d) /\
      (exists Tp, stage_data n o p Tp (d_p d) (d_p_true d) (d_p_false d)) /\
      (exists Tc, stage_data n o c Tc (d_c d) (d_c_true d) (d_c_false d)) /\
      crit_data n o (d_crit_true d) (d_crit_false d).
Proof.
  intros V H. apply run_pairs_spec in H as (es & -> & F); [|exact V].
  assert (L : length es = length os) by (clear V; induction F; cbn; congruence).
  unfold extend. cbn [s_crit s_bounce s_na s_n s_p s_c v_trans v_gw empty_store app]. rewrite !map_length, L.
  do 8 (split; [reflexivity|]). clear L V.
  intros i o I.
  assert (exists e, nth_error es i = Some e /\ entry_ok n o e) as (e & E & X).
  { revert i I. induction F as [|x y os es P F IH]; intros [|i] I; cbn in I; try discriminate.
    - injection I as ->. exists y. now split.
    - exact (IH i I). }
  destruct X as (X0 & X).
  exists (e_bounce e), (e_na e), (e_n e), (e_p e), (e_c e), (e_d e).
  rewrite <- X0. split; [exact (map_nth_error _ _ _ E)|]. do 6 (split; [exact (map_nth_error _ _ _ E)|]). exact X.
Qed.

Lemma row_matches_legend show vevs legCT fuel inp p out header line ct time :
  (forall x, no_tab (show x)) -> Forall no_tab vevs -> vevs <> [] -> Forall no_tab legCT ->
  Forall (fun o => forall T, length (o_true o T) = length vevs /\ length (o_false o T) = length vevs) (pt_pairs p) ->
  length ct = length legCT -> no_tab time -> columns line = columns header ->
  TransitionTracer vevs (length vevs) fuel inp p = Ok out ->
  exists row, row_text show (i_gw inp) line ct time out = Ok row /\
    columns (row ++ history out) = columns (header ++ sep ++ join legCT ++ sep ++ join (legend out)).
Proof.
  intros H1 H2 H3 H4 H5 H6 H7 H8 H9.
  assert (N : (1 <= length vevs)%nat) by (destruct vevs; [congruence|cbn; lia]).
  destruct (row_tabs show H1 vevs (length vevs) fuel inp eq_refl N p out line ct time H5 H7 H9) as (row & k & R1 & R2 & R3 & R4).
  exists row. split; [exact R1|]. rewrite !columns_tabs in *. f_equal. rewrite R3.
  rewrite (full_legend_tabs vevs (length vevs) inp H2 eq_refl N legCT H4), tabs_app, R2, (tabs_none _ R4), H6. lia.
Qed.

Lemma one_row_per_line show vevs legCT nvev fuel inp init first last content ls r :
  lines_of content ls ->
  main show vevs legCT nvev fuel inp init first last content = Ok r ->
  exists rests, length rests = length (in_range first last 1 ls) /\
    rows r = map (fun '(a, b) => a ++ b) (combine (in_range first last 1 ls) rests) /\
    (in_range first last 1 ls <> [] -> length (file r) = S (length (rows r))).
Proof.
  intros L H. unfold main in H. rewrite (read_file_spec _ _ _ _ ls _ L) in H.
  destruct (each_rows _ _ _ _ _ _ _ _ _ _ _ _ H eq_refl) as (E & rests & A & B & C). cbn in B.
  exists rests. split; [exact A|]. split; [exact B|]. intro N. destruct (C N) as (leg & ->). cbn [length].
  rewrite map_length, combine_length, E. lia.
Qed.

Lemma reserved_rows_suffice show vevs legCT nvev fuel inp init first last content ls k :
  first <= last -> lines_of content ls -> 0 <= k ->
  main show vevs legCT nvev fuel inp init first last content =
  read_file (process show vevs legCT nvev fuel inp (last - first + 1 + k) init) first last content no_report.
Proof.
  intros FL L K. unfold main. rewrite !(read_file_spec _ _ _ _ ls _ L).
  assert (B := in_range_length first last ls 1).
  assert (G : forall np, last - first + 1 <= np ->
    each (process show vevs legCT nvev fuel inp np init (hd [] ls)) (in_range first last 1 ls) no_report =
    each (process show vevs legCT nvev fuel inp (np + 1) init (hd [] ls)) (in_range first last 1 ls) no_report).
  { intros np Hn. apply each_capacity; [cbn [rows no_report length]; lia|reflexivity]. }
  revert k K. apply natlike_ind.
  - f_equal. f_equal. lia.
  - intros x Hx IH. rewrite IH, G by lia. f_equal. f_equal. lia.
Qed.
