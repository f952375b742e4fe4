From Coq Require Import QArith.
From Verif.Model Require Import Base History Tracer Report MinimaTables.
From Verif.Spec Require Import ReportSpec MinimaTablesSpec.
From Verif.Proofs Require Import HistoryProofs ReportProofs TableProofs.
Open Scope Z_scope.

(** ** Fields *)
Lemma fields_some s : exists f fs, fields s = f :: fs.
Proof. induction s as [|c s (f & fs & E)]; cbn [fields]; [now exists [], []|]. destruct (Ascii.eqb c "009"); [now eexists _, _|]. rewrite E. now eexists _, _. Qed.
Lemma fields_app a b : fields (a ++ sep ++ b) = fields a ++ fields b.
Proof.
  induction a as [|c a IH]; [reflexivity|]. cbn [app fields]. destruct (Ascii.eqb c "009"); [now rewrite IH|].
  rewrite IH. destruct (fields_some a) as (f & fs & ->). reflexivity.
Qed.
Lemma fields_one s : no_tab s -> fields s = [s].
Proof.
  intro H. induction s as [|c s IH]; [reflexivity|]. cbn [fields]. destruct (Ascii.eqb_spec c "009") as [->|N]; [exfalso; apply H; now left|].
  rewrite IH; [reflexivity|]. intro I. apply H. now right.
Qed.
Lemma fields_join l : l <> [] -> Forall no_tab l -> fields (join l) = l.
Proof.
  intros N F. induction F as [|x l Hx F IH]; [contradiction|]. destruct l as [|y l]; [now apply fields_one|].
  change (join (x :: y :: l)) with (x ++ sep ++ join (y :: l)). rewrite fields_app, (fields_one x Hx), IH by discriminate. reflexivity.
Qed.
Lemma no_tab_app a b : no_tab a -> no_tab b -> no_tab (a ++ b).
Proof. intros A B I. apply in_app_or in I as [I|I]; auto. Qed.
Lemma no_tab_digits n : no_tab (to_string n).
Proof. apply no_tab_tabs, tabs_to_string. Qed.

Section Tables.
Variable show : dbl -> str.
Hypothesis show_ok : forall x, no_tab (show x).
Variables vevs legCT : list str.
Hypothesis vevs_ok : Forall no_tab vevs.
Hypothesis legCT_ok : Forall no_tab legCT.
Hypothesis vevs_some : vevs <> [].
Hypothesis legCT_some : legCT <> [].

(** ** Legend *)
Definition cols (j : nat) : list column := Temp j :: map (Vev j) (seq 0 (length vevs)) ++ [Veff j].
Lemma vev_labels_spec i : forall n j, (j + n = length vevs)%nat -> vev_labels vevs i j n = Ok (map (fun k => label vevs (Vev i k)) (seq j n)).
Proof.
  induction n as [|n IH]; intros j E; [reflexivity|]. cbn [vev_labels seq map]. unfold at_.
  destruct (nth_error vevs j) as [v|] eqn:N; [|apply nth_error_None in N; lia]. cbn [bind].
  rewrite IH by lia. cbn [bind label]. now rewrite (nth_error_nth _ _ [] N).
Qed.
Lemma phase_labels_spec : forall n i, phase_labels vevs (length vevs) i n = Ok (map (label vevs) (flat_map cols (seq i n))).
Proof.
  induction n as [|n IH]; intros i; [reflexivity|]. cbn [phase_labels seq flat_map]. rewrite vev_labels_spec by lia. cbn [bind]. rewrite IH. cbn [bind].
  unfold cols. cbn [app map label]. rewrite <- app_assoc, map_app, map_map. reflexivity.
Qed.
Lemma label_no_tab c : no_tab (label vevs c).
Proof.
  destruct c; cbn [label]; try (apply no_tab_tabs; reflexivity); repeat apply no_tab_app; try apply no_tab_digits; try (apply no_tab_tabs; reflexivity).
  destruct (nth_in_or_default k vevs []) as [I| ->]; [|intros []]. rewrite Forall_forall in vevs_ok. now apply vevs_ok.
Qed.
Lemma legend_spec header n : exists l, legend_line vevs legCT (length vevs) header n = Ok l /\
  fields l = fields header ++ legCT ++ map (label vevs) (columns_of n (length vevs)).
Proof.
  unfold legend_line. rewrite phase_labels_spec. cbn [bind]. eexists. split; [reflexivity|].
  rewrite !fields_app, (fields_join legCT) by assumption. do 2 f_equal.
  change ([s2l "status_nlo_stability"; s2l "status_ewsr"; s2l "status_tracing"]) with (map (label vevs) [NloStatus; EwsrStatus; TracingStatus]).
  change [s2l "runtime"] with (map (label vevs) [Runtime]). rewrite <- !map_app. fold (columns_of n (length vevs)).
  change (fun j => Temp j :: map (Vev j) (seq 0 (length vevs)) ++ [Veff j]) with cols.
  apply fields_join; [discriminate|]. apply Forall_forall. intros s I. apply in_map_iff in I as (c & <- & _). apply label_no_tab.
Qed.

(** ** Rows *)
Lemma longest_spec ps : longest ps = list_max (map (@length minimum) ps).
Proof.
  unfold longest. assert (G : forall acc, fold_left (fun length p => if (length =? 0)%nat then List.length p else if (length <? List.length p)%nat then List.length p else length) ps acc
    = Nat.max acc (list_max (map (@length minimum) ps))).
  { induction ps as [|p ps IH]; intros acc; [cbn; lia|]. cbn [fold_left map]. rewrite IH. change (list_max (length p :: map (length (A:=minimum)) ps)) with (Nat.max (length p) (list_max (map (length (A:=minimum)) ps))).
    destruct (Nat.eqb_spec acc 0); [lia|]. destruct (Nat.ltb_spec acc (length p)); lia. }
  rewrite G. lia.
Qed.
Definition cells (i : nat) (p : list minimum) : list str :=
  match nth_error p i with Some m => show (m_temp m) :: map show (m_point m) ++ [show (m_potential m)] | None => repeat (s2l "nan") (2 + length vevs) end.
Definition dim_ok (p : list minimum) : Prop := Forall (fun x => length (m_point x) = length vevs) p.
Lemma phase_text_spec i p : dim_ok p -> exists b, phase_text show (length vevs) i p = sep ++ b /\ fields b = cells i p.
Proof.
  intro D. unfold phase_text, cells. destruct (nth_error p i) as [m|] eqn:N; eexists; (split; [reflexivity|]).
  - rewrite !fields_app, !(fields_one (show _)) by apply show_ok. cbn [app]. f_equal. f_equal.
    apply fields_join.
    + apply nth_error_In in N. unfold dim_ok in D. rewrite Forall_forall in D. apply D in N. destruct (m_point m); [|discriminate]. destruct vevs; [contradiction|discriminate].
    + apply Forall_forall. intros s I. apply in_map_iff in I as (x & <- & _). apply show_ok.
  - apply fields_join; [discriminate|]. apply Forall_forall. intros s I. apply repeat_spec in I as ->. apply no_tab_tabs. reflexivity.
Qed.
Lemma phases_text_spec i tm : no_tab tm -> forall ps a, Forall dim_ok ps ->
  fields (a ++ concat (map (phase_text show (length vevs) i) ps) ++ sep ++ tm) = fields a ++ flat_map (cells i) ps ++ [tm].
Proof.
  intros T. induction ps as [|p ps IH]; intros a D.
  - cbn [map concat flat_map app]. rewrite fields_app, (fields_one tm T). reflexivity.
  - cbn [map concat flat_map]. inversion D; subst. destruct (phase_text_spec i p) as (b & -> & E); [assumption|].
    rewrite <- app_assoc, !(app_assoc a). rewrite <- (app_assoc a sep b). rewrite IH by assumption. rewrite fields_app, E, <- !app_assoc. reflexivity.
Qed.
Lemma cells_content t i : Forall dim_ok (t_phases t) -> forall ps pre, t_phases t = pre ++ ps ->
  flat_map (cells i) ps = map (content_of show t i) (flat_map cols (seq (length pre) (length ps))).
Proof.
  intros D. induction ps as [|p ps IH]; intros pre E; [reflexivity|]. cbn [flat_map length seq]. rewrite map_app.
  assert (N : nth_error (t_phases t) (length pre) = Some p) by (rewrite E, nth_error_app2, Nat.sub_diag by lia; reflexivity).
  f_equal.
  - unfold cells, cols. cbn [map]. rewrite map_app, map_map. cbn [map content_of]. unfold minimum_of. rewrite N.
    destruct (nth_error p i) as [m|] eqn:M.
    + f_equal. f_equal. assert (L : length (m_point m) = length vevs).
      { rewrite Forall_forall in D. apply nth_error_In in N, M. specialize (D _ N). unfold dim_ok in D. rewrite Forall_forall in D. now apply D. }
      rewrite <- L. clear. rewrite <- (map_map (fun k => nth k (m_point m) None) show). f_equal.
      induction (m_point m) as [|x l IH]; [reflexivity|]. cbn [length seq map]. f_equal. rewrite <- seq_shift, map_map. exact IH.
    + cbn [repeat Nat.add]. f_equal. clear. generalize 0%nat. induction (length vevs) as [|n IH]; intros k; [reflexivity|].
      cbn [seq map repeat app]. f_equal. exact (IH (S k)).
  - specialize (IH (pre ++ [p])). rewrite app_length in IH. cbn [length] in IH. rewrite Nat.add_1_r in IH. apply IH. rewrite <- app_assoc. exact E.
Qed.
Lemma show_statuses t : no_tab (show_nlo (t_nlo t)) /\ no_tab (show_ewsr (t_ewsr t)) /\ no_tab (show_trace (t_tracing t)).
Proof. destruct tabs_shows as (A & B & C & _). repeat split; apply no_tab_tabs; auto. Qed.
Lemma row_spec line t i : tracing_ok (length vevs) (length legCT) t ->
  fields (tracer_row show (length vevs) line t i (t_phases t)) =
  fields line ++ map show (t_ct t) ++ map (content_of show t i) (columns_of (length (t_phases t)) (length vevs)).
Proof.
  intros (L & T & F). unfold tracer_row.
  assert (D : Forall dim_ok (t_phases t)) by (eapply Forall_impl; [|exact F]; now intros p (_ & H)).
  rewrite !fields_app. destruct (show_statuses t) as (A & B & C).
  rewrite (phases_text_spec i (t_time t i) (T i) (t_phases t) (show_trace (t_tracing t)) D).
  rewrite !(fields_one (show_nlo _)), !(fields_one (show_ewsr _)), !(fields_one (show_trace _)) by assumption.
  rewrite (fields_join (map show (t_ct t))).
  2:{ destruct (t_ct t); [|discriminate]. destruct legCT; [contradiction|discriminate]. }
  2:{ apply Forall_forall. intros s I. apply in_map_iff in I as (x & <- & _). apply show_ok. }
  rewrite (cells_content t i D (t_phases t) [] eq_refl). unfold columns_of. cbn [app map]. rewrite map_app. reflexivity.
Qed.
Lemma rows_spec line t : tracing_ok (length vevs) (length legCT) t ->
  length (tracer_rows show (length vevs) line t) = Nat.max 1 (list_max (map (@length minimum) (t_phases t))) /\
  forall i r, nth_error (tracer_rows show (length vevs) line t) i = Some r ->
    fields r = fields line ++ map show (t_ct t) ++ map (content_of show t i) (columns_of (length (t_phases t)) (length vevs)).
Proof.
  intros H. unfold tracer_rows. rewrite longest_spec. set (n := list_max _).
  destruct (Nat.eqb_spec n 0) as [E|N].
  - assert (P : t_phases t = []).
    { destruct (t_phases t) as [|p ps] eqn:P; [reflexivity|]. exfalso. destruct H as (_ & _ & F). rewrite P in F. inversion F as [|? ? (Hp & _) _]; subst.
      unfold n in E. cbn [map] in E. change (Nat.max (length p) (list_max (map (length (A:=minimum)) ps)) = 0%nat) in E. destruct p; [now apply Hp|cbn [length] in E; lia]. }
    rewrite E. cbn [seq map app length]. split; [reflexivity|]. intros [|i] r Hr; [|destruct i; discriminate]. injection Hr as <-.
    rewrite <- P at 1. now apply row_spec.
  - cbn [app]. rewrite map_length, seq_length. split; [lia|]. intros i r Hr.
    assert (Li : (i < n)%nat) by (assert (Q : nth_error (map (fun i => tracer_row show (length vevs) line t i (t_phases t)) (seq 0 n)) i <> None) by congruence;
      apply nth_error_Some in Q; now rewrite map_length, seq_length in Q).
    rewrite nth_error_map in Hr. rewrite (nth_error_nth' _ 0%nat) in Hr by now rewrite seq_length. rewrite seq_nth in Hr by assumption.
    injection Hr as <-. now apply row_spec.
Qed.

(** ** Files *)
Variable trace_line : str -> str -> outcome traced.
Hypothesis trace_ok : forall h l t, trace_line h l = Ok t -> tracing_ok (length vevs) (length legCT) t.
Variable prefix : str.
Notation process := (trace_process show vevs legCT (length vevs) trace_line prefix).

Definition file_of (header line : str) (k : nat) (f : outfile) : Prop :=
  f_name f = prefix ++ s2l "_" ++ to_string k ++ s2l ".tsv" /\
  exists t, trace_line header line = Ok t /\ table_of show vevs legCT header line t (f_lines f).
Lemma process_spec header line files fs : process header line files = Ok fs ->
  exists f, fs = files ++ [f] /\ file_of header line (S (length files)) f.
Proof.
  unfold trace_process. destruct (trace_line header line) as [t| | |] eqn:T; try discriminate. cbn [bind].
  destruct (legend_spec header (length (t_phases t))) as (l & -> & E). cbn [bind]. intro H. injection H as <-.
  eexists. split; [reflexivity|]. split; [reflexivity|]. exists t. split; [exact T|].
  destruct (rows_spec line t (trace_ok _ _ _ T)) as (A & B). exists l, (tracer_rows show (length vevs) line t). auto.
Qed.
Lemma each_spec header : forall ls files fs, each (process header) ls files = Ok fs ->
  exists new, fs = files ++ new /\ length new = length ls /\
    forall k f line, nth_error new k = Some f -> nth_error ls k = Some line -> file_of header line (length files + S k) f.
Proof.
  induction ls as [|l ls IH]; intros files fs H; cbn [each] in H.
  - injection H as <-. exists []. rewrite app_nil_r. repeat split; try reflexivity; destruct k; discriminate.
  - destruct (process header l files) as [fs1| | |] eqn:P; try discriminate. cbn [bind] in H. apply process_spec in P as (f1 & -> & F1).
    apply IH in H as (new & -> & L & F). exists (f1 :: new). split; [now rewrite <- app_assoc|]. split; [cbn; now rewrite L|].
    intros [|k] f line Hf Hl; cbn in Hf, Hl.
    + injection Hf as <-. injection Hl as <-. rewrite Nat.add_1_r. exact F1.
    + specialize (F k f line Hf Hl). rewrite app_length in F. cbn [length] in F. replace (length files + S (S k))%nat with (length files + 1 + S k)%nat by lia. exact F.
Qed.
Lemma files_spec first last content ls files : lines_of content ls ->
  minima_main show vevs legCT (length vevs) trace_line prefix first last content = Ok files ->
  length files = length (in_range first last 1 ls) /\
  forall k f line, nth_error files k = Some f -> nth_error (in_range first last 1 ls) k = Some line -> file_of (hd [] ls) line (S k) f.
Proof.
  intros L H. unfold minima_main in H. rewrite (read_file_spec _ _ _ _ ls) in H by assumption.
  apply each_spec in H as (new & -> & Len & F). cbn [app length Nat.add] in *. auto.
Qed.
Lemma names_distinct first last content ls files : lines_of content ls ->
  minima_main show vevs legCT (length vevs) trace_line prefix first last content = Ok files -> NoDup (map f_name files).
Proof.
  intros L H. destruct (files_spec _ _ _ _ _ L H) as (Len & F).
  assert (N : forall k f, nth_error files k = Some f -> f_name f = prefix ++ s2l "_" ++ to_string (S k) ++ s2l ".tsv").
  { intros k f Hf. assert (K : (k < length files)%nat) by (apply nth_error_Some; congruence).
    rewrite Len in K. apply nth_error_Some in K. destruct (nth_error (in_range first last 1 ls) k) as [line|] eqn:E; [|contradiction].
    now destruct (F k f line Hf E). }
  apply NoDup_nth_error. intros i j Hi E. rewrite map_length in Hi. rewrite !nth_error_map in E.
  destruct (nth_error files i) as [f|] eqn:Fi; [|apply nth_error_None in Fi; lia]. cbn in E.
  destruct (nth_error files j) as [g|] eqn:Fj; [|discriminate]. cbn in E. injection E as E.
  rewrite (N _ _ Fi), (N _ _ Fj) in E. apply app_inv_head in E. apply app_inv_head in E. apply app_inv_tail in E. apply to_string_inj in E. congruence.
Qed.
End Tables.

(** line 1 *)
Lemma in_range_two first last ls : 2 <= first -> in_range first last 1 ls = points_in first last ls.
Proof. intro H. unfold points_in. now rewrite Z.max_r by lia. Qed.
Definition demo_show (x : dbl) : str := match x with Some q => to_string (Z.to_nat (Qnum q)) | None => s2l "nan" end.
Lemma demo_show_ok x : no_tab (demo_show x).
Proof. destruct x; cbn [demo_show]; [apply no_tab_digits|apply no_tab_tabs; reflexivity]. Qed.
Definition min_at (T w V : Q) : minimum := {| m_temp := Some T; m_point := [Some w]; m_potential := Some V |}.
Definition demo_traced : traced := {| t_ct := [Some 7%Q]; t_nlo := Nlo_Success; t_ewsr := Ew_Off; t_tracing := Tr_Success;
  t_phases := [[min_at 0 246 5; min_at 50 200 6; min_at 100 150 7]; [min_at 100 0 8; min_at 300 0 9]]; t_time := fun _ => s2l "1" |}.
Definition demo_trace (h l : str) : outcome traced := Ok demo_traced.
Lemma demo_traced_ok h l t : demo_trace h l = Ok t -> tracing_ok 1 1 t.
Proof.
  intro H. injection H as <-. split; [reflexivity|]. split; [intro; apply no_tab_tabs; reflexivity|].
  cbn [t_phases demo_traced]. apply Forall_forall. intros p [<-|[<-|[]]]; (split; [discriminate|]); apply Forall_forall; intros m I; repeat (destruct I as [<-|I]; [reflexivity|]); destruct I.
Qed.
Lemma demo_lines : lines_of (s2l "a" ++ nl :: s2l "1" ++ nl :: []) [s2l "a"; s2l "1"].
Proof. apply lines_cons; [intros [E|[]]; discriminate|]. apply lines_cons; [intros [E|[]]; discriminate|]. apply lines_nil. Qed.
Lemma points_refuted : exists show vevs legCT trace_line prefix first last content ls files f row,
  (forall x, no_tab (show x)) /\ Forall no_tab vevs /\ Forall no_tab legCT /\ vevs <> [] /\ legCT <> [] /\
  (forall h l t, trace_line h l = Ok t -> tracing_ok (length vevs) (length legCT) t) /\
  lines_good first last = true /\ lines_of content ls /\
  minima_main show vevs legCT (length vevs) trace_line prefix first last content = Ok files /\
  length files <> length (points_in first last ls) /\
  nth_error files 0 = Some f /\ nth_error (f_lines f) 1 = Some row /\ hd [] (fields row) = hd [] ls.
Proof.
  destruct (minima_main demo_show [s2l "w"] [s2l "dL"] 1 demo_trace (s2l "out") 1 2 (s2l "a" ++ nl :: s2l "1" ++ nl :: [])) as [files| | |] eqn:E; try (vm_compute in E; discriminate).
  destruct files as [|f [|g [|]]]; try (vm_compute in E; discriminate).
  exists demo_show, [s2l "w"], [s2l "dL"], demo_trace, (s2l "out"), 1, 2, (s2l "a" ++ nl :: s2l "1" ++ nl :: []), [s2l "a"; s2l "1"], [f; g], f, (nth 1 (f_lines f) []).
  assert (W : forall s, In s [s2l "w"; s2l "dL"] -> no_tab s) by (intros s [<-|[<-|[]]]; apply no_tab_tabs; reflexivity).
  repeat match goal with |- _ /\ _ => split end; try discriminate; try reflexivity; try exact E.
  - exact demo_show_ok.
  - repeat constructor. apply W. now left.
  - repeat constructor. apply W. right. now left.
  - exact demo_traced_ok.
  - exact demo_lines.
  - vm_compute in E. injection E as <- <-. reflexivity.
  - vm_compute in E. injection E as <- <-. reflexivity.
Qed.
