(** C140: the tables of traced minima. *)
From Coq Require Import QArith.
From Verif.Model Require Import Base History Tracer Report MinimaTables.
From Verif.Spec Require Import ReportSpec MinimaTablesSpec.
From Verif.Proofs Require Import TableProofs MinimaTablesProofs.
Open Scope Z_scope.

(** The k-th requested line gives the k-th file, named prefix_k.tsv, which is the table of its minima: every column of every row holds
    what the legend says. *)
Theorem C140_table : forall show vevs legCT trace_line prefix first last content ls files,
  (forall x, no_tab (show x)) -> Forall no_tab vevs -> Forall no_tab legCT -> vevs <> [] -> legCT <> [] ->
  (forall h l t, trace_line h l = Ok t -> tracing_ok (length vevs) (length legCT) t) ->
  lines_of content ls ->
  minima_main show vevs legCT (length vevs) trace_line prefix first last content = Ok files ->
  length files = length (in_range first last 1 ls) /\
  forall k f line, nth_error files k = Some f -> nth_error (in_range first last 1 ls) k = Some line ->
    f_name f = prefix ++ s2l "_" ++ to_string (S k) ++ s2l ".tsv" /\
    exists t, trace_line (hd [] ls) line = Ok t /\ table_of show vevs legCT (hd [] ls) line t (f_lines f).
Proof.
  intros show vevs legCT trace_line prefix first last content ls files H1 H2 H3 H4 H5 H6.
  exact (files_spec show H1 vevs legCT H2 H3 H4 H5 trace_line H6 prefix first last content ls files).
Qed.
Print Assumptions C140_table.

(** No file is written twice. *)
Theorem C140_names : forall show vevs legCT trace_line prefix first last content ls files,
  (forall x, no_tab (show x)) -> Forall no_tab vevs -> Forall no_tab legCT -> vevs <> [] -> legCT <> [] ->
  (forall h l t, trace_line h l = Ok t -> tracing_ok (length vevs) (length legCT) t) ->
  lines_of content ls ->
  minima_main show vevs legCT (length vevs) trace_line prefix first last content = Ok files ->
  NoDup (map f_name files).
Proof.
  intros show vevs legCT trace_line prefix first last content ls files H1 H2 H3 H4 H5 H6.
  exact (names_distinct show H1 vevs legCT H2 H3 H4 H5 trace_line H6 prefix first last content ls files).
Qed.
Print Assumptions C140_names.

Example C140_nonvacuous : (forall x, no_tab (demo_show x)) /\ (forall h l t, demo_trace h l = Ok t -> tracing_ok 1 1 t) /\
  exists ls, lines_of (s2l "a" ++ nl :: s2l "1" ++ nl :: []) ls /\
  match minima_main demo_show [s2l "w"] [s2l "dL"] 1 demo_trace (s2l "out") 2 2 (s2l "a" ++ nl :: s2l "1" ++ nl :: []) with
  | Ok [f] => f_name f = s2l "out_1.tsv" /\ map fields (tl (f_lines f)) = map (map s2l)
      [["1"; "7"; "success"; "off"; "success"; "0"; "246"; "5"; "100"; "0"; "8"; "1"];
       ["1"; "7"; "success"; "off"; "success"; "50"; "200"; "6"; "300"; "0"; "9"; "1"];
       ["1"; "7"; "success"; "off"; "success"; "100"; "150"; "7"; "nan"; "nan"; "nan"; "1"]]%string
  | _ => False
  end.
Proof. split; [exact demo_show_ok|]. split; [exact demo_traced_ok|]. exists [s2l "a"; s2l "1"]. split; [exact demo_lines|]. vm_compute. split; reflexivity. Qed.

(** With a first line after the legend there is one file per requested parameter point. *)
Theorem C140_points_partial : forall show vevs legCT trace_line prefix first last content ls files,
  (forall x, no_tab (show x)) -> Forall no_tab vevs -> Forall no_tab legCT -> vevs <> [] -> legCT <> [] ->
  (forall h l t, trace_line h l = Ok t -> tracing_ok (length vevs) (length legCT) t) ->
  lines_of content ls -> 2 <= first ->
  minima_main show vevs legCT (length vevs) trace_line prefix first last content = Ok files ->
  length files = length (points_in first last ls).
Proof.
  intros show vevs legCT trace_line prefix first last content ls files H1 H2 H3 H4 H5 H6 L F E. rewrite <- in_range_two by exact F.
  exact (proj1 (files_spec show H1 vevs legCT H2 H3 H4 H5 trace_line H6 prefix first last content ls files L E)).
Qed.
Print Assumptions C140_points_partial.
Example C140_nonvacuous_points : lines_good 2 2 = true /\
  exists files, minima_main demo_show [s2l "w"] [s2l "dL"] 1 demo_trace (s2l "out") 2 2 (s2l "a" ++ nl :: s2l "1" ++ nl :: []) = Ok files /\ length files = 1%nat.
Proof. split; [reflexivity|]. eexists. split; [vm_compute; reflexivity|reflexivity]. Qed.

(** A first line of 1 is accepted, and the legend is then traced as if it were a parameter point. *)
Theorem C140_points_refuted : exists show vevs legCT trace_line prefix first last content ls files f row,
  (forall x, no_tab (show x)) /\ Forall no_tab vevs /\ Forall no_tab legCT /\ vevs <> [] /\ legCT <> [] /\
  (forall h l t, trace_line h l = Ok t -> tracing_ok (length vevs) (length legCT) t) /\
  lines_good first last = true /\ lines_of content ls /\
  minima_main show vevs legCT (length vevs) trace_line prefix first last content = Ok files /\
  length files <> length (points_in first last ls) /\
  nth_error files 0 = Some f /\ nth_error (f_lines f) 1 = Some row /\ hd [] (fields row) = hd [] ls.
Proof. exact points_refuted. Qed.
Print Assumptions C140_points_refuted.
(** the accepted line numbers *)
Theorem C140_lines_good : forall first last, lines_good first last = true <-> 1 <= first <= last.
Proof.
  intros first last. unfold lines_good. destruct (Z.eqb_spec first 0), (Z.eqb_spec last 0), (Z.ltb_spec first 0), (Z.ltb_spec last 0), (Z.ltb_spec last first); cbn [orb]; split; intros; try discriminate; try reflexivity; lia.
Qed.
Print Assumptions C140_lines_good.
