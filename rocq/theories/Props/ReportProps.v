(** C22: status lists. C23: output tables. C24: line ranges. C25: requested fractions.
    C26: wall velocity. C64-C66: percolation temperatures, termination and failures of the strength. *)
From Coq Require Import QArith.
From Verif.Model Require Import Base History Tracer Report.
From Verif.Spec Require Import ReportSpec.
From Verif.Proofs Require Import ReportProofs TableProofs StrengthProofs AbortProofs.
Open Scope Z_scope.

(** ** C22 *)

(** Every vector has exactly one entry per pair, in the order of the pairs, and the entries of
    pair i are those of pair i. *)
Theorem C22_one_status_per_stage :
  forall n inp fuel os s,
    Forall (fun o => forall T, length (o_true o T) = n /\ length (o_false o T) = n) os ->
    run_pairs n inp fuel os empty_store = Ok s ->
    length (s_crit s) = length os /\ length (s_bounce s) = length os /\ length (s_na s) = length os /\
    length (s_n s) = length os /\ length (s_p s) = length os /\ length (s_c s) = length os /\
    length (v_trans s) = length os /\ length (v_gw s) = length os /\
    forall i o, nth_error os i = Some o ->
      exists bo na nu p c d,
        nth_error (s_crit s) i = Some (o_crit o) /\ nth_error (s_bounce s) i = Some bo /\
        nth_error (s_na s) i = Some na /\ nth_error (s_n s) i = Some nu /\
        nth_error (s_p s) i = Some p /\ nth_error (s_c s) i = Some c /\
        nth_error (v_trans s) i = Some d /\ reported o bo na nu p c /\
        d_crit d = o_Tc o /\ length (d_crit_true d) = n /\ length (d_crit_false d) = n /\
        stage_data n o na (snd (o_nucl_approx o)) (d_na d) (d_na_true d) (d_na_false d) /\
        stage_data n o nu (snd (o_nucl o)) (d_n d) (d_n_true d) (d_n_false d) /\
        (exists Tp, stage_data n o p Tp (d_p d) (d_p_true d) (d_p_false d)) /\
        (exists Tc, stage_data n o c Tc (d_c d) (d_c_true d) (d_c_false d)) /\
        crit_data n o (d_crit_true d) (d_crit_false d).
Proof. exact status_lists. Qed.
Print Assumptions C22_one_status_per_stage.

(** The row of a point, completed by its history, has the columns of its legend. *)
Theorem C22_row_matches_legend :
  forall show vevs legCT fuel inp p out header line ct time,
    (forall x, no_tab (show x)) -> Forall no_tab vevs -> vevs <> [] -> Forall no_tab legCT ->
    Forall (fun o => forall T, length (o_true o T) = length vevs /\ length (o_false o T) = length vevs) (pt_pairs p) ->
    length ct = length legCT -> no_tab time -> columns line = columns header ->
    TransitionTracer vevs (length vevs) fuel inp p = Ok out ->
    exists row, row_text show (i_gw inp) line ct time out = Ok row /\
      columns (row ++ history out) = columns (header ++ sep ++ join legCT ++ sep ++ join (legend out)).
Proof. exact row_matches_legend. Qed.
Print Assumptions C22_row_matches_legend.

(** ** C23 *)
Theorem C23_rectangular :
  forall show vevs legCT nvev fuel inp init first last content ls r,
    (forall x, no_tab (show x)) -> Forall no_tab vevs -> nvev = length vevs -> (1 <= nvev)%nat -> Forall no_tab legCT ->
    (forall h l ct p t, init h l = Ok (ct, p, t) ->
       length ct = length legCT /\ no_tab t /\
       Forall (fun o => forall T, length (o_true o T) = nvev /\ length (o_false o T) = nvev) (pt_pairs p)) ->
    lines_of content ls ->
    Forall (fun l => columns l <= columns (hd [] ls))%nat (in_range first last 1 ls) ->
    main show vevs legCT nvev fuel inp init first last content = Ok r ->
    match file r with [] => True | h :: t => Forall (fun l => columns l = columns h) t end.
Proof.
  intros show vevs legCT nvev fuel inp init first last content ls r H1 H2 H3 H4 H5 H6.
  refine (main_rectangular show H1 vevs legCT nvev fuel inp H2 H3 H4 H5 init _ first last content ls r).
  intros h l ct p t E. destruct (H6 h l ct p t E) as (A & B & C). split; [exact A|]. split; [exact C|exact B].
Qed.
Print Assumptions C23_rectangular.

(** ** C24 *)
Theorem C24_requested_lines :
  forall S (process : str -> str -> S -> outcome S) first last content ls s,
    lines_of content ls ->
    read_file process first last content s = each (process (hd [] ls)) (in_range first last 1 ls) s.
Proof. intros. now apply read_file_spec. Qed.
Print Assumptions C24_requested_lines.

(** every file has exactly one list of lines *)
Theorem C24_lines_exist : forall content, exists ls, lines_of content ls /\ forall ls', lines_of content ls' -> ls' = ls.
Proof.
  intro c. destruct (lines_of_total c) as (ls & L). exists ls. split; [exact L|].
  intros ls' L'. exact (lines_of_unique c ls' ls L' L).
Qed.
Print Assumptions C24_lines_exist.

(** One row per requested line, in order, starting with the line; the vector reserved for the
    rows is always long enough. *)
Theorem C24_one_row_per_line :
  forall show vevs legCT nvev fuel inp init first last content ls r,
    lines_of content ls ->
    main show vevs legCT nvev fuel inp init first last content = Ok r ->
    exists rests, length rests = length (in_range first last 1 ls) /\
      rows r = map (fun '(a, b) => a ++ b) (combine (in_range first last 1 ls) rests) /\
      (in_range first last 1 ls <> [] -> length (file r) = S (length (rows r))).
Proof. exact one_row_per_line. Qed.
Print Assumptions C24_one_row_per_line.

Theorem C24_reserved_rows_suffice :
  forall show vevs legCT nvev fuel inp init first last content ls k,
    first <= last -> lines_of content ls -> 0 <= k ->
    main show vevs legCT nvev fuel inp init first last content =
    read_file (process show vevs legCT nvev fuel inp (last - first + 1 + k) init) first last content no_report.
Proof. exact reserved_rows_suffice. Qed.
Print Assumptions C24_reserved_rows_suffice.

(** ** C25 *)

(** With the default fractions the reported temperatures are those for the requested ones ... *)
Theorem C25_requested_fractions_partial :
  forall n inp fuel o s s',
    i_perc_prbl inp = 0.71%Q -> i_compl_prbl inp = 0.01%Q -> tried o -> o_bounce o = Gw_Success ->
    run_pair n inp fuel o s = Ok s' ->
    exists d p c, v_trans s' = v_trans s ++ [d] /\ s_p s' = s_p s ++ [p] /\ s_c s' = s_c s ++ [c] /\
      (p = Te_Success -> exists v, d_p d = Some (o_tfrac_1 o v (i_perc_prbl inp))) /\
      (c = Te_Success -> exists v, d_c d = Some (o_tfrac_2 o v (i_compl_prbl inp))).
Proof. exact default_fractions. Qed.
Print Assumptions C25_requested_fractions_partial.

(** ... but the requested fractions are never looked at. *)
Theorem C25_requested_fractions_refuted :
  (forall n inp fuel o s p c,
    run_pair n {| i_vwall := i_vwall inp; i_perc_prbl := p; i_compl_prbl := c; i_ewsr_check := i_ewsr_check inp;
                  i_nlo_check := i_nlo_check inp; i_gw := i_gw inp; i_which := i_which inp |} fuel o s =
    run_pair n inp fuel o s) /\
  exists inp o s d,
    (forall v f, o_tfrac_0 o v f = (100 * f)%Q /\ o_tfrac_1 o v f = (100 * f)%Q) /\
    run_pair 1 inp 0 o empty_store = Ok s /\ v_trans s = [d] /\ s_p s = [Te_Success] /\
    i_perc_prbl inp = (1 # 2)%Q /\ (exists T, d_p d = Some T /\ T == 71)%Q.
Proof. exact fractions_ignored. Qed.
Print Assumptions C25_requested_fractions_refuted.

(** ** C26 *)

(** The velocity used for the strength is the requested one or, if no solution was found, 0.95;
    the strength is the one at the percolation temperature for the velocity used. *)
Theorem C26_used_velocity :
  forall o fuel b b', CalculatePTStrength o fuel b = Ok b' ->
    alpha b' = o_alpha o (Tperc b') /\
    ((0 <= uvwall b)%Q -> exists v, (v = uvwall b \/ v = 0.95%Q) /\ vwall b' = Some v /\
       Tperc b' = o_tfrac_1 o (Some v) 0.71%Q).
Proof. exact used_velocity. Qed.
Print Assumptions C26_used_velocity.

(** With 0.95 requested the reported velocity is the one used. *)
Theorem C26_reported_velocity_partial :
  forall n inp fuel o s s',
    i_vwall inp = 0.95%Q -> tried o -> o_bounce o = Gw_Success -> i_gw inp = true ->
    trans_status o (bounce_of o inp) (i_which inp) = Te_Success ->
    run_pair n inp fuel o s = Ok s' ->
    exists g b', v_gw s' = v_gw s ++ [g] /\ CalculatePTStrength o fuel (bounce_of o inp) = Ok b' /\
      g_vwall g = vwall b' /\ g_alpha g = alpha b'.
Proof. exact reported_velocity. Qed.
Print Assumptions C26_reported_velocity_partial.

(** In general the reported velocity is always 0.95, whatever was requested or used. *)
Theorem C26_reported_velocity_refuted :
  (forall n inp fuel o s s',
     tried o -> o_bounce o = Gw_Success -> i_gw inp = true ->
     trans_status o (bounce_of o inp) (i_which inp) = Te_Success ->
     run_pair n inp fuel o s = Ok s' ->
     exists g, v_gw s' = v_gw s ++ [g] /\ g_vwall g = Some 0.95%Q) /\
  exists inp o s b' g,
    i_vwall inp = (3 # 10)%Q /\ run_pair 1 inp 2 o empty_store = Ok s /\ v_gw s = [g] /\
    CalculatePTStrength o 2 (bounce_of o inp) = Ok b' /\
    vwall b' = Some (3 # 10)%Q /\ g_vwall g = Some 0.95%Q /\ g_status g = Gw_Success.
Proof. exact velocity_refuted. Qed.
Print Assumptions C26_reported_velocity_refuted.

(** ** C64 *)
Theorem C64_percolation_velocity_partial :
  forall n inp fuel o s s',
    i_vwall inp = 0.95%Q -> tried o -> o_bounce o = Gw_Success ->
    run_pair n inp fuel o s = Ok s' ->
    exists d p c, v_trans s' = v_trans s ++ [d] /\ s_p s' = s_p s ++ [p] /\ s_c s' = s_c s ++ [c] /\
      (p = Te_Success -> exists f, d_p d = Some (o_tfrac_1 o (Some (i_vwall inp)) f)) /\
      (c = Te_Success -> exists f, d_c d = Some (o_tfrac_2 o (Some (i_vwall inp)) f)).
Proof. exact percolation_velocity. Qed.
Print Assumptions C64_percolation_velocity_partial.

(** The reported percolation temperature belongs to velocity 0.95 although 0.3 is requested, and
    differs from the one at which the strength is computed. *)
Theorem C64_percolation_velocity_refuted :
  exists inp o s b' d T T',
    i_vwall inp = (3 # 10)%Q /\ (forall v f, o_tfrac_1 o (Some v) f = (100 * v)%Q) /\
    run_pair 1 inp 2 o empty_store = Ok s /\ v_trans s = [d] /\ s_p s = [Te_Success] /\
    CalculatePTStrength o 2 (bounce_of o inp) = Ok b' /\
    d_p d = Some T /\ (T == 95)%Q /\ Tperc b' = T' /\ (T' == 30)%Q.
Proof. exact percolation_velocity_refuted. Qed.
Print Assumptions C64_percolation_velocity_refuted.

(** ** C65 *)
Theorem C65_strength_terminates_partial :
  forall o b a, perc_set b = true ->
    o_alpha o (o_tfrac_1 o (Some 0.95%Q) 0.71%Q) = Some a -> ~ (a == 0)%Q ->
    exists b', CalculatePTStrength o 2 b = Ok b'.
Proof. exact strength_terminates. Qed.
Print Assumptions C65_strength_terminates_partial.

(** If the strength is zero or NaN, the recursion never ends. *)
Theorem C65_strength_terminates_refuted :
  forall o, (forall T, o_alpha o T = None \/ exists a, o_alpha o T = Some a /\ (a == 0)%Q) ->
  forall fuel b, perc_set b = true -> CalculatePTStrength o fuel b = OutOfFuel.
Proof. exact strength_diverges. Qed.
Print Assumptions C65_strength_terminates_refuted.

(** ** C66 *)
Theorem C66_no_abort_partial :
  forall n inp fuel o s e, i_which inp = 3 \/ i_gw inp = false ->
    run_pair n inp fuel o s <> Throw e /\ run_pair n inp fuel o s <> UB.
Proof. exact run_pair_no_throw. Qed.
Print Assumptions C66_no_abort_partial.

(** With the nucleation temperature as transition temperature a pair that nucleates without
    percolating makes the whole run end with an exception. *)
Theorem C66_no_abort_refuted :
  exists inp o, i_which inp = 2 /\ fst (o_nucl o) = Te_Success /\
    (forall s, run_pair 1 inp 5 o s = Throw RuntimeError) /\
    forall show vevs legCT init content header rest line ct p t,
      (* a file whose second line is this point *)
      content = header ++ nl :: line ++ nl :: rest -> ~ In nl header -> ~ In nl line ->
      init header line = Ok (ct, p, t) -> pt_pairs p = [o] -> pt_tracing p = Tr_Success -> pt_coex p = Cx_Success ->
      main show vevs legCT 1 5 inp init 2 1000 content = Throw RuntimeError.
Proof. exact abort_refuted. Qed.
Print Assumptions C66_no_abort_refuted.

(** ** Examples *)
Definition ex_out (o : outcome report) : list str := match o with Ok r => file r | _ => [] end.

Example C22_nonvacuous :
  exists s, run_pairs 1 demo_input 2 [demo_oracles; skipped_oracles] empty_store = Ok s /\
    s_crit s = [Cr_Success; Cr_FalseLower] /\ s_bounce s = [Gw_Success; Gw_NotSet] /\ s_c s = [Te_Success; Te_NaN].
Proof. eexists. split; [vm_compute; reflexivity|]. repeat split. Qed.

(** two points, one with two pairs and one with none *)
Example C23_nonvacuous :
  let content := s2l "a" ++ nl :: s2l "1" ++ nl :: s2l "2" ++ nl :: s2l "3" ++ [nl] in
  let f := ex_out (main demo_show [s2l "omega"] [s2l "dT"] 1 2 demo_input demo_init 2 3 content) in
  length f = 3%nat /\ map columns f = [78; 78; 78]%nat /\
  lines_of content [s2l "a"; s2l "1"; s2l "2"; s2l "3"] /\
  in_range 2 3 1 [s2l "a"; s2l "1"; s2l "2"; s2l "3"] = [s2l "1"; s2l "2"].
Proof.
  cbv zeta. split; [vm_compute; reflexivity|]. split; [vm_compute; reflexivity|]. split; [|reflexivity].
  apply (lines_cons (s2l "a")); [cbn; intuition discriminate|].
  apply (lines_cons (s2l "1")); [cbn; intuition discriminate|].
  apply (lines_cons (s2l "2")); [cbn; intuition discriminate|].
  apply (lines_cons (s2l "3")); [cbn; intuition discriminate|constructor].
Qed.
Example C24_nonvacuous :
  read_file (fun h l s => Ok (s ++ [(h, l)])) 2 3 (s2l "h" ++ nl :: s2l "1" ++ nl :: s2l "2" ++ nl :: s2l "3") [] =
  Ok [(s2l "h", s2l "1"); (s2l "h", s2l "2")].
Proof. reflexivity. Qed.
Example C25_nonvacuous :
  tried demo_oracles /\ o_bounce demo_oracles = Gw_Success /\ i_perc_prbl demo_input = 0.71%Q /\ i_compl_prbl demo_input = 0.01%Q /\
  exists s, run_pair 1 demo_input 2 demo_oracles empty_store = Ok s.
Proof. split; [now left|]. split; [reflexivity|]. split; [reflexivity|]. split; [reflexivity|]. eexists. vm_compute. reflexivity. Qed.
Example C26_nonvacuous :
  trans_status demo_oracles (bounce_of demo_oracles demo_input) (i_which demo_input) = Te_Success /\
  i_vwall demo_input = 0.95%Q /\ i_gw demo_input = true /\
  exists b, CalculatePTStrength demo_oracles 2 (bounce_of demo_oracles demo_input) = Ok b.
Proof. split; [reflexivity|]. split; [reflexivity|]. split; [reflexivity|]. eexists. vm_compute. reflexivity. Qed.
Example C65_nonvacuous :
  perc_set (bounce_of demo_oracles demo_input) = true /\ o_alpha demo_oracles 7 = Some (1 # 5)%Q.
Proof. split; reflexivity. Qed.
