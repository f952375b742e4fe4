(** C79: columns of the output tables. C80: statuses of a point. C81: gravitational wave columns. *)
From Coq Require Import QArith.
From Verif.Model Require Import Base History Tracer Report.
From Verif.Spec Require Import ReportSpec ColumnsSpec.
From Verif.Proofs Require Import ReportProofs TableProofs StrengthProofs AbortProofs ColumnsProofs PointProofs.
Open Scope Z_scope.

(** ** C79 *)

(** The file consists of a line of names and one line per requested input line whose values, read
    from left to right, are those of the named columns.  Pairs a point does not have read nan. *)
Theorem C79_value_under_its_name :
  forall show vevs legCT fuel inp init first last content ls r,
    (forall x, no_tab (show x)) -> Forall no_tab vevs -> vevs <> [] -> Forall no_tab legCT -> legCT <> [] ->
    (forall h l ct p t, init h l = Ok (ct, p, t) ->
       length ct = length legCT /\ no_tab t /\
       Forall (fun o => forall T, length (o_true o T) = length vevs /\ length (o_false o T) = length vevs) (pt_pairs p)) ->
    lines_of content ls -> in_range first last 1 ls <> [] ->
    Forall (fun l => columns l = columns (hd [] ls)) (in_range first last 1 ls) ->
    main show vevs legCT (length vevs) fuel inp init first last content = Ok r ->
    exists n names Ls,
      file r = tab_separated names :: map (fun L => tab_separated (map snd L)) Ls /\
      Forall2 (fun l L => map fst L = names /\ exists ct p t out k,
        init (hd [] ls) l = Ok (ct, p, t) /\ TransitionTracer vevs (length vevs) fuel inp p = Ok out /\
        k = match status_tracing out, status_coex out with Tr_Success, Cx_Success => length (pt_pairs p) | _, _ => 0%nat end /\
        (k <= n)%nat /\ row_named show vevs (i_gw inp) legCT (hd [] ls) l ct t out k n L)
        (in_range first last 1 ls) Ls.
Proof.
  intros show vevs legCT fuel inp init first last content ls r H1 H2 H3 H4 H5 H6 L NE C H.
  unfold main in H. rewrite (read_file_spec _ _ _ _ ls _ L) in H.
  destruct (table_named show H1 vevs legCT fuel inp H2 H3 H4 H5 (hd [] ls) init H6 _ _ _ NE C H) as (n & Ls & A & B & _).
  exists n, (names vevs legCT inp (hd [] ls) n), Ls. split; [exact A|].
  clear -B. induction B as [|l L' ls' Ls' (E & ct & p & t & out & I & T & K & R) F IH]; constructor; [|exact IH].
  split; [exact E|]. exists ct, p, t, out, (reported_pairs out p). auto.
Qed.
Print Assumptions C79_value_under_its_name.

(** ** C80 *)
Theorem C80_point_statuses :
  forall vevs nvev fuel inp p out, TransitionTracer vevs nvev fuel inp p = Ok out ->
    let untouched := status_tracing out = Tr_NotSet /\ status_coex out = Cx_NotSet /\ num_coex_phase_pairs out = 0%nat /\
                     pairs_out out = empty_store /\ history out = s2l "not_set" in
    (i_nlo_check inp = false -> status_nlo out = Nlo_Off) /\
    (i_nlo_check inp = true -> pt_nlo p = true -> status_nlo out = Nlo_Success) /\
    (i_nlo_check inp = true -> pt_nlo p = false ->
       status_nlo out = Nlo_NoNLOStability /\ status_ewsr out = Ew_NotSet /\ untouched) /\
    (i_nlo_check inp = false \/ pt_nlo p = true ->
       (i_ewsr_check inp <= 0 -> status_ewsr out = Ew_Off) /\
       (0 < i_ewsr_check inp -> status_ewsr out = ewsr_meaning (pt_ewsr p)) /\
       (given_up (i_ewsr_check inp) (pt_ewsr p) -> untouched) /\
       (~ given_up (i_ewsr_check inp) (pt_ewsr p) ->
          status_tracing out = pt_tracing p /\ status_coex out = pt_coex p /\
          num_coex_phase_pairs out = length (pt_pairs p) /\
          (pt_tracing p = Tr_Success -> pt_coex p = Cx_Success ->
             run_pairs nvev inp fuel (pt_pairs p) empty_store = Ok (pairs_out out) /\
             exists h, pt_history p (pairs_out out) = Ok h /\ history out = render (fst h) (snd h)))).
Proof. exact point_statuses. Qed.
Print Assumptions C80_point_statuses.

(** ** C81 *)
Theorem C81_gw_columns_partial :
  forall n inp fuel o s s',
    (forall T, length (o_true o T) = n /\ length (o_false o T) = n) ->
    run_pair n inp fuel o s = Ok s' ->
    exists na nu p c d g,
      s_na s' = s_na s ++ [na] /\ s_n s' = s_n s ++ [nu] /\ s_p s' = s_p s ++ [p] /\ s_c s' = s_c s ++ [c] /\
      v_trans s' = v_trans s ++ [d] /\ v_gw s' = v_gw s ++ [g] /\
      (i_gw inp = false \/ stage_of (i_which inp) na nu p c <> Te_Success -> nothing g) /\
      (i_gw inp = true -> stage_of (i_which inp) na nu p c = Te_Success ->
         exists b, CalculatePTStrength o fuel (bounce_of o inp) = Ok b /\
           g_alpha g = alpha b /\ g_beta g = o_beta o b /\
           (i_which inp <> 3 -> g_trans g = temp_of (i_which inp) d) /\
           (i_which inp = 3 -> g_trans g = Some (match status_perc b with Te_Success => Tperc b | _ => -1 end)%Q) /\
           ((exists x, g_beta g = Some x /\ (x < 1)%Q) \/ (exists x, g_trans g = Some x /\ (x == -1)%Q) ->
              g_status g = Gw_Failure /\ no_spectrum g) /\
           (~ (exists x, g_beta g = Some x /\ (x < 1)%Q) -> ~ (exists x, g_trans g = Some x /\ (x == -1)%Q) ->
              g_status g = Gw_Success /\
              o_spectrum o b = (g_f_sw g, g_h_sw g, g_f_turb g, g_h_turb g, g_SNR_sw g, g_SNR_turb g, g_SNR g, g_K_sw g, g_K_turb g))).
Proof. exact gw_columns. Qed.
Print Assumptions C81_gw_columns_partial.

(** With percolation as the transition, trans_temp need not be the reported T_perc. *)
Theorem C81_gw_columns_refuted :
  exists inp o s d g T T',
    i_which inp = 3 /\ i_gw inp = true /\ run_pair 1 inp 2 o empty_store = Ok s /\ s_p s = [Te_Success] /\
    v_trans s = [d] /\ v_gw s = [g] /\ g_status g = Gw_Success /\
    d_p d = Some T /\ (T == 95)%Q /\ g_trans g = Some T' /\ (T' == 30)%Q.
Proof. exact gw_temperature_refuted. Qed.
Print Assumptions C81_gw_columns_refuted.

(** ** Examples *)

(** two points, the first with two pairs, the second with none *)
Example C79_nonvacuous :
  let content := s2l "a" ++ nl :: s2l "1" ++ nl :: s2l "2" ++ nl :: s2l "3" ++ [nl] in
  exists r, main demo_show [s2l "omega"] [s2l "dT"] 1 2 demo_input demo_init 2 3 content = Ok r /\ length (file r) = 3%nat /\
    in_range 2 3 1 [s2l "a"; s2l "1"; s2l "2"; s2l "3"] <> [] /\ columns (s2l "1") = columns (s2l "a").
Proof. cbv zeta. eexists. split; [vm_compute; reflexivity|]. split; [vm_compute; reflexivity|]. split; [discriminate|reflexivity]. Qed.
Example C80_nonvacuous :
  exists out, TransitionTracer [s2l "omega"] 1 2 demo_input (demo_point [demo_oracles]) = Ok out /\
    status_nlo out = Nlo_Success /\ num_coex_phase_pairs out = 1%nat /\
    given_up 2 1 /\ given_up 3 2 /\ ~ given_up 2 2 /\ ~ given_up 1 (-1).
Proof.
  eexists. split; [vm_compute; reflexivity|]. split; [reflexivity|]. split; [reflexivity|]. unfold given_up. repeat split; lia.
Qed.
Example C81_nonvacuous :
  exists s g, run_pair 1 demo_input 2 demo_oracles empty_store = Ok s /\ v_gw s = [g] /\ g_status g = Gw_Success /\
    stage_of (i_which demo_input) Te_Success Te_Success Te_Success Te_Success = Te_Success.
Proof. eexists. eexists. split; [vm_compute; reflexivity|]. split; [reflexivity|]. split; reflexivity. Qed.
