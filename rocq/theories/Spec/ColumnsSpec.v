(** Specification of the output tables column by column (C79), of the statuses of a parameter point
    (C80) and of the gravitational wave columns (C81). *)
From Coq Require Import QArith.
From Verif.Model Require Import Base History Tracer.
From Verif.Spec Require Import ReportSpec.
Open Scope Z_scope.

(** ** Words for the statuses *)
Definition word_crit (s : st_crit) (w : string) : Prop :=
  match s with Cr_NotSet => w = "not_set" | Cr_Success => w = "success" | Cr_FalseLower => w = "false_lower"
             | Cr_TrueLower => w = "true_lower" | Cr_Failure => w = "failure" end%string.
Definition word_temp (s : st_temp) (w : string) : Prop :=
  match s with Te_NotSet => w = "not_set" | Te_Success => w = "success" | Te_NotMet => w = "not_met"
             | Te_NaN => w = "nan" end%string.
Definition word_gw (s : st_gw) (w : string) : Prop :=
  match s with Gw_NotSet => w = "not_set" | Gw_Success => w = "success" | Gw_Failure => w = "failure" end%string.
Definition word_nlo (s : st_nlo) (w : string) : Prop :=
  match s with Nlo_NotSet => w = "not_set" | Nlo_Off => w = "off" | Nlo_Success => w = "success"
             | Nlo_NoNLOStability => w = "no_nlo_stability" end%string.
(** the word for points without symmetry restoration is spelled as in the code *)
Definition word_ewsr (s : st_ewsr) (w : string) : Prop :=
  match s with Ew_NotSet => w = "not_set" | Ew_Off => w = "off" | Ew_Failure => w = "failure" | Ew_NotBFB => w = "non_bfb"
             | Ew_FlatRegion => w = "flat_region" | Ew_EWSymNonRes => w = "ew_syum_non_res"
             | Ew_EWSymRes => w = "ew_sym_res" end%string.
Definition word_trace (s : st_trace) (w : string) : Prop :=
  match s with Tr_NotSet => w = "not_set" | Tr_Success => w = "success" | Tr_NoCoverage => w = "no_coverage"
             | Tr_NoMinsAtBoundaries => w = "no_mins_at_boundaries" | Tr_NoGlobMinCoverage => w = "no_glob_min_coverage"
             | Tr_Failure => w = "failure" end%string.
Definition word_coex (s : st_coex) (w : string) : Prop :=
  match s with Cx_NotSet => w = "not_set" | Cx_Success => w = "success" | Cx_NoCoexPairs => w = "no_coex_pair" end%string.

(** ** Named columns: pairs of a column's name and the value in a row *)
Section Named.
Variable show : dbl -> str.
Variable vevs : list str.

Definition col (name : string) (i : nat) (v : str) : list (str * str) := [(s2l name ++ to_string i, v)].
(** one column per field: its name, then [name] and the number of the pair *)
Definition field_cols (name : string) (i : nat) (vs : list dbl) : list (str * str) :=
  combine (map (fun v => v ++ s2l name ++ to_string i) vevs) (map show vs).

(** the columns of pair [i]; [w_..] are the words for its statuses *)
Definition pair_named (gw : bool) (i : nat) (w_crit w_bounce w_na w_n w_p w_c w_gw : string) (d : tdata) (g : gw_out)
  : list (str * str) :=
  col "status_crit_" i (s2l w_crit) ++ col "T_crit_" i (show (d_crit d)) ++
  field_cols "_crit_false_" i (d_crit_false d) ++ field_cols "_crit_true_" i (d_crit_true d) ++
  col "status_bounce_sol_" i (s2l w_bounce) ++
  col "status_nucl_approx_" i (s2l w_na) ++ col "T_nucl_approx_" i (show (d_na d)) ++
  field_cols "_nucl_approx_false_" i (d_na_false d) ++ field_cols "_nucl_approx_true_" i (d_na_true d) ++
  col "status_nucl_" i (s2l w_n) ++ col "T_nucl_" i (show (d_n d)) ++
  field_cols "_nucl_false_" i (d_n_false d) ++ field_cols "_nucl_true_" i (d_n_true d) ++
  col "status_perc_" i (s2l w_p) ++ col "T_perc_" i (show (d_p d)) ++
  field_cols "_perc_false_" i (d_p_false d) ++ field_cols "_perc_true_" i (d_p_true d) ++
  col "status_compl_" i (s2l w_c) ++ col "T_compl_" i (show (d_c d)) ++
  field_cols "_compl_false_" i (d_c_false d) ++ field_cols "_compl_true_" i (d_c_true d) ++
  (if gw then
    col "status_gw_" i (s2l w_gw) ++ col "trans_temp_" i (show (g_trans g)) ++ col "v_wall_" i (show (g_vwall g)) ++
    col "alpha_PT_" i (show (g_alpha g)) ++ col "beta/H_" i (show (g_beta g)) ++
    col "K_sw_" i (show (g_K_sw g)) ++ col "fpeak_sw_" i (show (g_f_sw g)) ++
    col "h2OmegaPeak_sw_" i (show (g_h_sw g)) ++ col "SNR(LISA-3yrs)_sw_" i (show (g_SNR_sw g)) ++
    col "K_turb_" i (show (g_K_turb g)) ++ col "fpeak_turb_" i (show (g_f_turb g)) ++
    col "h2OmegaPeak_turb_" i (show (g_h_turb g)) ++ col "SNR(LISA-3yrs)_turb_" i (show (g_SNR_turb g)) ++
    col "SNR(LISA-3yrs)_" i (show (g_SNR g))
   else []).

(** [L] are the columns of pair [i] of the results [s] *)
Definition is_pair_named (gw : bool) (s : store) (i : nat) (L : list (str * str)) : Prop :=
  exists cr bo na nu p c d g w1 w2 w3 w4 w5 w6 w7,
    nth_error (s_crit s) i = Some cr /\ nth_error (s_bounce s) i = Some bo /\ nth_error (s_na s) i = Some na /\
    nth_error (s_n s) i = Some nu /\ nth_error (s_p s) i = Some p /\ nth_error (s_c s) i = Some c /\
    nth_error (v_trans s) i = Some d /\ nth_error (v_gw s) i = Some g /\
    word_crit cr w1 /\ word_gw bo w2 /\ word_temp na w3 /\ word_temp nu w4 /\ word_temp p w5 /\ word_temp c w6 /\
    word_gw (g_status g) w7 /\ L = pair_named gw i w1 w2 w3 w4 w5 w6 w7 d g.

(** the columns of a pair a point does not have are filled with nan *)
Definition blank : tdata :=
  let e := repeat None (length vevs) in
  {| d_crit := None; d_na := None; d_n := None; d_p := None; d_c := None;
     d_crit_true := e; d_crit_false := e; d_na_true := e; d_na_false := e; d_n_true := e; d_n_false := e;
     d_p_true := e; d_p_false := e; d_c_true := e; d_c_false := e |}.
Definition nan_named (gw : bool) (i : nat) : list (str * str) :=
  map (fun c => (fst c, s2l "nan")) (pair_named gw i "" "" "" "" "" "" "" blank no_gw).

(** the columns of [n] pairs for a point which has the first [k] of them *)
Inductive pairs_named (gw : bool) (s : store) (k : nat) : nat -> list (str * str) -> Prop :=
| pn_nil : pairs_named gw s k 0 []
| pn_pair n L M : pairs_named gw s k n L -> (n < k)%nat -> is_pair_named gw s n M -> pairs_named gw s k (S n) (L ++ M)
| pn_nan n L : pairs_named gw s k n L -> (k <= n)%nat -> pairs_named gw s k (S n) (L ++ nan_named gw n).

(** the columns of the row of a point; [k] pairs have been worked on, the table has columns for [n] *)
Definition row_named (gw : bool) (legCT : list str) (header line : str) (ct : list dbl) (time : str) (out : output)
    (k n : nat) (L : list (str * str)) : Prop :=
  exists w1 w2 w3 w4 M,
    word_nlo (status_nlo out) w1 /\ word_ewsr (status_ewsr out) w2 /\ word_trace (status_tracing out) w3 /\
    word_coex (status_coex out) w4 /\ pairs_named gw (pairs_out out) k n M /\
    L = [(header, line)] ++ combine legCT (map show ct) ++
        [(s2l "status_nlo_stability", s2l w1); (s2l "status_ewsr", s2l w2); (s2l "status_tracing", s2l w3);
         (s2l "status_coex_pairs", s2l w4); (s2l "runtime", time)] ++ M ++
        [(s2l "transition_history", history out)].
End Named.

(** cells of a line, separated by tabs *)
Fixpoint tab_separated (l : list str) : str :=
  match l with
  | [] => []
  | [x] => x
  | x :: t => x ++ "009"%char :: tab_separated t
  end.

(** ** Statuses of a point (C80) *)

(** what the check for symmetry restoration at high temperature found, by its return value
    (minimum_tracer.h 390-397) *)
Definition ewsr_meaning (code : Z) : st_ewsr :=
  match code with
  | 3 => Ew_EWSymRes | 2 => Ew_EWSymNonRes | 1 => Ew_FlatRegion | (-1) => Ew_NotBFB | _ => Ew_Failure
  end.
(** the point is given up because of what the check found: level 2 keeps points with a minimum at
    high temperature, level 3 those at whose minimum the symmetry is restored *)
Definition given_up (level : Z) (code : Z) : Prop := level = 2 /\ code < 2 \/ level = 3 /\ code < 3.

(** ** Gravitational wave columns (C81) *)

(** status and temperature of the stage asked for: 1 and 2 approximate and full nucleation, 3
    percolation, 4 completion *)
Definition stage_of (which : Z) (na nu p c : st_temp) : st_temp :=
  match which with 1 => na | 2 => nu | 3 => p | 4 => c | _ => Te_NotSet end.
Definition temp_of (which : Z) (d : tdata) : dbl :=
  match which with 1 => d_na d | 2 => d_n d | 3 => d_p d | 4 => d_c d | _ => None end.

(** no spectrum: nothing but the named numbers *)
Definition no_spectrum (g : gw_out) : Prop :=
  g_K_sw g = None /\ g_f_sw g = None /\ g_h_sw g = None /\ g_SNR_sw g = None /\
  g_K_turb g = None /\ g_f_turb g = None /\ g_h_turb g = None /\ g_SNR_turb g = None /\ g_SNR g = None.
(** nothing at all *)
Definition nothing (g : gw_out) : Prop :=
  g_status g = Gw_NotSet /\ g_trans g = None /\ g_vwall g = None /\ g_alpha g = None /\ g_beta g = None /\ no_spectrum g.
