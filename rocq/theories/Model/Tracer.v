(** TransitionTracer and the part of BounceSolution it drives:
    src/transition_tracer/transition_tracer.cpp 15-398, src/bounce_solution/bounce_solution.cpp
    799-1053, legends from src/minimum_tracer/minimum_tracer.cpp 2800-2896.

    A double is [option Q], [None] being NaN (EmptyValue, minimum_tracer.h 34).  An
    std::optional<double> is only read through value_or(EmptyValue), so "no value" is [None]
    too.  Log messages are dropped. *)
From Coq Require Import QArith Qabs.
From Verif.Model Require Import Base History.
Open Scope Z_scope.

Notation dbl := (option Q).

(** minimum_tracer.h 39-45, 60-69, 86-94, 110-115, 128-135, 151-157, 171-176 *)
Inductive st_nlo := Nlo_NotSet | Nlo_Off | Nlo_Success | Nlo_NoNLOStability.
Inductive st_ewsr := Ew_NotSet | Ew_Off | Ew_Failure | Ew_NotBFB | Ew_FlatRegion | Ew_EWSymNonRes | Ew_EWSymRes.
Inductive st_trace := Tr_NotSet | Tr_Success | Tr_NoCoverage | Tr_NoMinsAtBoundaries | Tr_NoGlobMinCoverage | Tr_Failure.
Inductive st_coex := Cx_NotSet | Cx_Success | Cx_NoCoexPairs.
Inductive st_crit := Cr_NotSet | Cr_Success | Cr_FalseLower | Cr_TrueLower | Cr_Failure.
Inductive st_temp := Te_NotSet | Te_Success | Te_NotMet | Te_NaN.
Inductive st_gw := Gw_NotSet | Gw_Success | Gw_Failure.

(** the ...ToString maps, minimum_tracer.h 50-55, 74-81, 99-105, 120-123, 140-145, 162-166, 181-184; operator<<, minimum_tracer.cpp 18-52 *)
Definition show_nlo (s : st_nlo) : str := s2l match s with
  | Nlo_NotSet => "not_set" | Nlo_Off => "off" | Nlo_Success => "success" | Nlo_NoNLOStability => "no_nlo_stability" end.
Definition show_ewsr (s : st_ewsr) : str := s2l match s with
  | Ew_NotSet => "not_set" | Ew_Off => "off" | Ew_Failure => "failure" | Ew_NotBFB => "non_bfb"
  | Ew_FlatRegion => "flat_region" | Ew_EWSymNonRes => "ew_syum_non_res" | Ew_EWSymRes => "ew_sym_res" end.
Definition show_trace (s : st_trace) : str := s2l match s with
  | Tr_NotSet => "not_set" | Tr_Success => "success" | Tr_NoCoverage => "no_coverage"
  | Tr_NoMinsAtBoundaries => "no_mins_at_boundaries" | Tr_NoGlobMinCoverage => "no_glob_min_coverage"
  | Tr_Failure => "failure" end.
Definition show_coex (s : st_coex) : str := s2l match s with
  | Cx_NotSet => "not_set" | Cx_Success => "success" | Cx_NoCoexPairs => "no_coex_pair" end.
Definition show_crit (s : st_crit) : str := s2l match s with
  | Cr_NotSet => "not_set" | Cr_Success => "success" | Cr_FalseLower => "false_lower"
  | Cr_TrueLower => "true_lower" | Cr_Failure => "failure" end.
Definition show_temp (s : st_temp) : str := s2l match s with
  | Te_NotSet => "not_set" | Te_Success => "success" | Te_NotMet => "not_met" | Te_NaN => "nan" end.
Definition show_gw (s : st_gw) : str := s2l match s with
  | Gw_NotSet => "not_set" | Gw_Success => "success" | Gw_Failure => "failure" end.

Definition is_temp_success (s : st_temp) : bool := match s with Te_Success => true | _ => false end.

(** GetStatusNLOVEV, minimum_tracer.cpp 1129-1137; GetStatusEWSR, 1139-1172 *)
Definition GetStatusNLOVEV (out : bool) : st_nlo := if out then Nlo_Success else Nlo_NoNLOStability.
Definition GetStatusEWSR (out : Z) : st_ewsr :=
  if out =? 3 then Ew_EWSymRes else if out =? 2 then Ew_EWSymNonRes
  else if out =? 1 then Ew_FlatRegion else if out =? 0 then Ew_Failure
  else if out =? -1 then Ew_NotBFB else Ew_Failure.

(** the part of user_input read here, transition_tracer.h 52-73 *)
Record user_input := {
  i_vwall : Q; i_perc_prbl : Q; i_compl_prbl : Q; i_ewsr_check : Z; i_nlo_check : bool;
  i_gw : bool; i_which : Z
}.

(** ** The bounce object *)

(** UserDefined_vwall, vwall, percolation_temp_set, completion_temp_set, Tperc, Tcompl,
    status_perc, status_compl, alpha; bounce_solution.h 61-122, 291 *)
Record bounce := {
  uvwall : Q; vwall : dbl; perc_set : bool; compl_set : bool; Tperc : Q; Tcompl : Q;
  status_perc : st_temp; status_compl : st_temp; alpha : dbl
}.

(** constructor, bounce_solution.cpp 21-52: vwall keeps its default 0.95 *)
Definition new_bounce (uv : Q) : bounce :=
  {| uvwall := uv; vwall := Some 0.95%Q; perc_set := false; compl_set := false; Tperc := (-1)%Q; Tcompl := (-1)%Q;
     status_perc := Te_NotSet; status_compl := Te_NotSet; alpha := Some (-1)%Q |}.

(** Everything the computation takes from numerics for one phase pair. *)
Record oracles := {
  (** CalcTempAtFalseVacFraction(vwall, fraction) before and after the refinement of the
      percolation search, and before and after that of the completion search *)
  o_tfrac_0 : dbl -> Q -> Q;
  o_tfrac_1 : dbl -> Q -> Q;
  o_tfrac_2 : dbl -> Q -> Q;
  (** alpha as a function of Tperc, lines 959-979 *)
  o_alpha : Q -> dbl;
  (** the wall velocity estimates for UserDefined_vwall = -1 and -2 as functions of alpha
      and Tperc, lines 1005-1052 *)
  o_v1 : dbl -> Q -> dbl;
  o_v2 : dbl -> Q -> dbl;
  (** critical temperature of the pair with its status; the VEVs of the false and true phase
      (Phase::Get(T).point) *)
  o_crit : st_crit; o_Tc : dbl;
  o_false : dbl -> list dbl; o_true : dbl -> list dbl;
  (** status_bounce_sol after construction; results of the two nucleation searches *)
  o_bounce : st_gw;
  o_nucl_approx : st_temp * Q; o_nucl : st_temp * Q;
  (** GetInvTimeScale() *)
  o_beta : bounce -> dbl;
  (** the spectrum: peak frequency and amplitude of sound waves and turbulence, the three
      signal-to-noise ratios, K_sw and K_turb, as functions of the bounce object *)
  o_spectrum : bounce -> dbl * dbl * dbl * dbl * dbl * dbl * dbl * dbl * dbl
}.

Section Bounce.
Variable o : oracles.

Definition Qgt0 (x : Q) : bool := negb (Qle_bool x 0).
Definition Qlt0 (x : Q) : bool := negb (Qle_bool 0 x).

(** default arguments, bounce_solution.h 510 and 518 *)
Definition default_perc : Q := 0.71%Q.
Definition default_compl : Q := 0.01%Q.

(** CalculatePercolationTemp, lines 799-828, with status_bounce_sol = Success.  The spline only
    changes through the refinement, so the search is [o_tfrac_0] before it and [o_tfrac_1]
    after it. *)
Definition CalculatePercolationTemp (frac : Q) (b : bounce) : bounce :=
  let t := (if perc_set b then o_tfrac_1 o else o_tfrac_0 o) (vwall b) frac in
  if Qgt0 t && negb (perc_set b) then
    {| uvwall := uvwall b; vwall := vwall b; perc_set := true; compl_set := compl_set b;
       Tperc := o_tfrac_1 o (vwall b) frac; Tcompl := Tcompl b;
       status_perc := Te_Success; status_compl := status_compl b; alpha := alpha b |}
  else
    {| uvwall := uvwall b; vwall := vwall b; perc_set := perc_set b; compl_set := compl_set b;
       Tperc := t; Tcompl := Tcompl b;
       status_perc := if Qlt0 t then Te_NotMet else status_perc b;
       status_compl := status_compl b; alpha := alpha b |}.

(** CalculateCompletionTemp, lines 830-856 *)
Definition CalculateCompletionTemp (frac : Q) (b : bounce) : bounce :=
  let t := (if compl_set b then o_tfrac_2 o else if perc_set b then o_tfrac_1 o else o_tfrac_0 o) (vwall b) frac in
  if Qgt0 t && negb (compl_set b) then
    {| uvwall := uvwall b; vwall := vwall b; perc_set := perc_set b; compl_set := true;
       Tperc := Tperc b; Tcompl := o_tfrac_2 o (vwall b) frac;
       status_perc := status_perc b; status_compl := Te_Success; alpha := alpha b |}
  else
    {| uvwall := uvwall b; vwall := vwall b; perc_set := perc_set b; compl_set := compl_set b;
       Tperc := Tperc b; Tcompl := t;
       status_perc := status_perc b;
       status_compl := if Qlt0 t then Te_NotMet else status_compl b; alpha := alpha b |}.

Definition set_vwall (v : dbl) (b : bounce) : bounce :=
  {| uvwall := uvwall b; vwall := v; perc_set := perc_set b; compl_set := compl_set b; Tperc := Tperc b;
     Tcompl := Tcompl b; status_perc := status_perc b; status_compl := status_compl b; alpha := alpha b |}.
Definition set_alpha (a : dbl) (b : bounce) : bounce :=
  {| uvwall := uvwall b; vwall := vwall b; perc_set := perc_set b; compl_set := compl_set b; Tperc := Tperc b;
     Tcompl := Tcompl b; status_perc := status_perc b; status_compl := status_compl b; alpha := a |}.
Definition set_uvwall (v : Q) (b : bounce) : bounce :=
  {| uvwall := v; vwall := vwall b; perc_set := perc_set b; compl_set := compl_set b; Tperc := Tperc b;
     Tcompl := Tcompl b; status_perc := status_perc b; status_compl := status_compl b; alpha := alpha b |}.

(** CalculateWallVelocity, lines 992-1053 (percolation_temp_set holds at its only call site) *)
Definition CalculateWallVelocity (b : bounce) : bounce :=
  if Qle_bool 0 (uvwall b) then set_vwall (Some (uvwall b)) b
  else if Qeq_bool (uvwall b) (-1) then set_vwall (o_v1 o (alpha b) (Tperc b)) b
  else if Qeq_bool (uvwall b) (-2) then set_vwall (o_v2 o (alpha b) (Tperc b)) b
  else b.

(** abs(alpha / old_alpha - 1) < 1e-7, line 981; false for NaN and for old_alpha = 0 *)
Definition converged (a old : dbl) : bool :=
  match a, old with
  | Some x, Some y => negb (Qeq_bool y 0) && negb (Qle_bool 1e-7 (Qabs (x / y - 1)))
  | _, _ => false
  end.

(** body of the loop, lines 950-981 *)
Definition pt_round (b : bounce) : bounce :=
  let b1 := CalculatePercolationTemp default_perc b in
  CalculateWallVelocity (set_alpha (o_alpha o (Tperc b1)) b1).

(** the loop, lines 948-982: [true] = returned from within *)
Fixpoint pt_loop (n : nat) (b : bounce) : bounce * bool :=
  match n with
  | O => (b, false)
  | S n' => let b' := pt_round b in
            if converged (alpha b') (alpha b) then (b', true) else pt_loop n' b'
  end.

(** CalculatePTStrength, lines 934-990; the recursion uses fuel *)
Fixpoint CalculatePTStrength (fuel : nat) (b : bounce) : outcome bounce :=
  match fuel with
  | O => OutOfFuel
  | S f =>
      if negb (perc_set b) then Throw RuntimeError
      else
        let b0 := set_vwall (if Qle_bool 0 (uvwall b) then Some (uvwall b) else Some 0.95%Q) b in
        let '(b', ok) := pt_loop 20 b0 in
        if ok then Ok b' else CalculatePTStrength f (set_uvwall 0.95%Q b')
  end.
End Bounce.

(** ** One pair *)

(** struct transition_data, transition_tracer.h 96-114 *)
Record tdata := {
  d_crit : dbl; d_na : dbl; d_n : dbl; d_p : dbl; d_c : dbl;
  d_crit_true : list dbl; d_crit_false : list dbl; d_na_true : list dbl; d_na_false : list dbl;
  d_n_true : list dbl; d_n_false : list dbl; d_p_true : list dbl; d_p_false : list dbl;
  d_c_true : list dbl; d_c_false : list dbl
}.
(** a new transition_data: no temperatures, empty vectors *)
Definition new_tdata : tdata :=
  {| d_crit := None; d_na := None; d_n := None; d_p := None; d_c := None;
     d_crit_true := []; d_crit_false := []; d_na_true := []; d_na_false := []; d_n_true := []; d_n_false := [];
     d_p_true := []; d_p_false := []; d_c_true := []; d_c_false := [] |}.
(** assignments to the fields of a transition_data: temperature, true VEV and false VEV of a stage *)
Definition set_crit (T : dbl) (t f : list dbl) (d : tdata) : tdata :=
  {| d_crit := T; d_na := d_na d; d_n := d_n d; d_p := d_p d; d_c := d_c d;
     d_crit_true := t; d_crit_false := f; d_na_true := d_na_true d; d_na_false := d_na_false d;
     d_n_true := d_n_true d; d_n_false := d_n_false d; d_p_true := d_p_true d; d_p_false := d_p_false d;
     d_c_true := d_c_true d; d_c_false := d_c_false d |}.
Definition set_na (T : dbl) (t f : list dbl) (d : tdata) : tdata :=
  {| d_crit := d_crit d; d_na := T; d_n := d_n d; d_p := d_p d; d_c := d_c d;
     d_crit_true := d_crit_true d; d_crit_false := d_crit_false d; d_na_true := t; d_na_false := f;
     d_n_true := d_n_true d; d_n_false := d_n_false d; d_p_true := d_p_true d; d_p_false := d_p_false d;
     d_c_true := d_c_true d; d_c_false := d_c_false d |}.
Definition set_n (T : dbl) (t f : list dbl) (d : tdata) : tdata :=
  {| d_crit := d_crit d; d_na := d_na d; d_n := T; d_p := d_p d; d_c := d_c d;
     d_crit_true := d_crit_true d; d_crit_false := d_crit_false d; d_na_true := d_na_true d; d_na_false := d_na_false d;
     d_n_true := t; d_n_false := f; d_p_true := d_p_true d; d_p_false := d_p_false d;
     d_c_true := d_c_true d; d_c_false := d_c_false d |}.
Definition set_p (T : dbl) (t f : list dbl) (d : tdata) : tdata :=
  {| d_crit := d_crit d; d_na := d_na d; d_n := d_n d; d_p := T; d_c := d_c d;
     d_crit_true := d_crit_true d; d_crit_false := d_crit_false d; d_na_true := d_na_true d; d_na_false := d_na_false d;
     d_n_true := d_n_true d; d_n_false := d_n_false d; d_p_true := t; d_p_false := f;
     d_c_true := d_c_true d; d_c_false := d_c_false d |}.
Definition set_c (T : dbl) (t f : list dbl) (d : tdata) : tdata :=
  {| d_crit := d_crit d; d_na := d_na d; d_n := d_n d; d_p := d_p d; d_c := T;
     d_crit_true := d_crit_true d; d_crit_false := d_crit_false d; d_na_true := d_na_true d; d_na_false := d_na_false d;
     d_n_true := d_n_true d; d_n_false := d_n_false d; d_p_true := d_p_true d; d_p_false := d_p_false d;
     d_c_true := t; d_c_false := f |}.

(** CalcTransitionTemp, bounce_solution.cpp 520-557 *)
Definition CalcTransitionTemp (o : oracles) (b : bounce) (which : Z) : dbl :=
  if is_temp_success (fst (o_nucl_approx o)) && (which =? 1) then Some (snd (o_nucl_approx o))
  else if is_temp_success (fst (o_nucl o)) && (which =? 2) then Some (snd (o_nucl o))
  else if is_temp_success (status_perc b) && (which =? 3) then Some (Tperc b)
  else if is_temp_success (status_compl b) && (which =? 4) then Some (Tcompl b)
  else Some (-1)%Q.

Definition dbl_lt1 (x : dbl) : bool := match x with Some q => negb (Qle_bool 1 q) | None => false end.
Definition dbl_is_m1 (x : dbl) : bool := match x with Some q => Qeq_bool q (-1) | None => false end.

(** status after the constructor of GravitationalWave, gw.cpp 34-47 *)
Definition gw_status0 (o : oracles) (b : bounce) (which : Z) : st_gw :=
  if dbl_lt1 (o_beta o b) then Gw_Failure
  else if dbl_is_m1 (CalcTransitionTemp o b which) then Gw_Failure else Gw_NotSet.

(** gw_data, lines 274-321 of transition_tracer.cpp: line 280 reads the wall velocity, then the
    strength is calculated.  GetSNR sets the status to Success (gw.cpp 154). *)
Record gw_out := {
  g_status : st_gw; g_trans : dbl; g_vwall : dbl; g_alpha : dbl; g_beta : dbl;
  g_K_sw : dbl; g_f_sw : dbl; g_h_sw : dbl; g_SNR_sw : dbl;
  g_K_turb : dbl; g_f_turb : dbl; g_h_turb : dbl; g_SNR_turb : dbl; g_SNR : dbl
}.
Definition no_gw : gw_out :=
  {| g_status := Gw_NotSet; g_trans := None; g_vwall := None; g_alpha := None; g_beta := None;
     g_K_sw := None; g_f_sw := None; g_h_sw := None; g_SNR_sw := None;
     g_K_turb := None; g_f_turb := None; g_h_turb := None; g_SNR_turb := None; g_SNR := None |}.

Definition gw_calc (fuel : nat) (o : oracles) (which : Z) (b : bounce) : outcome gw_out :=
  let v := vwall b in
  bind (CalculatePTStrength o fuel b) (fun b' =>
    let base := gw_status0 o b' which in
    match base with
    | Gw_Failure =>
        Ok {| g_status := Gw_Failure; g_trans := CalcTransitionTemp o b' which; g_vwall := v;
              g_alpha := alpha b'; g_beta := o_beta o b';
              g_K_sw := None; g_f_sw := None; g_h_sw := None; g_SNR_sw := None;
              g_K_turb := None; g_f_turb := None; g_h_turb := None; g_SNR_turb := None; g_SNR := None |}
    | _ =>
        let '(fsw, hsw, ftu, htu, ssw, stu, s, ksw, ktu) := o_spectrum o b' in
        Ok {| g_status := Gw_Success; g_trans := CalcTransitionTemp o b' which; g_vwall := v;
              g_alpha := alpha b'; g_beta := o_beta o b';
              g_K_sw := ksw; g_f_sw := fsw; g_h_sw := hsw; g_SNR_sw := ssw;
              g_K_turb := ktu; g_f_turb := ftu; g_h_turb := htu; g_SNR_turb := stu; g_SNR := s |}
    end).

(** the requested transition status, lines 255-272 *)
Definition trans_status (o : oracles) (b : bounce) (which : Z) : st_temp :=
  if which =? 1 then fst (o_nucl_approx o) else if which =? 2 then fst (o_nucl o)
  else if which =? 3 then status_perc b else if which =? 4 then status_compl b else Te_NotSet.

(** the vectors of output_store filled by the loop over the pairs: status_codes and the two
    data vectors, transition_tracer.h 78-91, 146-147 *)
Record store := {
  s_crit : list st_crit; s_bounce : list st_gw; s_na : list st_temp; s_n : list st_temp;
  s_p : list st_temp; s_c : list st_temp; v_trans : list tdata; v_gw : list gw_out
}.
Definition empty_store : store :=
  {| s_crit := []; s_bounce := []; s_na := []; s_n := []; s_p := []; s_c := []; v_trans := []; v_gw := [] |}.
(** push_back on the individual vectors *)
Definition push_crit (x : st_crit) (s : store) : store :=
  {| s_crit := s_crit s ++ [x]; s_bounce := s_bounce s; s_na := s_na s; s_n := s_n s; s_p := s_p s; s_c := s_c s;
     v_trans := v_trans s; v_gw := v_gw s |}.
Definition push_bounce (x : st_gw) (s : store) : store :=
  {| s_crit := s_crit s; s_bounce := s_bounce s ++ [x]; s_na := s_na s; s_n := s_n s; s_p := s_p s; s_c := s_c s;
     v_trans := v_trans s; v_gw := v_gw s |}.
Definition push_na (x : st_temp) (s : store) : store :=
  {| s_crit := s_crit s; s_bounce := s_bounce s; s_na := s_na s ++ [x]; s_n := s_n s; s_p := s_p s; s_c := s_c s;
     v_trans := v_trans s; v_gw := v_gw s |}.
Definition push_n (x : st_temp) (s : store) : store :=
  {| s_crit := s_crit s; s_bounce := s_bounce s; s_na := s_na s; s_n := s_n s ++ [x]; s_p := s_p s; s_c := s_c s;
     v_trans := v_trans s; v_gw := v_gw s |}.
Definition push_p (x : st_temp) (s : store) : store :=
  {| s_crit := s_crit s; s_bounce := s_bounce s; s_na := s_na s; s_n := s_n s; s_p := s_p s ++ [x]; s_c := s_c s;
     v_trans := v_trans s; v_gw := v_gw s |}.
Definition push_c (x : st_temp) (s : store) : store :=
  {| s_crit := s_crit s; s_bounce := s_bounce s; s_na := s_na s; s_n := s_n s; s_p := s_p s; s_c := s_c s ++ [x];
     v_trans := v_trans s; v_gw := v_gw s |}.
Definition push_data (d : tdata) (g : gw_out) (s : store) : store :=
  {| s_crit := s_crit s; s_bounce := s_bounce s; s_na := s_na s; s_n := s_n s; s_p := s_p s; s_c := s_c s;
     v_trans := v_trans s ++ [d]; v_gw := v_gw s ++ [g] |}.

(** the bounce object of a pair when its temperatures have been computed,
    transition_tracer.cpp 141-232; used in statements only *)
Definition bounce_of (o : oracles) (inp : user_input) : bounce :=
  CalculateCompletionTemp o default_compl (CalculatePercolationTemp o default_perc (new_bounce (i_vwall inp))).

Section Pair.
Variable nvev : nat.
Variable inp : user_input.
Variable fuel : nat.

(** std::vector<double>(num_vev, EmptyValue) *)
Definition empties : list dbl := repeat None nvev.

(** temperature and VEVs of a stage are only stored on success (lines 160-253) *)
Definition stage (o : oracles) (set : dbl -> list dbl -> list dbl -> tdata -> tdata) (s : st_temp) (T : Q) (d : tdata) : tdata :=
  if is_temp_success s then set (Some T) (o_true o (Some T)) (o_false o (Some T)) d
  else set None empties empties d.

(** the end of an iteration, lines 395-397 *)
Definition finish (o : oracles) (d : tdata) (g : gw_out) (s : store) : store :=
  push_data (set_crit (o_Tc o) (d_crit_true d) (d_crit_false d) d) g s.

(** one iteration of the loop over the pairs, lines 113-398 *)
Definition run_pair (o : oracles) (s : store) : outcome store :=
  let s := push_crit (o_crit o) s in                                  (* 126 *)
  match o_crit o with
  | Cr_Success | Cr_TrueLower =>
      let d := set_crit (o_Tc o) (o_true o (o_Tc o)) (o_false o (o_Tc o)) new_tdata in
      let s := push_bounce (o_bounce o) s in                          (* 151 *)
      match o_bounce o with
      | Gw_Success =>
          let s := push_na (fst (o_nucl_approx o)) s in               (* 158 *)
          let d := stage o set_na (fst (o_nucl_approx o)) (snd (o_nucl_approx o)) d in
          let s := push_n (fst (o_nucl o)) s in                       (* 186 *)
          let d := stage o set_n (fst (o_nucl o)) (snd (o_nucl o)) d in
          let b := CalculatePercolationTemp o default_perc (new_bounce (i_vwall inp)) in   (* 207: no argument *)
          let s := push_p (status_perc b) s in
          let d := stage o set_p (status_perc b) (Tperc b) d in
          let b := CalculateCompletionTemp o default_compl b in       (* 230: no argument *)
          let s := push_c (status_compl b) s in
          let d := stage o set_c (status_compl b) (Tcompl b) d in
          bind (if is_temp_success (trans_status o b (i_which inp)) && i_gw inp
                then gw_calc fuel o (i_which inp) b else Ok no_gw) (fun g => Ok (finish o d g s))
      | _ =>                                                          (* 330-357 *)
          let s := push_c Te_NaN (push_p Te_NaN (push_n Te_NaN (push_na Te_NaN s))) in
          let d := set_c None empties empties (set_p None empties empties
                     (set_n None empties empties (set_na None empties empties d))) in
          Ok (finish o d no_gw s)
      end
  | _ =>                                                              (* 359-393 *)
      let d := set_crit None empties empties new_tdata in
      let s := push_c Te_NaN (push_p Te_NaN (push_n Te_NaN (push_na Te_NaN (push_bounce Gw_NotSet s)))) in
      let d := set_c None empties empties (set_p None empties empties
                 (set_n None empties empties (set_na None empties empties d))) in
      Ok (finish o d no_gw s)
  end.

Fixpoint run_pairs (os : list oracles) (s : store) : outcome store :=
  match os with
  | [] => Ok s
  | o :: rest => bind (run_pair o s) (run_pairs rest)
  end.
End Pair.

(** ** Legend and constructor *)

(** GetLegend, minimum_tracer.cpp 2800-2896; [vevs] = addLegendVEV() *)
Definition vev_cols (vevs : list str) (s : string) (i : nat) : list str :=
  map (fun v => v ++ s2l s ++ to_string i) vevs.
Definition legend_pair (vevs : list str) (gw : bool) (i : nat) : list str :=
  let col s := s2l s ++ to_string i in
  [col "status_crit_"; col "T_crit_"]%string
  ++ vev_cols vevs "_crit_false_" i ++ vev_cols vevs "_crit_true_" i
  ++ [col "status_bounce_sol_"; col "status_nucl_approx_"; col "T_nucl_approx_"]%string
  ++ vev_cols vevs "_nucl_approx_false_" i ++ vev_cols vevs "_nucl_approx_true_" i
  ++ [col "status_nucl_"; col "T_nucl_"]%string
  ++ vev_cols vevs "_nucl_false_" i ++ vev_cols vevs "_nucl_true_" i
  ++ [col "status_perc_"; col "T_perc_"]%string
  ++ vev_cols vevs "_perc_false_" i ++ vev_cols vevs "_perc_true_" i
  ++ [col "status_compl_"; col "T_compl_"]%string
  ++ vev_cols vevs "_compl_false_" i ++ vev_cols vevs "_compl_true_" i
  ++ if gw then
       [col "status_gw_"; col "trans_temp_"; col "v_wall_"; col "alpha_PT_"; col "beta/H_"; col "K_sw_";
        col "fpeak_sw_"; col "h2OmegaPeak_sw_"; col "SNR(LISA-3yrs)_sw_"; col "K_turb_"; col "fpeak_turb_";
        col "h2OmegaPeak_turb_"; col "SNR(LISA-3yrs)_turb_"; col "SNR(LISA-3yrs)_"]%string
     else [].
Definition GetLegend (vevs : list str) (n : nat) (gw : bool) : list str :=
  [s2l "status_nlo_stability"; s2l "status_ewsr"; s2l "status_tracing"; s2l "status_coex_pairs"; s2l "runtime"]
  ++ flat_map (legend_pair vevs gw) (seq 0 n) ++ [s2l "transition_history"].

(** struct output, transition_tracer.h 142-153 *)
Record output := {
  legend : list str; status_nlo : st_nlo; status_ewsr : st_ewsr; status_tracing : st_trace; status_coex : st_coex;
  pairs_out : store; num_coex_phase_pairs : nat; history : str
}.

(** numerics of a parameter point: CheckNLOVEV, IsThereEWSymmetryRestoration, the Vacuum object
    and the chain of phases found by the history evaluation (Model/History.v) *)
Record point := {
  pt_nlo : bool; pt_ewsr : Z; pt_tracing : st_trace; pt_coex : st_coex; pt_pairs : list oracles;
  pt_history : store -> outcome (list nat * list nat)
}.

(** the constructor, lines 15-486 *)
Definition TransitionTracer (vevs : list str) (nvev fuel : nat) (inp : user_input) (p : point) : outcome output :=
  let leg0 := GetLegend vevs 0 (i_gw inp) in
  let nlo := if i_nlo_check inp then GetStatusNLOVEV (pt_nlo p) else Nlo_Off in
  match nlo with
  | Nlo_Success | Nlo_Off =>
      let ew := if 0 <? i_ewsr_check inp then GetStatusEWSR (pt_ewsr p) else Ew_Off in
      let filtered := (0 <? i_ewsr_check inp) &&
          (((i_ewsr_check inp =? 2) && (pt_ewsr p <? 2)) || ((i_ewsr_check inp =? 3) && (pt_ewsr p <? 3))) in
      if filtered then
        Ok {| legend := leg0; status_nlo := nlo; status_ewsr := ew; status_tracing := Tr_NotSet; status_coex := Cx_NotSet;
              pairs_out := empty_store; num_coex_phase_pairs := 0; history := s2l "not_set" |}
      else
        let n := length (pt_pairs p) in
        match pt_tracing p, pt_coex p with
        | Tr_Success, Cx_Success =>
            bind (run_pairs nvev inp fuel (pt_pairs p) empty_store) (fun rs =>
              bind (pt_history p rs) (fun h =>
                Ok {| legend := GetLegend vevs n (i_gw inp); status_nlo := nlo; status_ewsr := ew;
                      status_tracing := Tr_Success; status_coex := Cx_Success;
                      pairs_out := rs; num_coex_phase_pairs := n; history := render (fst h) (snd h) |}))
        | tr, cx =>
            Ok {| legend := leg0; status_nlo := nlo; status_ewsr := ew; status_tracing := tr; status_coex := cx;
                  pairs_out := empty_store; num_coex_phase_pairs := n; history := s2l "not_set" |}
        end
  | _ =>
      Ok {| legend := leg0; status_nlo := nlo; status_ewsr := Ew_NotSet; status_tracing := Tr_NotSet; status_coex := Cx_NotSet;
            pairs_out := empty_store; num_coex_phase_pairs := 0; history := s2l "not_set" |}
  end.
