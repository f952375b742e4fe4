(** The multi-step modes 0, 1, 2 and 'auto' and the constructor of Vacuum:
    src/minimum_tracer/minimum_tracer.cpp 1767-1846, 1906-2078, 2080-2190, 2268-2421.
    Temperatures are as in Model/Phase.v; the minimum tracker, the comparison of phases and the search for the global
    minimum are oracles that may answer differently at every call (the argument k counts the calls). *)
From Verif.Model Require Export Base Phase MultiStep.
Open Scope Z_scope.

Section Modes.
(** results of TrackPhase inside Phase::Get, and the verdict of IsGlobMin *)
Variable track : nat -> minimum -> Z -> list minimum.
Variable glob : nat -> minimum -> bool.
Variable retrack : nat -> phase -> list minimum.
Variable cmp : nat -> nat -> phase -> phase -> compare_result.
Variable Tlow Thigh : Z.
(** one GeV *)
Variable one : Z.

(** if (phase.MinimumPhaseVector.size() > 1) addPhase(phase): the list and the phase, which is passed by reference *)
Definition add_traced (k : nat) (p : phase) (ps : list phase) : list phase * phase :=
  if (1 <? length (mins p))%nat then addPhase (retrack k) (cmp k) ps p else (ps, p).

(** MultiStepPTMode0, 1767-1846; low and high are the minima tracked from T_low upwards and from T_high downwards *)
Definition MultiStepPTMode0 (low high : list minimum) (ps : list phase) (st : status_tracing) : outcome (list phase * status_tracing) :=
  let lp := make_phase low in
  let th := T_high lp in
  let '(ps, lp) := add_traced 0 lp ps in
  let hp := make_phase high in
  let tl := T_low hp in
  let '(ps, hp) := add_traced 1 hp ps in
  if (1 <? length (mins lp))%nat && (1 <? length (mins hp))%nat then
    if tl <? th then
      bind (DoGlobMinOverlap (track 0) (glob 0) lp hp) (fun b => Ok (ps, if b then st else TrNoGlobMinCoverage))
    else Ok (ps, TrNoCoverage)
  else Ok (ps, TrNoMinsAtBoundaries).

(** the constructor Phase(initialT, LowT, HighT, MinTracer) with LowT = T_low and HighT = T_high, 1601-1665; the tracked
    minima are given by [mid] *)
Variable mid : nat -> Z -> list minimum.
Definition mid_phase (k : nat) (T : Z) : outcome phase :=
  if (T =? Tlow) || (T =? Thigh) || ((T <? Thigh) && (Tlow <? T)) || ((T <? Tlow) && (Thigh <? T))
  then Ok (make_phase (mid k T)) else Throw InvalidArgument.

(** the loop of MultiStepPTMode1, 1977-2074: tl and th are tmp_low_highTempPhase and tmp_high_lowTempPhase *)
Fixpoint mode1_loop (fuel k : nat) (tl th : Z) (lp hp : phase) (ps : list phase) (st : status_tracing)
  : outcome (list phase * status_tracing) :=
  match fuel with
  | O => OutOfFuel
  | S f =>
      bind (mid_phase k th) (fun lm =>
      bind (mid_phase (S k) tl) (fun hm =>
      let '(ps, lm) := add_traced k lm ps in
      let '(ps, hm) := add_traced (S k) hm ps in
      if DoPhasesOverlap lp lm && DoPhasesOverlap hp hm then
        if DoPhasesOverlap lm hm then
          bind (DoGlobMinOverlap (track k) (glob k) lp lm) (fun g1 =>
          bind (if g1 then DoGlobMinOverlap (track (S k)) (glob (S k)) hp hm else Ok false) (fun g2 =>
          if g2 then
            bind (DoGlobMinOverlap (track (S (S k))) (glob (S (S k))) lm hm) (fun g3 =>
            Ok (ps, if g3 then st else TrNoGlobMinCoverage))
          else Ok (ps, TrNoGlobMinCoverage)))
        else mode1_loop f (S (S (S k))) (T_low hm) (T_high lm) lm hm ps st
      else Ok (ps, TrNoCoverage)))
  end.
(** MultiStepPTMode1, 1906-2078 *)
Definition MultiStepPTMode1 (fuel : nat) (low high : list minimum) (ps : list phase) (st : status_tracing)
  : outcome (list phase * status_tracing) :=
  let lp := make_phase low in
  let th := T_high lp in
  let '(ps, lp) := add_traced 0 lp ps in
  let hp := make_phase high in
  let tl := T_low hp in
  let '(ps, hp) := add_traced 1 hp ps in
  if DoPhasesOverlap lp hp then
    bind (DoGlobMinOverlap (track 0) (glob 0) lp hp) (fun b => Ok (ps, if b then st else TrNoGlobMinCoverage))
  else mode1_loop fuel 2 (tl - one) (th + one) lp hp ps st.

(** MultiStepPTMode2, 2080-2190.  A TrackPhase call either writes globMinEndT (414, 462, 492) or returns early (368, 441) and
    leaves it alone: None.  The constructor of 1505-1538 tracks upwards first and downwards second, with the same variable. *)
Record traced2 := { t2_mins : list minimum; t2_up : option Z; t2_down : option Z }.
Definition glob_end (before : Z) (t : traced2) : Z :=
  match t2_down t with Some e => e | None => match t2_up t with Some e => e | None => before end end.
Variable mid2 : nat -> Z -> traced2.
(** the list of pairs: the ranges announced by the logger before every search (2123-2126) *)
Fixpoint mode2_loop (fuel k : nat) (tl th : Z) (ps : list phase) : outcome (list phase * list (Z * Z)) :=
  match fuel with
  | O => OutOfFuel
  | S f =>
      if tl <? th then
        let t1 := mid2 k tl in
        let p1 := make_phase (t2_mins t1) in
        let e1 := glob_end tl t1 in
        let '(ps, tl') :=
          if T_low p1 <? T_high p1 then (fst (addPhase (retrack k) (cmp k) ps p1), e1)
          else (ps, if e1 + one <? Thigh then e1 + one else e1) in
        let t2 := mid2 (S k) th in
        let p2 := make_phase (t2_mins t2) in
        let e2 := glob_end th t2 in
        let '(ps, th') :=
          if T_low p2 <? T_high p2 then (fst (addPhase (retrack (S k)) (cmp (S k)) ps p2), e2)
          else (ps, if Tlow + one <? e2 then e2 - one else e2) in
        bind (mode2_loop f (S (S k)) tl' th' ps) (fun r => Ok (fst r, (tl, th) :: snd r))
      else Ok (ps, [])
  end.
(** low2 and high2: tracked minima and what is left in T_low_newglob and T_high_newglob, which are not initialised (2086, 2098);
    reading them unassigned is undefined behaviour *)
Definition MultiStepPTMode2 (fuel : nat) (low2 high2 : list minimum * option Z) (ps : list phase)
  : outcome (list phase * list (Z * Z)) :=
  let lp := make_phase (fst low2) in
  match snd low2 with
  | None => UB
  | Some e1 =>
      let '(ps, lp') := add_traced 0 lp ps in
      let hp := make_phase (fst high2) in
      match snd high2 with
      | None => UB
      | Some e2 =>
          let '(ps, hp') := add_traced 1 hp ps in
          mode2_loop fuel 2 (if e1 <? T_high lp' then e1 else e1 + one) (if T_low hp' <? e2 then e2 else e2 - one) ps
      end
  end.
End Modes.

(** * the constructor of Vacuum, 2268-2421 *)
(** the oracles of one run; the first argument of the shared ones is the stage: 0 the modes -1, 0 and 1 (and 1 within 'auto'),
    1 mode 2, 2 the electroweak minimum and the saved minima, 3 the patching of gaps *)
Record world := {
  w_track : nat -> nat -> minimum -> Z -> list minimum; w_glob : nat -> minimum -> bool; w_near : nat -> nat -> nat -> minimum -> bool;
  w_retrack : nat -> nat -> phase -> list minimum; w_cmp : nat -> nat -> nat -> phase -> phase -> compare_result;
  w_trace : nat -> bool -> Z -> list minimum; w_low : list minimum; w_high : list minimum; w_mid : nat -> Z -> list minimum;
  w_low2 : list minimum * option Z; w_high2 : list minimum * option Z; w_mid2 : nat -> Z -> traced2;
  w_ew : list minimum; w_saved : list (Z * list minimum) (* temperature of the saved minimum and what is tracked from it *);
  w_patch : list phase -> Z -> Z -> phase;
  w_non_bfb : bool; w_ht_vev : bool; w_Tlow : Z; w_Thigh : Z; w_one : Z; w_thr : Z; w_grid : list Z }.
Record vacuum := { v_phases : list phase; v_status : status_tracing; v_coex : bool (* status_coex_pairs == Success *); v_pairs : list coex }.

Section Constructor.
Variable w : world.
Variable fuel : nat.
Definition mode1_of : outcome (list phase * status_tracing) :=
  MultiStepPTMode1 (w_track w 0) (w_glob w) (w_retrack w 0) (w_cmp w 0) (w_Tlow w) (w_Thigh w) (w_one w) (w_mid w) fuel (w_low w) (w_high w) [] TrSuccess.
Definition mode2_of (ps : list phase) : outcome (list phase) :=
  bind (MultiStepPTMode2 (w_retrack w 1) (w_cmp w 1) (w_Tlow w) (w_Thigh w) (w_one w) (w_mid2 w) fuel (w_low2 w) (w_high2 w) ps) (fun r => Ok (fst r)).
(** 2287-2352; true in the third component: the constructor returns at 2309 *)
Definition run_mode (mode : Z) : outcome (list phase * status_tracing * bool) :=
  if mode =? -1 then
    bind (run_multistep (w_track w 0) (w_near w 0) (w_trace w) (w_retrack w 0) (w_cmp w 0) (w_non_bfb w) (w_ht_vev w)
            (w_Tlow w) (w_Thigh w) (w_one w) (w_grid w) fuel)
      (fun r => Ok (fst r, if snd r then TrFailure else TrSuccess, false))
  else if 0 <=? mode then
    if w_non_bfb w then Ok ([], TrFailure, true)
    else if mode =? 0 then
      bind (MultiStepPTMode0 (w_track w 0) (w_glob w) (w_retrack w 0) (w_cmp w 0) (w_low w) (w_high w) [] TrSuccess) (fun r => Ok (r, false))
    else if mode =? 1 then bind mode1_of (fun r => Ok (r, false))
    else if mode =? 2 then bind (mode2_of []) (fun ps => Ok (ps, TrSuccess, false))
    else if mode =? 3 then
      bind mode1_of (fun r =>
      match snd r with
      | TrNoGlobMinCoverage => bind (mode2_of (fst r)) (fun ps => Ok (ps, TrSuccess, false))
      | st => Ok (fst r, st, false)
      end)
    else Ok ([], TrSuccess, false)
  else Ok ([], TrSuccess, false).
(** one minimum that is traced unless it belongs to a known phase, 2355-2367 and 2372-2381 *)
Definition add_minimum (k : nat) (T : Z) (ms : list minimum) (ps : list phase) : outcome (list phase) :=
  bind (MinimumFoundAlready (w_track w 2) (w_near w 2) k ps T) (fun f =>
  if snd f then Ok (fst f) else Ok (fst (addPhase (w_retrack w 2 k) (w_cmp w 2 k) (fst f) (make_phase ms)))).
Fixpoint add_minima (k : nat) (l : list (Z * list minimum)) (ps : list phase) : outcome (list phase) :=
  match l with [] => Ok ps | (T, ms) :: r => bind (add_minimum k T ms ps) (add_minima (S k) r) end.
Definition Vacuum_ctor (mode : Z) (only_tracing : bool) : outcome vacuum :=
  bind (run_mode mode) (fun r =>
  let '(ps, st, stop) := r in
  if stop then Ok {| v_phases := ps; v_status := st; v_coex := false; v_pairs := [] |}
  else
    bind (add_minima 0 ((0, w_ew w) :: w_saved w) ps) (fun ps =>
    let st := match ps with [] => TrFailure | _ => st end in
    if match st with TrSuccess => true | TrNoCoverage => negb (mode =? 0) | _ => false end then
      match setCoexRegion (w_patch w) (w_retrack w 3 0) (w_cmp w 3 0) (mode =? 0) (w_thr w) fuel
              {| r_phases := assign_ids (sort_by_Thigh ps); r_status := st; r_coex := false |} with
      | None => OutOfFuel
      | Some r => Ok {| v_phases := r_phases r; v_status := r_status r; v_coex := r_coex r;
                        v_pairs := if r_coex r && negb only_tracing then setCoexPhases (r_phases r) else [] |}
      end
    else Ok {| v_phases := ps; v_status := st; v_coex := false; v_pairs := [] |})).
End Constructor.
