(** Phases and the phase list: src/minimum_tracer/minimum_tracer.cpp,
    include/BSMPT/minimum_tracer/minimum_tracer.h.

    Temperatures here are only compared, so a finite double is represented by a
    [Z] (its value in units of 2^-1074, order and equality are exact). *)
From Verif.Model Require Import Base.
Open Scope Z_scope.

(** struct Minimum, minimum_tracer.h 252-261.  [tag] stands for point, potential
    and is_glob_min, which the code below only copies. *)
Record minimum := { temp : Z; tag : nat; edge : Z }.
Definition set_edge (m : minimum) (e : Z) : minimum :=
  {| temp := temp m; tag := tag m; edge := e |}.

(** struct Phase, minimum_tracer.h 605-651 (the pointer to the tracer is dropped). *)
Record phase := { pid : Z; T_low : Z; T_high : Z; mins : list minimum }.
Definition empty_phase : phase := {| pid := 0; T_low := 0; T_high := 0; mins := [] |}.

(** the search loop for a place between two neighbours, minimum_tracer.cpp 1747-1755 *)
Fixpoint insert_mid (m : minimum) (l : list minimum) : option (list minimum) :=
  match l with
  | a :: ((b :: _) as t) =>
      if (temp a <? temp m) && (temp m <? temp b) then Some (a :: m :: t)
      else match insert_mid m t with Some t' => Some (a :: t') | None => None end
  | _ => None
  end.

(** MinimumPhaseVector.back().EdgeOfPhase = 0 (line 1758) *)
Fixpoint clear_last (l : list minimum) : list minimum :=
  match l with
  | [] => []
  | [a] => [set_edge a 0]
  | a :: t => a :: clear_last t
  end.

(** Phase::Add, minimum_tracer.cpp 1719-1765. *)
Definition Add (p : phase) (m : minimum) : phase :=
  if existsb (fun x => temp m =? temp x) (mins p) then p
  else match mins p with
       | [] => {| pid := pid p; T_low := T_low p; T_high := T_high p; mins := [m] |}
       | a :: t =>
           if temp m <? temp a then
             {| pid := pid p; T_low := temp m; T_high := T_high p;
                mins := set_edge m (-1) :: set_edge a 0 :: t |}
           else match insert_mid m (a :: t) with
                | Some l => {| pid := pid p; T_low := T_low p; T_high := T_high p; mins := l |}
                | None => {| pid := pid p; T_low := T_low p; T_high := temp m;
                             mins := clear_last (a :: t) ++ [set_edge m 1] |}
                end
       end.

Definition AddAll (p : phase) (ms : list minimum) : phase := fold_left Add ms p.

(** the end of every constructor: T_low = front().temp; T_high = back().temp unless the
    list is empty, minimum_tracer.cpp 1496-1503, 1534-1537, 1556-1563, 1591-1594, 1660-1664 *)
Definition fix_range (p : phase) : phase :=
  match mins p with
  | [] => p
  | a :: t => {| pid := pid p; T_low := temp a; T_high := temp (last (a :: t) a); mins := a :: t |}
  end.

(** The five tracing constructors, minimum_tracer.cpp 1478-1665: the tracked minima (the
    results of one or two TrackPhase calls, concatenated) are added to an empty phase. *)
Definition make_phase (tracked : list minimum) : phase := fix_range (AddAll empty_phase tracked).

(** closest stored minimum, first one on ties, minimum_tracer.cpp 1676-1688 (all
    distances are assumed below the initial error 1e100) *)
Fixpoint closest (T : Z) (best : minimum) (l : list minimum) : minimum :=
  match l with
  | [] => best
  | m :: l' => closest T (if Z.abs (T - temp m) <? Z.abs (T - temp best) then m else best) l'
  end.

(** Phase::Get, minimum_tracer.cpp 1667-1717; [track start T] is what TrackPhase returns.
    An empty phase uses an uninitialised Minimum and a null tracer: undefined behaviour. *)
Definition Get (track : minimum -> Z -> list minimum) (p : phase) (T : Z) : outcome (phase * minimum) :=
  match mins p with
  | [] => UB
  | a :: t =>
      let best := closest T a t in
      if Z.abs (T - temp best) =? 0 then Ok (p, best)
      else match track best T with
           | [] => Ok (p, best)
           | m :: ms => Ok (AddAll p (m :: ms), last (m :: ms) m)
           end
  end.

(** * The vacuum's phase list *)

(** What the numerical part contributes to one comparison of addPhase with an existing
    phase (lines 2716-2741): the minima that the eleven Get calls add to the existing
    and to the new phase, and whether max_distance < 1. *)
Record compare_result := { ext_existing : list minimum; ext_new : list minimum; coincide : bool }.

(** loop over the existing phases, minimum_tracer.cpp 2716-2763; returns the updated
    list, the updated new phase and whether it was merged *)
Fixpoint compare_loop (cmp : nat -> phase -> phase -> compare_result) (i : nat)
  (ps : list phase) (p : phase) : list phase * phase * bool :=
  match ps with
  | [] => ([], p, false)
  | q :: rest =>
      if Z.min (T_high q) (T_high p) <=? Z.max (T_low q) (T_low p) then
        let '(rest', p', b) := compare_loop cmp (S i) rest p in (q :: rest', p', b)
      else
        let r := cmp i q p in
        let q1 := AddAll q (ext_existing r) in
        let p1 := AddAll p (ext_new r) in
        if coincide r then (AddAll q1 (mins p1) :: rest, p1, true)
        else let '(rest', p', b) := compare_loop cmp (S i) rest p1 in (q1 :: rest', p', b)
  end.

(** front().EdgeOfPhase = -1; back().EdgeOfPhase = 1, lines 2766-2771 *)
Fixpoint mark_last (l : list minimum) : list minimum :=
  match l with
  | [] => []
  | [a] => [set_edge a 1]
  | a :: t => a :: mark_last t
  end.
Definition mark_edges (p : phase) : phase :=
  {| pid := pid p; T_low := T_low p; T_high := T_high p;
     mins := mark_last (match mins p with [] => [] | a :: t => set_edge a (-1) :: t end) |}.

(** Vacuum::addPhase, minimum_tracer.cpp 2684-2774; [retrack] is the result of the extra
    TrackPhase call for a phase with exactly two minima.  The phase is passed by
    reference, so the possibly extended phase is returned as well. *)
Definition addPhase (retrack : phase -> list minimum)
  (cmp : nat -> phase -> phase -> compare_result) (ps : list phase) (p : phase)
  : list phase * phase :=
  if (length (mins p) <=? 1)%nat then (ps, p)
  else
    let go p0 :=
      let '(ps', p', merged) := compare_loop cmp 0 ps p0 in
      if merged then (ps', p') else (ps' ++ [mark_edges p'], mark_edges p') in
    if (length (mins p) =? 2)%nat then
      match retrack p with
      | [] => (ps, p)
      | ms => go (AddAll p ms)
      end
    else go p.

(** DoPhasesOverlap, minimum_tracer.cpp 1848-1861 *)
Definition DoPhasesOverlap (new old : phase) : bool :=
  (T_low old <=? T_high new) && (T_low new <=? T_high old).

(** DoGlobMinOverlap, minimum_tracer.cpp 1863-1904: which phase is asked for which
    temperature; both phase_high and phase_low stay default constructed (empty) when
    neither branch is taken, and Get on an empty phase is undefined behaviour.
    [glob] is IsGlobMin's verdict. *)
Definition DoGlobMinOverlap (track : minimum -> Z -> list minimum) (glob : minimum -> bool)
  (new old : phase) : outcome bool :=
  if (1 <? length (mins new))%nat && (1 <? length (mins old))%nat then
    if (T_low old <=? T_high new) && (T_low new <=? T_high old) then
      let '(hi, lo) :=
        if T_high old <=? T_high new then (new, old)
        else if T_low new <=? T_low old then (old, new)
        else (empty_phase, empty_phase) in
      bind (Get track hi (T_high lo)) (fun r1 =>
      bind (Get track lo (T_low (fst r1))) (fun r2 =>
      Ok (glob (snd r1) && glob (snd r2))))
    else Ok false
  else Ok true.

(** Insertion sort standing for std::sort by descending T_high, lines 2392-2394.  std::sort
    is not stable; theorems only use that the result is a permutation and ordered. *)
Fixpoint insert_by_Thigh (p : phase) (l : list phase) : list phase :=
  match l with
  | [] => [p]
  | q :: r => if T_high q <? T_high p then p :: l else q :: insert_by_Thigh p r
  end.
Definition sort_by_Thigh (l : list phase) : list phase := fold_right insert_by_Thigh [] l.

(** PhasesList[i].id = i, lines 2397-2400 *)
Fixpoint assign_ids_from (i : Z) (l : list phase) : list phase :=
  match l with
  | [] => []
  | p :: r => {| pid := i; T_low := T_low p; T_high := T_high p; mins := mins p |}
              :: assign_ids_from (i + 1) r
  end.
Definition assign_ids := assign_ids_from 0.

(** struct CoexPhases, minimum_tracer.h 734-762 (critical temperature: see Model/Tc.v) *)
Record coex := { pair_id : Z; false_phase : phase; true_phase : phase; c_low : Z; c_high : Z }.

(** Vacuum::setCoexPhases, minimum_tracer.cpp 2527-2562 *)
Fixpoint coex_inner (f : phase) (rest : list phase) (n : Z) : list coex * Z :=
  match rest with
  | [] => ([], n)
  | t :: r =>
      if (T_low f <=? T_high t) && (T_low t <=? T_high f) then
        let c := {| pair_id := n; false_phase := f; true_phase := t;
                    c_low := Z.max (T_low f) (T_low t); c_high := Z.min (T_high f) (T_high t) |} in
        let '(l, n') := coex_inner f r (n + 1) in (c :: l, n')
      else coex_inner f r n
  end.
Fixpoint coex_outer (ps : list phase) (n : Z) : list coex :=
  match ps with
  | [] => []
  | f :: r => let '(l, n') := coex_inner f r n in l ++ coex_outer r n'
  end.
Definition setCoexPhases (ps : list phase) : list coex := coex_outer ps 0.

(** * setCoexRegion, minimum_tracer.cpp 2564-2682 *)

(** edgesList: front and back of every phase (lines 2573-2577); a stored phase has at
    least two minima; front()/back() of an empty vector is undefined, here skipped
    because addPhase never stores such a phase (theorem C17) *)
Definition edges (ps : list phase) : list minimum :=
  flat_map (fun p => match mins p with [] => [] | a :: t => [a; last (a :: t) a] end) ps.

(** tempList sorted descending without duplicates, lines 2579-2586 *)
Fixpoint insert_desc (x : Z) (l : list Z) : list Z :=
  match l with
  | [] => [x]
  | y :: r => if x =? y then l else if y <? x then x :: l else y :: insert_desc x r
  end.
Definition temp_list (es : list minimum) : list Z := fold_right insert_desc [] (map temp es).

(** edges at one temperature summed, lines 2591-2597 *)
Definition edge_sum (es : list minimum) (t : Z) : Z :=
  fold_right Z.add 0 (map (fun e => if temp e =? t then edge e else 0) es).

(** edgesListResult: running sums, lines 2589-2604 *)
Fixpoint running (es : list minimum) (ts : list Z) (acc : Z) : list (Z * Z) :=
  match ts with
  | [] => []
  | t :: r => let a := acc + edge_sum es t in (t, a) :: running es r a
  end.
Definition edge_counts (ps : list phase) : list (Z * Z) := running (edges ps) (temp_list (edges ps)) 0.

(** StatusTracing / StatusCoexPair, minimum_tracer.h *)
Inductive status_tracing := TrSuccess | TrNoCoverage | TrNoMinsAtBoundaries | TrNoGlobMinCoverage | TrFailure.
Definition is_NoCoverage (s : status_tracing) : bool := match s with TrNoCoverage => true | _ => false end.

(** State threaded through setCoexRegion: phase list, tracing status, coexistence found *)
Record region_state := { r_phases : list phase; r_status : status_tracing; r_coex : bool }.

(** One patch attempt for the gap (low, high), lines 2643-2664: [patch ps low high] is the
    traced inter_phase (already fix_range'd by its constructor; its id is the default 0). *)
Section Region.
Variable patch : list phase -> Z -> Z -> phase.
Variable retrack : phase -> list minimum.
Variable cmp : nat -> phase -> phase -> compare_result.
Variable mode0 : bool.      (* UseMultiStepPTMode == 0 *)
Variable threshold : Z.     (* 1e-6 GeV in units of the temperature representation *)

(** loop over consecutive entries of edgesListResult, lines 2624-2673; [None] = recursion
    deeper than the fuel *)
Fixpoint region_loop (recurse : region_state -> option region_state)
  (es : list (Z * Z)) (no_gap : bool) (st : region_state) : option (region_state * bool) :=
  match es with
  | (th, n) :: (((tl, _) :: _) as rest) =>
      if 1 <? n then
        region_loop recurse rest no_gap
          {| r_phases := r_phases st; r_status := r_status st; r_coex := true |}
      else if n <=? 0 then
        if tl + threshold <? th then
          let st1 := {| r_phases := r_phases st; r_status := TrNoCoverage; r_coex := r_coex st |} in
          if mode0 then region_loop recurse rest false st1
          else
            let '(ps', ip) := addPhase retrack cmp (r_phases st1) (patch (r_phases st1) tl th) in
            let st2 := {| r_phases := ps';
                          r_status := r_status st1; r_coex := r_coex st1 |} in
            if (2 <? length (mins ip))%nat then
              match recurse {| r_phases := r_phases st2; r_status := TrSuccess; r_coex := r_coex st2 |} with
              | None => None
              | Some st3 => region_loop recurse rest false st3
              end
            else region_loop recurse rest false st2
        else region_loop recurse rest false
               {| r_phases := r_phases st; r_status := TrNoCoverage; r_coex := r_coex st |}
      else region_loop recurse rest no_gap st
  | _ => Some (st, no_gap)
  end.

Fixpoint setCoexRegion (fuel : nat) (st : region_state) : option region_state :=
  match fuel with
  | O => None
  | S f =>
      match r_phases st with
      | [] => Some st
      | ps =>
          match region_loop (setCoexRegion f) (edge_counts ps) true st with
          | None => None
          | Some (st', no_gap) =>
              if no_gap && is_NoCoverage (r_status st')
              then Some {| r_phases := r_phases st'; r_status := TrNoGlobMinCoverage; r_coex := r_coex st' |}
              else Some st'
          end
      end
  end.
End Region.
