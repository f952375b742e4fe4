(** Minimiser layer: src/minimizer/Minimizer.cpp, src/minimizer/MinimizeGSL.cpp.
    The numerical minimisers themselves (GSL Nelder-Mead, CMA-ES, NLopt) are oracles; finite doubles are
    rationals, NaN is [None]; the arithmetic on temperatures is exact. *)
From Coq Require Import QArith Qabs.
From Verif.Model Require Import Base.
Local Open Scope Z_scope.

(** ** Selection code *)

(** MinimizersToUse, Minimizer.h 72-83 *)
Record minimizers := { useCMAES : bool; useGSL : bool; useNLopt : bool }.

Definition b2z (b : bool) : Z := if b then 1 else 0.
(** CalcWhichMinimizer, Minimizer.h 61-67 *)
Definition CalcWhichMinimizer (gsl cmaes nlopt : bool) : Z := b2z cmaes + 2 * b2z gsl + 4 * b2z nlopt.
(** GetMinimizers, Minimizer.cpp 64-81; [haveCMAES]/[haveNLopt] are the build options libcmaes_FOUND and
    NLopt_FOUND; C++ int division and remainder truncate *)
Definition GetMinimizers (haveCMAES haveNLopt : bool) (w : Z) : minimizers :=
  let c := negb (Z.rem w 2 =? 0) in
  let w1 := Z.quot w 2 in
  let g := negb (Z.rem w1 2 =? 0) in
  let w2 := Z.quot w1 2 in
  let n := negb (Z.rem w2 2 =? 0) in
  {| useCMAES := c && haveCMAES; useGSL := g; useNLopt := n && haveNLopt |}.

(** ** Global minimisation *)
Local Open Scope Q_scope.

Definition vec := list Q.

(** the C++ comparison a < b on doubles with NaN *)
Definition dlt (a b : option Q) : bool :=
  match a, b with Some x, Some y => negb (Qle_bool y x) | _, _ => false end.

(** what the enabled algorithms deliver at the given temperature *)
Record candidates := {
  c_nlopt : option (vec * option Q);     (* NLOPTResult if Success: Minimum and PotVal *)
  c_cmaes : vec * Z;                     (* LibCMAESReturn: result, CMAESStatus *)
  c_gsl : option vec                     (* GSL_Minimize_gen_all: pair(solution, success) *)
}.

(** the model class as seen by the minimiser *)
Record potential := {
  p_nVEV : nat;
  p_V : vec -> option Q;                 (* VEff(MinimizeOrderVEV(.), Temp) *)
  p_EW : vec -> option Q;                (* EWSBVEV(MinimizeOrderVEV(.)) *)
  p_zero : vec -> vec                    (* SetEWVEVZero *)
}.

Definition origin (P : potential) : vec := repeat 0 (p_nVEV P).

(** index of the smallest value, Minimizer.cpp 252-256 *)
Fixpoint min_index_from (vals : list (option Q)) (i best : nat) (all : list (option Q)) : nat :=
  match vals with
  | [] => best
  | v :: r => min_index_from r (S i) (if dlt v (nth best all None) then i else best) all
  end.
Definition min_index (vals : list (option Q)) : nat := min_index_from (tl vals) 1 0 vals.

(** the candidate list in the order of the push_backs, Minimizer.cpp 96-102, 202-206, 214-222, 239-243.
    The CMA-ES candidate is stored inside the block that joins the thread. *)
Definition candidate_list (haveCMAES haveNLopt : bool) (P : potential) (w : Z) (mt : bool) (C : candidates)
  : list (vec * option Q) :=
  let u0 := GetMinimizers haveCMAES haveNLopt w in
  let small := Nat.leb (p_nVEV P) 2 in
  let cm := useCMAES u0 && negb small in
  let gs := useGSL u0 || small in
  [(origin P, p_V P (origin P))]
  ++ (if useNLopt u0 then match c_nlopt C with Some c => [c] | None => [] end else [])
  ++ (if mt && cm then [(fst (c_cmaes C), p_V P (fst (c_cmaes C)))] else [])
  ++ (if gs then match c_gsl C with Some v => [(v, p_V P v)] | None => [] end else []).

(** Minimize_gen_all, Minimizer.cpp 83-269: the returned vector *)
Definition Minimize_gen_all (haveCMAES haveNLopt : bool) (P : potential) (w : Z) (mt : bool) (C : candidates) : vec :=
  let l := candidate_list haveCMAES haveNLopt P w mt C in
  let sol := fst (nth (min_index (map snd l)) l ([], None)) in
  match p_EW P sol with
  | Some e => if Qle_bool e (1 # 2) then p_zero P sol else sol
  | None => sol
  end.

(** ** Critical temperature by bisection: PTFinder_gen_all, Minimizer.cpp 271-405 *)

Inductive mstatus := SUCCESS | NOTVANISHINGATFINALTEMP | NOTNLOSTABLE | NLOVEVZEROORINF | NUMERICALLYUNSTABLE | BELOWTHRESHOLD.
Record ewpt := { e_status : mstatus; e_vc : Q; e_Tc : Q; e_min : vec }.

(** C_threshold and C_PT, ClassPotentialOrigin.h 32-37; Distance, Minimizer.cpp 287 *)
Definition C_threshold : Q := 1 # 10000.
Definition C_PT : Q := 0.
Definition Distance : Q := 1 # 100.

Section PT.
  (** Minimize_gen_all as a function of temperature and starting point; EWSBVEV of its result;
      CheckNLOVEV; finite values only.  Vectors returned by the minimiser have length nVEV. *)
  Variable minim : Q -> vec -> vec.
  Variable ew : vec -> Q.
  Variable stable : vec -> bool.
  Variable dim : nat.
  Variable tree : vec.

  Record ptstate := { s_TA : Q; s_TE : Q; s_start : vec; s_pv : Q; s_psol : vec }.

  (** the do-while loop, lines 348-395 *)
  Fixpoint pt_loop (fuel : nat) (s : ptstate) : outcome ewpt :=
    match fuel with
    | O => OutOfFuel
    | S fuel =>
      let TM := Qred ((1 # 2) * (s_TA s + s_TE s)) in
      let sol := minim TM (s_start s) in
      let v := ew sol in
      if Qle_bool 255 v then Ok {| e_status := NUMERICALLYUNSTABLE; e_vc := v; e_Tc := TM; e_min := sol |}
      else if negb (Qeq_bool v 0) && negb (Qle_bool C_PT (v / TM)) then
        Ok {| e_status := BELOWTHRESHOLD; e_vc := v; e_Tc := TM; e_min := sol |}
      else
        let s' := if Qle_bool Distance v
                  then {| s_TA := TM; s_TE := s_TE s; s_start := sol; s_pv := v; s_psol := sol |}
                  else {| s_TA := s_TA s; s_TE := TM; s_start := s_start s; s_pv := s_pv s; s_psol := s_psol s |} in
        if negb (Qle_bool (Qabs (s_TE s' - s_TA s')) Distance) then pt_loop fuel s'
        else Ok {| e_status := SUCCESS; e_vc := s_pv s'; e_Tc := s_TA s'; e_min := s_psol s' |}
    end.

  Definition PTFinder (fuel : nat) (TempStart TempEnd : Q) : outcome ewpt :=
    let solEnd := minim TempEnd tree in
    let vEnd := ew solEnd in
    if negb (Qle_bool vEnd C_threshold) then
      Ok {| e_status := NOTVANISHINGATFINALTEMP; e_vc := vEnd; e_Tc := TempEnd; e_min := solEnd |}
    else
      let solStart := minim TempStart tree in
      let vStart := ew solStart in
      if Qle_bool vStart C_threshold || Qle_bool 255 vStart then
        Ok {| e_status := NLOVEVZEROORINF; e_vc := 0; e_Tc := TempEnd; e_min := repeat 0 dim |}
      else if negb (stable solStart) && Qeq_bool TempStart 0 then
        Ok {| e_status := NOTNLOSTABLE; e_vc := vStart; e_Tc := TempEnd; e_min := solStart |}
      else pt_loop fuel {| s_TA := TempStart; s_TE := TempEnd; s_start := tree; s_pv := 0; s_psol := repeat 0 dim |}.
End PT.

(** ** Tracing local minima: MinimaDevelopmentWithTemperature, Minimizer.cpp 490-569 *)

(** StoppingCriteria, 533-546; for step 0 the tolerance is infinite (true) or, for equal temperatures,
    NaN (false) *)
Definition go_on (start final step T : Q) : bool :=
  if Qeq_bool step 0 then negb (Qeq_bool start final)
  else
    let eps := Qabs ((final - start) / step) * (1 # 100) in
    if negb (Qle_bool final start) then negb (Qle_bool (final + eps) T)
    else negb (Qle_bool T (final - eps)).

Section Dev.
  (** FindNextLocalMinima at a temperature from a point *)
  Variable next : Q -> vec -> list vec.
  Definition track := list (Q * vec).

  Definition extend (T : Q) (p : track) : list track :=
    map (fun nm => p ++ [(T, nm)]) (next T (snd (last p (0, [])))).
  (** the loop over the temperatures, 547-566, returning the final tracks and the temperatures used *)
  Fixpoint dev_loop (fuel : nat) (start final step T : Q) (res : list track) : outcome (list track * list Q) :=
    match fuel with
    | O => OutOfFuel
    | S fuel =>
      if go_on start final step T then
        match dev_loop fuel start final step (Qred (T + step)) (flat_map (extend T) res) with
        | Ok (r, ts) => Ok (r, T :: ts)
        | o => o
        end
      else Ok (res, [])
    end.
  Definition MinimaDevelopment (fuel : nat) (start final step : Q) (points : list vec) : outcome (list track * list Q) :=
    let res := flat_map (fun p => map (fun m => [(start, m)]) (next start p)) points in
    dev_loop fuel start final step (Qred (start + step)) res.
End Dev.

(** ** Worker threads: GSL_Minimize_gen_all, MinimizeGSL.cpp 192-264 *)

(** program counter of one worker, lines 205-230: about to test the loop condition, about to take the
    lock and pop, minimising from a starting point, finished *)
Inductive wpc := WCheck | WPop | WWork (p : nat) | WDone.
(** [w_queue] are the identifiers of the remaining starting points, [w_found] the atomic counter,
    [w_results] the starting points whose minimisation was pushed to the results *)
Record wstate := { w_queue : list nat; w_found : nat; w_results : list nat; w_threads : list wpc; w_ub : bool }.

Definition set_nth {A} (l : list A) (i : nat) (a : A) : list A := firstn i l ++ a :: skipn (S i) l.

(** one atomic action of thread i; the loop test is not under the lock (line 205), the block 208-216 and
    the block 220-229 are.  [good p] says whether the minimisation from p succeeds.  Reads of the queue
    concurrent with writes are taken to be atomic. *)
Definition wstep (good : nat -> bool) (max : nat) (i : nat) (s : wstate) : wstate :=
  match nth_error (w_threads s) i with
  | Some WCheck =>
      let pc := if Nat.ltb (w_found s) max && negb (match w_queue s with [] => true | _ => false end) then WPop else WDone in
      {| w_queue := w_queue s; w_found := w_found s; w_results := w_results s; w_threads := set_nth (w_threads s) i pc; w_ub := w_ub s |}
  | Some WPop =>
      match w_queue s with
      | [] => {| w_queue := []; w_found := w_found s; w_results := w_results s; w_threads := w_threads s; w_ub := true |}
      | p :: q => {| w_queue := q; w_found := w_found s; w_results := w_results s; w_threads := set_nth (w_threads s) i (WWork p); w_ub := w_ub s |}
      end
  | Some (WWork p) =>
      if good p
      then {| w_queue := w_queue s; w_found := S (w_found s); w_results := w_results s ++ [p]; w_threads := set_nth (w_threads s) i WCheck; w_ub := w_ub s |}
      else {| w_queue := w_queue s; w_found := w_found s; w_results := w_results s; w_threads := set_nth (w_threads s) i WCheck; w_ub := w_ub s |}
  | _ => s
  end.
Definition winit (n : nat) (starts : list nat) : wstate :=
  {| w_queue := starts; w_found := 0; w_results := []; w_threads := repeat WCheck n; w_ub := false |}.
(** a schedule is the list of threads that move *)
Definition wrun (good : nat -> bool) (max : nat) (sched : list nat) (s : wstate) : wstate :=
  fold_left (fun s i => wstep good max i s) sched s.

(** selection of the best local minimum, MinimizeGSL.cpp 295-304: the last one among equals;
    a NaN first value is never replaced, a NaN later one never chosen *)
Definition dle (a b : option Q) : bool := match a, b with Some x, Some y => Qle_bool x y | _, _ => false end.
Definition best_last (rows : list (vec * option Q)) : option (vec * option Q) :=
  match rows with
  | [] => None
  | r :: rest => Some (fold_left (fun b c => if dle (snd c) (snd b) then c else b) rest r)
  end.
