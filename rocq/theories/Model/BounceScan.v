(** The list of bounce actions and the searches on it:
    src/bounce_solution/bounce_solution.cpp 118-458, 601-797.

    Temperatures and actions are exact rationals.  The solution of one bounce equation
    (BounceActionInt::CalculateAction) and the comparison of the potentials of the two phases
    are oracles; the oracle for the action receives the number of earlier bounce calculations
    so that it may depend on everything computed before (the paths).  [None] is NaN; infinite
    actions are not modelled.  Messages are dropped. *)
From Coq Require Import QArith Qabs Qround.
From Verif.Model Require Import Base.
Open Scope Q_scope.

(** an entry of SolutionList: temperature and action *)
Record sol := { sT : Q; sS : Q }.
(** the list and the number of bounce calculations done so far *)
Record scan := { sols : list sol; calls : nat }.

Definition Qlt_bool (a b : Q) : bool := negb (Qle_bool b a).

(** std::upper_bound by temperature and insert, lines 170-178, 231-239: before the first entry
    with a larger temperature *)
Fixpoint insert (x : sol) (l : list sol) : list sol :=
  match l with
  | [] => [x]
  | y :: r => if Qlt_bool (sT x) (sT y) then x :: l else y :: insert x r
  end.

(** std::min_element with the distance to T, lines 197-200: the first entry of least distance *)
Fixpoint nearest (T : Q) (best : sol) (l : list sol) : sol :=
  match l with
  | [] => best
  | y :: r => nearest T (if Qlt_bool (Qabs (T - sT y)) (Qabs (T - sT best)) then y else best) r
  end.

(** Action / T: [None] if it is not finite *)
Definition ratio (x : sol) : option Q := if Qeq_bool (sT x) 0 then None else Some (sS x / sT x).
(** bc.Action / T > 0, lines 168, 229, 256 *)
Definition good (T : Q) (a : option Q) : bool :=
  match a with
  | None => false
  | Some a => if Qeq_bool T 0 then Qlt_bool 0 a else Qlt_bool 0 (a / T)
  end.

Section Scan.
(** phase_pair.T_low (= Tm), Tc, NumberOfInitialScanTemperatures *)
Variables (Tm Tc : Q) (N : nat).
(** true_phase.Get(T).potential < false_phase.Get(T).potential, lines 138-140, 205-207 *)
Variable viable : Q -> bool.
(** the action found by calculation number n at T, started from the warped path or (false) from
    a straight line *)
Variable action : nat -> Q -> bool -> option Q.

Definition called (s : scan) : scan := {| sols := sols s; calls := S (calls s) |}.
Definition with_sol (s : scan) (f : sol -> list sol) (T : Q) (a : option Q) : scan :=
  match a with
  | Some v => if good T a then {| sols := f {| sT := T; sS := v |}; calls := S (calls s) |} else called s
  | None => called s
  end.

(** CalculateActionAt, lines 187-262 *)
Definition CalculateActionAt (s : scan) (T : Q) (smart : bool) : scan :=
  if Qlt_bool T Tm || Qlt_bool Tc T then s
  else match sols s with
       | [] => with_sol s (fun x => [x]) T (action (calls s) T false)
       | y :: r =>
           if Qlt_bool (Qabs (sT (nearest T y r) - T)) 0.001 then s
           else if negb (viable T) then s
           else with_sol s (fun x => insert x (sols s)) T (action (calls s) T smart)
       end.

(** GWScanTowardsHighAction, lines 338-374.  When an entry has temperature 0 its Action / T is
    infinite and the projected temperature NaN: nothing is added for it and the scan ends.
    Qred only normalises the fraction. *)
Fixpoint GWScanTowardsHighAction (fuel : nat) (i : Z) (s : scan) : outcome scan :=
  match fuel with
  | O => OutOfFuel
  | S fuel' =>
      match rev (sols s) with
      | [] => UB
      | b :: rest =>
          match ratio b with
          | None => Ok s  (* the loop condition compares with minus infinity *)
          | Some s2 =>
              if negb (Qle_bool (inject_Z i) (1 + (200 - s2) / 10)) then Ok s
              else if Qlt_bool 200 s2 then Ok s
              else match rest with
                   | [] => UB
                   | a :: _ =>
                       match ratio a with
                       | None => Ok (called (called s))
                       | Some s1 =>
                           let t1 := sT a in let t2 := sT b in
                           let goal := s2 + 10 in
                           if Qeq_bool s1 s2 then Ok s  (* T is minus infinity *)
                           else
                             let T := Qred (((s1 - goal) * t2 - (s2 - goal) * t1) / (s1 - s2)) in
                             if Qlt_bool T t2 then Ok s
                             else if Qlt_bool Tc T then
                               if Qlt_bool Tc (t2 + (t2 - t1)) then Ok s
                               else
                                 let s' := CalculateActionAt s (t2 + (t2 - t1)) true in
                                 if (length (sols s) =? length (sols s'))%nat then Ok s'
                                 else GWScanTowardsHighAction fuel' i s'
                             else
                               let s' := CalculateActionAt s T true in
                               let s'' := if (length (sols s) =? length (sols s'))%nat
                                          then CalculateActionAt s' T false else s' in
                               if (length (sols s) =? length (sols s''))%nat then Ok s''
                               else GWScanTowardsHighAction fuel' (i + 1) s''
                       end
                   end
          end
      end
  end.

(** GWScanTowardsLowAction, lines 376-413 *)
Fixpoint GWScanTowardsLowAction (fuel : nat) (i : Z) (s : scan) : outcome scan :=
  match fuel with
  | O => OutOfFuel
  | S fuel' =>
      match sols s with
      | [] => UB
      | a :: rest =>
          match ratio a with
          | None =>
              match rest with [] => UB | _ => Ok (called (called s)) end
          | Some s1 =>
              if negb (Qle_bool (inject_Z i) (1 + (s1 - 50) / 10)) then Ok s
              else if Qlt_bool s1 50 then Ok s
              else match rest with
                   | [] => UB
                   | b :: _ =>
                       match ratio b with
                       | None => UB
                       | Some s2 =>
                           let t1 := sT a in let t2 := sT b in
                           let goal := s1 - 10 in
                           if Qeq_bool s1 s2 then Ok s  (* T is plus infinity *)
                           else
                             let T := Qred (((s1 - goal) * t2 - (s2 - goal) * t1) / (s1 - s2)) in
                             if Qlt_bool t1 T then Ok s
                             else if Qlt_bool T Tm then
                               if Qlt_bool (t1 - (t2 - t1)) Tm then Ok s
                               else
                                 let s' := CalculateActionAt s (t1 - (t2 - t1)) true in
                                 if (length (sols s) =? length (sols s'))%nat then Ok s'
                                 else GWScanTowardsLowAction fuel' i s'
                             else
                               let s' := CalculateActionAt s T true in
                               let s'' := if (length (sols s) =? length (sols s'))%nat
                                          then CalculateActionAt s' T false else s' in
                               if (length (sols s) =? length (sols s''))%nat then Ok s''
                               else GWScanTowardsLowAction fuel' (i + 1) s''
                       end
                   end
          end
      end
  end.

(** the new temperatures between two neighbours, lines 297-321 (Qred only normalises the fraction) *)
Definition between_two (a b : sol) : outcome (list Q) :=
  match ratio a, ratio b with
  | Some s1, Some s2 =>
      if Qlt_bool 200 s1 then Ok []
      else if Qlt_bool s2 50 then Ok []
      else
        let n := Qceiling ((s2 - s1) / 20) in
        let dT := (sT b - sT a) / inject_Z n in
        Ok (filter (fun newT =>
              let p := (newT - sT a) * (s2 - s1) / (sT b - sT a) + s1 in
              Qlt_bool p 400 && Qlt_bool 0 p)
            (map (fun k => Qred (sT a + inject_Z (Z.of_nat k) * dT)) (seq 1 (Z.to_nat (n - 1)))))
  | None, _ => Ok []      (* infinite, hence above 200 *)
  | Some _, None => UB    (* infinitely many temperatures *)
  end.
Fixpoint next_temps (l : list sol) : outcome (list Q) :=
  match l with
  | a :: ((b :: _) as r) => bind (between_two a b) (fun x => bind (next_temps r) (fun y => Ok (x ++ y)))
  | _ => Ok []
  end.

(** for (auto j : nextTList) CalculateActionAt(j), lines 323-326 *)
Definition evaluate (s : scan) (Ts : list Q) : scan :=
  fold_left (fun s T => CalculateActionAt s T true) Ts s.

(** the two refinement rounds, lines 291-330 *)
Fixpoint refine (rounds : nat) (s : scan) : outcome scan :=
  match rounds with
  | O => Ok s
  | S r => bind (next_temps (sols s)) (fun Ts =>
             let s' := evaluate s Ts in
             if (length (sols s) =? length (sols s'))%nat then Ok s' else refine r s')
  end.

(** SetBounceSol, lines 415-458: whether the status becomes success *)
Definition SetBounceSol (s : scan) : bool := negb (length (sols s) <? 4)%nat.

(** GWSecondaryScan, lines 264-336; the boolean is "status success" *)
Definition GWSecondaryScan (fuel : nat) (s : scan) : outcome (scan * bool) :=
  match sols s with
  | [] => Ok (s, false)
  | x :: r =>
      let s1 := match r with
                | [] => CalculateActionAt s (sT x - (sT x - Tm) / 10) true
                | _ => s
                end in
      if (length (sols s1) =? 1)%nat then Ok (s1, SetBounceSol s1)
      else
        bind (GWScanTowardsLowAction fuel 0 s1) (fun s2 =>
        bind (GWScanTowardsHighAction fuel 0 s2) (fun s3 =>
        bind (refine 2 s3) (fun s4 =>
        bind (GWScanTowardsLowAction fuel 0 s4) (fun s5 =>
        bind (GWScanTowardsHighAction fuel 0 s5) (fun s6 => Ok (s6, SetBounceSol s6))))))
  end.

(** the temperature loop of GWInitialScan, lines 132-183 *)
Fixpoint initial_loop (fuel : nat) (dT T : Q) (s : scan) : outcome scan :=
  match fuel with
  | O => OutOfFuel
  | S fuel' =>
      if Qlt_bool T (Tm + dT) then Ok s
      else if negb (viable T) then initial_loop fuel' dT (T - dT) s
      else
        let a := action (calls s) T true in
        let s' := with_sol s (fun x => insert x (sols s)) T a in
        match a with
        | Some v => if Qlt_bool 0 v && (if Qeq_bool T 0 then false else Qlt_bool (v / T) 40) then Ok s'
                    else initial_loop fuel' dT (T - dT) s'
        | None => initial_loop fuel' dT (T - dT) s'
        end
  end.

(** GWInitialScan, lines 118-185, as started by the constructor (47-51) with Tc > 0; for N = 0 the
    step is infinite or NaN and the loop is not entered *)
Definition GWInitialScan (fuel : nat) : outcome (scan * bool) :=
  let s0 := {| sols := []; calls := O |} in
  match N with
  | O => GWSecondaryScan fuel s0
  | _ => let dT := (Tc - Tm) / inject_Z (Z.of_nat N) in
         bind (initial_loop fuel dT (Tc - dT) s0) (GWSecondaryScan fuel)
  end.
End Scan.

(** ** Nucleation temperature, lines 601-660 and 662-715 *)

(** comparisons of the condition (tunnelling rate over Hubble rate to the fourth with 1, action
    over temperature with 140) at a temperature; NaN compares false *)
Definition below (g : Q -> option Q) (c T : Q) : bool := match g T with Some v => Qlt_bool v c | None => false end.
Definition above (g : Q -> option Q) (c T : Q) : bool := match g T with Some v => Qlt_bool c v | None => false end.

(** the scan from high temperatures, 609-621 and 670-678; -1 is "not found" *)
Fixpoint bracket (g : Q -> option Q) (c : Q) (Ts : list Q) (up down : Q) : Q * Q :=
  match Ts with
  | [] => (up, down)
  | T :: r =>
      let up' := if Qeq_bool up (-1) && below g c T then T else up in
      let down' := if Qeq_bool down (-1) && above g c T then T else down in
      if Qlt_bool 0 up' && Qlt_bool 0 down' then (up', down') else bracket g c r up' down'
  end.

(** the bisection, 626-645 and 683-701: the returned temperature, if any (Qred only normalises
    the fraction) *)
Fixpoint bisect (g : Q -> option Q) (c : Q) (n : nat) (up down : Q) : option Q :=
  match n with
  | O => None
  | S n' =>
      let mid := Qred ((up + down) / 2) in
      let up' := if below g c mid then mid else up in
      let down' := if below g c mid then down else mid in
      if Qlt_bool (Qabs (up' / down' - 1)) (1 # 10000000000) then Some mid else bisect g c n' up' down'
  end.

(** CalculateNucleationTemp and CalculateNucleationTempApprox with status_bounce_sol = success:
    [Some T] = Success with that temperature, [None] = NotMet.  [Ts] are the temperatures of
    SolutionList. *)
Definition nucleation (g : Q -> option Q) (c : Q) (Ts : list Q) : option Q :=
  let '(up, down) := bracket g c (rev Ts) (-1) (-1) in
  if Qlt_bool 0 up && Qlt_bool 0 down then bisect g c 50 up down else None.

(** ** Temperature at a false vacuum fraction, lines 724-797 *)

(** almost_the_same on doubles with the default num_zero, minimum_tracer.cpp 1428-1438 *)
Definition almost_the_same (a b rel : Q) : bool :=
  if Qlt_bool (Qabs a) (1 # 10000000000) && Qlt_bool (Qabs b) (1 # 10000000000) then true
  else Qlt_bool (Qabs (a - b)) (Qabs (a + b) / 2 * rel).
Definition same_opt (a : Q) (b : option Q) (rel : Q) : bool :=
  match b with Some v => almost_the_same a v rel | None => false end.

(** bounce_solution.h 233-245 *)
Definition RelT : Q := 1 # 100000000.
Definition RelI : Q := 1 # 1000.
Definition Margin : Q := 1 # 10000.

(** the while loop, 756-792; [I] is the integral at a temperature *)
Fixpoint frac_loop (I : Q -> option Q) (target : Q) (fuel : nat) (up down : Q) (cur : option Q) : outcome Q :=
  match fuel with
  | O => OutOfFuel
  | S f =>
      if Qlt_bool (RelT * Margin) (Qabs (up / down - 1)) && negb (same_opt target cur (RelI * Margin)) then
        let mid := Qred ((up + down) / 2) in
        let cur' := I mid in
        let up' := if below I target mid then mid else up in
        let down' := if below I target mid then down else mid in
        if Qlt_bool (Qabs (up' / down' - 1)) RelT && same_opt target cur' RelI then Ok mid
        else frac_loop I target f up' down' cur'
      else Ok (-1)
  end.

(** CalcTempAtFalseVacFraction, 724-797, with [target] = -log(false_vac_frac) *)
Definition CalcTempAtFalseVacFraction (I : Q -> option Q) (target : Q) (fuel : nat) (Ts : list Q) : outcome Q :=
  let '(up, down) := bracket I target (rev Ts) (-1) (-1) in
  if Qlt_bool 0 up && Qlt_bool 0 down then frac_loop I target fuel up down (I (Qred ((up + down) / 2))) else Ok (-1).
