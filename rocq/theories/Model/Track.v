(** Phase tracking: MinimumTracer::TrackPhase (both overloads) and
    FindZeroSmallestEigenvalue, src/minimum_tracer/minimum_tracer.cpp 147-252, 254-494,
    496-698.

    Temperatures are exact rationals (no rounding, no NaN or infinite inputs).  The points
    in field space, the potential and its Hessian only enter through the tests made on
    them, which an oracle answers for every loop iteration.  [Qred] only normalises the
    representation of a rational. *)
From Verif.Model Require Export Base.
From Coq Require Export QArith Qabs Qround.
Open Scope Q_scope.

Definition Qltb (a b : Q) : bool := negb (Qle_bool b a).

(** What one iteration learns numerically (lines 304-331, 381-394; 545-572, 620-633):
    whether |grad|/dim exceeds the threshold, whether a coordinate is NaN, the distance to
    the previous point, whether the smallest eigenvalue is negative, and the temperature
    FindZeroSmallestEigenvalue returns (its last component, -1 for none). *)
Record probe := { grad_big : bool; has_nan : bool; dist : Q; neg_eig : bool; zero_T : Q }.

Record tstate := { cur : Q; dt : Q; in_min : bool; recs : list Q (* newest first *) }.

(** (finalT - currentT) / dT < 0, IEEE division by a zero dT included, lines 283, 524 *)
Definition wrong_sign (fin c d : Q) : bool :=
  if Qeq_bool d 0 then Qltb fin c else Qltb ((fin - c) / d) 0.
(** (finalT - currentT) / dT >= 0, lines 299, 540: 0/0 is NaN, and after line 286 a zero dT
    has the sign for which x/dT = +inf *)
Definition loop_cond (fin c d : Q) : bool :=
  if Qeq_bool d 0 then negb (Qeq_bool fin c) else Qle_bool 0 ((fin - c) / d).

(** 1e-5, lines 335, 576 *)
Definition min_step : Q := 1 # 100000.

(** dT *= .5 * ThresholdDistance / Distance; if (|initialdT| <= |dT|) dT = initialdT
    (lines 381-383, 459-461; 622-624, 665-667); Distance = 0 gives an infinite dT *)
Definition next_dt (th d0 d ds : Q) : Q :=
  if Qeq_bool ds 0 then d0
  else let d' := Qred (d * ((1 # 2) * th / ds)) in
       if Qle_bool (Qabs d0) (Qabs d') then d0 else d'.

Inductive next := Go (s : tstate) | Halt (l : list Q).

(** the end of the loop body, lines 472-479; 675-682 *)
Definition advance (fin : Q) (s : tstate) : next :=
  if Qeq_bool (cur s) fin then Halt (rev (recs s))
  else if Qltb (Qabs (dt s)) (Qabs (fin - cur s))
       then Go {| cur := Qred (cur s + dt s); dt := dt s; in_min := in_min s; recs := recs s |}
       else Go {| cur := fin; dt := dt s; in_min := in_min s; recs := recs s |}.

(** One iteration, lines 299-480 (540-683).  [th] is ThresholdDistance = dim.  IsInMin = 1
    never survives an iteration, so a boolean (IsInMin == -1) is enough; old_min_is_global
    and globMinEndT (first overload only) do not influence the loop. *)
Definition track_step (unprotected : bool) (th init fin d0 : Q) (p : probe) (s : tstate) : next :=
  if Qltb (Qabs (dt s)) min_step then Halt (rev (recs s))
  else if grad_big p || Qltb th (dist p) || has_nan p then
    if Qeq_bool init (cur s) then Halt (rev (recs s))
    else advance fin {| cur := Qred (cur s - dt s); dt := Qred (dt s / 10);
                        in_min := in_min s; recs := recs s |}
  else if unprotected then
    advance fin {| cur := cur s; dt := next_dt th d0 (dt s) (dist p);
                   in_min := in_min s; recs := cur s :: recs s |}
  else if neg_eig p then
    if in_min s then
      if Qltb 0 (zero_T p) then Halt (rev (zero_T p :: recs s)) else Halt (rev (recs s))
    else Halt (rev (recs s))
  else
    advance fin {| cur := cur s; dt := next_dt th d0 (dt s) (dist p);
                   in_min := true; recs := cur s :: recs s |}.

(** the while loop; [oracle k T dT] is what the k-th iteration finds at temperature T with
    step dT; the result lists the recorded temperatures in order *)
Fixpoint track_loop (unprotected : bool) (th init fin d0 : Q) (oracle : nat -> Q -> Q -> probe)
  (fuel k : nat) (s : tstate) : outcome (list Q) :=
  match fuel with
  | O => OutOfFuel
  | S f =>
      if loop_cond fin (cur s) (dt s) then
        match track_step unprotected th init fin d0 (oracle k (cur s) (dt s)) s with
        | Halt l => Ok l
        | Go s' => track_loop unprotected th init fin d0 oracle f (S k) s'
        end
      else Ok (rev (recs s))
  end.

(** lines 254-298 (496-539) *)
Definition TrackPhase (unprotected : bool) (th : Q) (oracle : nat -> Q -> Q -> probe) (fuel : nat)
  (init fin dT_In : Q) : outcome (list Q) :=
  let d0 := if wrong_sign fin init dT_In then - dT_In else dT_In in
  track_loop unprotected th init fin d0 oracle fuel 0
    {| cur := init; dt := d0; in_min := false; recs := [] |}.

(** * FindZeroSmallestEigenvalue, lines 147-252 *)

(** one bisection step learns: too far from point_1/point_2, ev_1*ev_m > 0, ev_2*ev_m > 0 *)
Record zprobe := { far : bool; like_1 : bool; like_2 : bool }.

(** |T_1/T_2 - 1| > 1e-8, line 208; T_2 = 0: x/0 is infinite, 0/0 NaN *)
Definition zero_wide (T1 T2 : Q) : bool :=
  if Qeq_bool T2 0 then negb (Qeq_bool T1 0)
  else Qltb (1 # 100000000) (Qabs (T1 / T2 - 1)).

(** the loop, lines 208-249; returns CandidateTemperature *)
Fixpoint zero_loop (oracle : nat -> Q -> zprobe) (fuel k : nat) (T1 T2 cand : Q) : outcome Q :=
  match fuel with
  | O => OutOfFuel
  | S f =>
      if zero_wide T1 T2 then
        let Tm := Qred ((T1 + T2) / 2) in
        let z := oracle k Tm in
        let T2' := if far z then Tm else T2 in
        let cand' := if negb (far z) && like_1 z then Tm else cand in
        if like_1 z then zero_loop oracle f (S k) Tm T2' cand'
        else if like_2 z then zero_loop oracle f (S k) T1 Tm cand'
        else Ok cand'
      else Ok cand
  end.

(** [same_sign] is ev_1*ev_2 > 0 (line 192) *)
Definition FindZero (same_sign : bool) (oracle : nat -> Q -> zprobe) (fuel : nat) (T1 T2 : Q) : outcome Q :=
  if same_sign then Ok (-1) else zero_loop oracle fuel 0 T1 T2 T1.
