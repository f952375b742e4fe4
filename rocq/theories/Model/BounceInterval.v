(** Preparation of the overshoot-undershoot search: src/bounce_solution/action_calculation.cpp 536-571, 730-779, 795-838,
    class BounceActionInt.  Doubles are real numbers, arithmetic is exact. *)
From Coq Require Import Reals List ZArith Bool.
Import ListNotations.
Open Scope R_scope.

(** the members that are read or written (action_calculation.h 60, 73-93): Initial_lmin, which has no initialiser,
    ExactSolutionThreshold and FractionOfThePathExact *)
Record members := mkMembers { m_lmin : option R; m_threshold : option R; m_fraction : R }.
(** a new object: action_calculation.h 60, 87, 94 and the constructors 16-69 *)
Definition new_members : members := mkMembers None None (/ 10 ^ 4).
(** [Undefined]: a member without a value was read *)
Inductive prepared := Undefined | Ready (m : members).

(** 1001 and 1000 steps *)
Definition thousand : nat := Pos.to_nat 1000.

Section Interval.
  (** Calc_dVdl, Calc_d2Vdl2, V(Spline(.)) and Spline.L *)
  Variables (dV d2V V : R -> R) (L : R).
  (** the rho of ExactSolutionFromMinimum(l) for given Initial_lmin and l0_minus_lmin, and of ExactSolutionLin(l0, l, ...);
      a failure inside of these is left out *)
  Variables (min_rho : R -> R -> R -> R) (lin_rho : R -> R -> R).

  (** 550-556 *)
  Definition probe_error (lmin fraction d : R) : R :=
    let l0 := lmin + d in
    let l := l0 + L * fraction in
    1 / 2 * Rabs ((lin_rho l0 l - min_rho lmin d l) / (lin_rho l0 l + min_rho lmin d l)).
  (** the distance of 550 in round [i] *)
  Definition probe (lmin : R) (i : nat) : R :=
    let final := ln ((L - lmin) / 100) in
    let initial := final - 10 in
    exp (initial + INR i * ((final - initial) / 1000)).
  (** 547-563: MinError and ExactSolutionThreshold *)
  Definition probe_step (lmin fraction : R) (s : R * option R) (i : nat) : R * option R :=
    let d := probe lmin i in
    if Rlt_dec (probe_error lmin fraction d) (fst s) then (probe_error lmin fraction d, Some d) else s.
  Definition probes (lmin fraction : R) (s : R * option R) : R * option R :=
    fold_left (probe_step lmin fraction) (seq 0 (S thousand)) s.
  (** CalculateExactSolutionThreshold(MinError), 536-571; fuel for the call of 569 *)
  Fixpoint CalculateExactSolutionThreshold (fuel : nat) (MinError : R) (m : members) : prepared :=
    match fuel, m_lmin m with
    | S fuel, Some lmin =>
        let '(e, t) := probes lmin (m_fraction m) (MinError, m_threshold m) in
        if Rlt_dec (/ 10 ^ 2) e then
          if Rle_dec (m_fraction m) (/ 10 ^ 4) then Ready (mkMembers (Some lmin) t (m_fraction m))
          else CalculateExactSolutionThreshold fuel e (mkMembers (Some lmin) t (m_fraction m / 10))
        else Ready (mkMembers (Some lmin) t (m_fraction m))
    | _, _ => Undefined
    end.

  (** 741-742, 762-763 *)
  Definition settled (l00 l0 : R) : bool :=
    (if Rlt_dec (Rabs ((l0 - l00) / L)) (/ 10 ^ 8) then true else false) &&
    (if Rlt_dec 0 (d2V l0) then true else false) && (if Rle_dec l0 (L / 100) then true else false).
  (** 736-750; after a division by zero no comparison holds any more *)
  Fixpoint newton (n : nat) (l0 : R) : option R :=
    match n with
    | O => None
    | S n =>
        if Req_EM_T (d2V l0) 0 then None
        else let l := l0 - dV l0 / d2V l0 in
             if settled l0 l then Some l else newton n l
    end.
  (** 757-771 *)
  Fixpoint descend (n : nat) (l0 : R) : option R :=
    match n with
    | O => None
    | S n => let l := l0 - dV l0 / 100 in if settled l0 l then Some l else descend n l
    end.
  (** 746-747, 767-768; 1e100 is the default of MinError (action_calculation.h 527) *)
  Definition accept (l0 : R) (m : members) : prepared :=
    match CalculateExactSolutionThreshold 1 (10 ^ 100) m with
    | Undefined => Undefined
    | Ready m => Ready (mkMembers (Some l0) (m_threshold m) (m_fraction m))
    end.
  (** BackwardsPropagation, 730-779 *)
  Definition BackwardsPropagation (m : members) : prepared :=
    match newton 100 0 with
    | Some l0 => accept l0 m
    | None =>
        match descend thousand 0 with
        | Some l0 => accept l0 m
        | None => Ready (mkMembers (Some (-1 * L / 1000)) None (m_fraction m))
        end
    end.

  (** 821-838: [j] is the value before j++, [n] the number of rounds left *)
  Fixpoint upper (n j : nat) (lmin lmax : R) : R :=
    match n with
    | O => lmax
    | S n =>
        let j := S j in
        if Rlt_dec 0 (V (lmin + (L - lmin) * INR j / 1000)) then lmin + (L - lmin) * INR j / 1000
        else if Rlt_dec (dV ((L - lmin) * INR j / 1000)) 0 then lmin + (L - lmin) * INR j / 1000
        else upper n j lmin lmax
    end.
  (** lmax of Solve1DBounce when the search starts, 799, 819-838 *)
  Definition search_end (lmin : R) : R := upper thousand 0 lmin L.
End Interval.
