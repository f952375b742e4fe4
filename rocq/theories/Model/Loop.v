(** One-loop mass functions: src/models/ClassPotentialOrigin.cpp 80-168, 288-387, 859-884.
    Doubles are real numbers; [None] is NaN (the logarithm of a negative number). *)
From Coq Require Import Reals ZArith.
From Verif.Model Require Import Base.
Open Scope R_scope.

(** C_threshold and the constants of the Coleman-Weinberg terms, ClassPotentialOrigin.h 37-49 *)
Definition CW_threshold : R := 1 / 10000.
Definition C_CWcbFermion : R := 3 / 2.

Section Scale.
  Variable scale : R.   (* renormalisation scale, positive *)

  (** FCW, 80-93, finite argument; Boarder is 1e-200 *)
  Definition FCW (m : R) : R :=
    let x := if Rlt_dec (Rabs m) (/ 10 ^ 200) then / 10 ^ 200 else Rabs m in
    ln x - 2 * ln scale.
  (** CWTerm, 95-110; for negative diff the result is 0 *)
  Definition CWTerm (m cb : R) (diff : Z) : R :=
    if Rlt_dec (Rabs m) CW_threshold then 0
    else
      let L := FCW m in
      if Z.eqb diff 0 then 1 / (64 * PI * PI) * m * m * (L - cb)
      else if Z.ltb 0 diff then 1 / (32 * PI * PI) * m * (L - cb + 1 / 2)
      else 0.

  (** boson, 112-140.  [JI] is ThermalFunctions::JbosonInterpolated with diff = 0, [JN] is
      JbosonNumericalIntegration. *)
  Section Thermal.
    Variable JI : R -> R.
    Variable JN : R -> Z -> R.
    Definition boson (m T cb : R) (diff : Z) : R :=
      let res := if Z.leb 0 diff then CWTerm (Rabs m) cb diff else 0 in
      if Req_EM_T T 0 then res
      else
        let ratio := m / T ^ 2 in
        if Z.eqb diff 0 then res + T ^ 4 / (2 * PI ^ 2) * JI ratio
        else if Z.eqb diff 1 then res + T ^ 2 / (2 * PI ^ 2) * JN ratio 1
        else if Z.eqb diff (-1) then res + 1 / (2 * PI ^ 2) * (4 * T ^ 3 * JN ratio 0 - 2 * T * m * JN ratio 1)
        else res.
    (** fermion, 142-168: the same with the fermionic functions and cb = C_CWcbFermion.  The division by
        a vanishing temperature before the test (147) has no effect. *)
    Definition fermion (m T : R) (diff : Z) : R := boson m T C_CWcbFermion diff.
  End Thermal.

  (** std::log; the argument 0 does not occur *)
  Definition lnopt (x : R) : option R := if Rlt_dec 0 x then Some (ln x) else None.
  (** LogA etc.: 0 for a vanishing mass, 305-307, 863-870 *)
  Definition LogM (m : R) : option R :=
    if Req_EM_T m 0 then Some 0 else option_map (fun l => l - 2 * ln scale) (lnopt m).
  Definition lift2 (f : R -> R -> R) (a b : option R) : option R :=
    match a, b with Some x, Some y => Some (f x y) | _, _ => None end.

  (** fbase, 859-884; ZB is 1e-5 *)
  Definition fbase (A B : R) : option R :=
    if Req_EM_T A 0 then
      (if Req_EM_T B 0 then Some 1
       else if Rlt_dec (1 / 100000) (Rabs (A - B)) then LogM B
       else Some (1 + 0))
    else if Rlt_dec (1 / 100000) (Rabs (A - B)) then
      (if Req_EM_T B 0 then LogM A
       else lift2 (fun LA LB => (LA * A - LB * B) / (A - B)) (LogM A) (LogM B))
    else option_map (fun LA => 1 + LA) (LogM A).

  (** fbaseTri, 288-387; Thres is 1e-8.  A result that is not a number raises a runtime_error.  The
      branches are numbered as by the variable C of the program. *)
  Definition Thres : R := 1 / 100000000.
  Definition snap0 (m : R) : R := if Rlt_dec (Rabs m) Thres then 0 else m.
  Definition snap (a b : R) : R := if Rlt_dec (Rabs (a - b)) Thres then b else a.
  Definition is0 (m : R) : bool := if Req_EM_T m 0 then true else false.
  Definition eqb (a b : R) : bool := if Req_EM_T a b then true else false.
  Definition tri_branch (a b c : R) : option R :=
    if is0 a && is0 b && is0 c then Some 0
    else if negb (is0 a) && is0 b && is0 c then (* 2 *) option_map (fun L => 1 / a * (L - 1)) (LogM a)
    else if is0 a && negb (is0 b) && is0 c then (* 3 *) option_map (fun L => (L - 1) / b) (LogM b)
    else if is0 a && is0 b && negb (is0 c) then (* 4 *) option_map (fun L => (L - 1) / c) (LogM c)
    else if eqb a b && negb (is0 a) && negb (eqb a c) && negb (is0 c) then (* 6 *)
      option_map (fun l => (b - c + c * l) / (b - c) ^ 2) (lnopt (c / b))
    else if eqb a c && negb (is0 a) && negb (eqb a b) && negb (is0 b) then (* 7 *)
      option_map (fun l => (b * l - b + c) / (b - c) ^ 2) (lnopt (b / c))
    else if eqb b c && negb (is0 a) && negb (eqb b a) && negb (is0 b) then (* 8 *)
      option_map (fun l => (a * l - a + c) / (a - c) ^ 2) (lnopt (a / c))
    else if eqb a b && eqb a c && negb (is0 a) then (* 9 *) Some (1 / (2 * c))
    else if eqb a b && negb (eqb a c) && negb (is0 a) && is0 c then (* 10 *) Some (1 / b)
    else if eqb a c && negb (eqb a b) && negb (is0 a) && is0 b then (* 11 *) Some (1 / a)
    else if eqb b c && negb (is0 b) && negb (eqb b a) && is0 a then (* 12 *) Some (1 / b)
    else (* 5 *)
      lift2 Rplus
        (lift2 (fun LA LB => a * LA / ((a - b) * (a - c)) + b * LB / ((b - a) * (b - c))) (LogM a) (LogM b))
        (option_map (fun LC => c * LC / ((c - a) * (c - b))) (LogM c)).
  Definition fbaseTri (A B C : R) : outcome R :=
    let a := snap0 A in let b := snap0 B in let c := snap0 C in
    let a := snap a b in
    let a := snap a c in
    let b := snap b c in
    match tri_branch a b c with Some r => Ok r | None => Throw RuntimeError end.
End Scale.
