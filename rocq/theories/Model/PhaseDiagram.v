(** The diagram of the phases: src/minimum_tracer/minimum_tracer.cpp 2192-2266.
    Doubles are rational numbers without rounding, NaN is None; int does not overflow.  The fields along a phase (Phase::Get) and the
    plot itself (Model/Ascii.v) are not part of this file. *)
From Coq Require Import QArith Qround ZArith List Ascii String.
Import ListNotations.
Local Open Scope Z_scope.

(** T_low and T_high of the Vacuum object or of a phase *)
Record range := mkRange { low : Q; high : Q }.
(** what becomes of the line of a phase: written, std::length_error of std::string(n, c) for a negative n, undefined (conversion of an
    infinite number or NaN to int, first element of an empty vector) *)
Inductive drawn := Drawn (l : list ascii) | LengthError | Undefined.

Section Diagram.
  Variable size : Z.   (* argument of PrintPhasesDiagram, 100 by default *)
  Variable v : range.  (* of the Vacuum object *)
  (** nBefore, 2210-2211 *)
  Definition nBefore (p : range) : Z := Qfloor (inject_Z size * (low p - low v) / (high v - low v)).
  (** nAfter, 2212-2213 *)
  Definition nAfter (p : range) : Z := Qfloor (inject_Z size * (high v - high p) / (high v - low v)).
  (** nPhase, 2214 *)
  Definition nPhase (p : range) : Z := size - nBefore p - nAfter p.
  (** T_list, 2219-2223; 0 / 0 is NaN *)
  Definition sample (p : range) (i : Z) : option Q :=
    if nPhase p =? 0 then None else Some (low p + inject_Z i / inject_Z (nPhase p) * (high p - low p))%Q.
  Definition samples (p : range) : list (option Q) := map (fun i => sample p (Z.of_nat i)) (seq 0 (Z.to_nat (nPhase p + 1))).
  (** std::string(n, c), 2247-2248 *)
  Definition fill (n : Z) (c : ascii) : option (list ascii) := if n <? 0 then None else Some (repeat c (Z.to_nat n)).
  (** the bar of a phase, 2228-2229 and 2247-2248 *)
  Definition bar (p : range) : drawn :=
    if Qeq_bool (high v - low v) 0 then Undefined
    else match samples p with
    | [] => Undefined
    | _ =>
      match fill (nBefore p) " ", fill (nPhase p) ".", fill (nAfter p) " " with
      | Some a, Some b, Some c => Drawn (a ++ b ++ c)
      | _, _, _ => LengthError
      end
    end.
End Diagram.
(** markers and the marker of phase [it], 2202 and 2239; the array ends with a null character, which sizeof counts *)
Definition markers : list ascii := list_ascii_of_string ".*ox-cs" ++ [zero].
Definition marker (it : nat) : ascii := nth (it mod (List.length markers)) markers zero.
