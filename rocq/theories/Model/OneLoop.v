(** The one-loop part of the effective potential and its derivatives: src/models/ClassPotentialOrigin.cpp 2948-3221.
    The squared masses and their derivatives (HiggsMassesSquared etc., 2420-2824) are arguments. *)
From Coq Require Import List Reals ZArith.
From Verif.Model Require Import Base Loop.
Import ListNotations.
Open Scope R_scope.

(** what the mass routines return: with the thermal masses, without them (temperature 0), fermions *)
Record spectrum (A : Type) := mkSpectrum {
  higgs : list A; gauge : list A; higgs0 : list A; gauge0 : list A; quarks : list A; leptons : list A }.
Arguments mkSpectrum {A}. Arguments higgs {A}. Arguments gauge {A}. Arguments higgs0 {A}. Arguments gauge0 {A}.
Arguments quarks {A}. Arguments leptons {A}.
Definition map_spectrum {A B} (f : A -> B) (s : spectrum A) : spectrum B :=
  mkSpectrum (map f (higgs s)) (map f (gauge s)) (map f (higgs0 s)) (map f (gauge0 s)) (map f (quarks s)) (map f (leptons s)).

Definition total {A} (f : A -> R) (l : list A) : R := fold_right (fun x s => f x + s) 0 l.

Section OneLoop.
  Variable scale : R.
  (** boson and fermion, 112-168; interpolated functions and numerical integrals *)
  Variables JIb JIf : R -> R.
  Variables JNb JNf : R -> Z -> R.
  (** ClassPotentialOrigin.h 45-49, 130 *)
  Definition C_CWcbGB : R := 5 / 6.
  Definition C_CWcbHiggs : R := 3 / 2.
  Definition NColour : R := 3.
  Definition bos (m T cb : R) (diff : Z) : R := boson scale JIb JNb m T cb diff.
  Definition fer (m T : R) (diff : Z) : R := fermion scale JIf JNf m T diff.
  (** pow(m, 1.5) and pow(m, 0.5) of positive masses, 3049, 3126 *)
  Definition cubed (m : R) : R := if Rlt_dec 0 m then Rpower m (3 / 2) else 0.
  Definition rooted (m d : R) : R := if Rlt_dec 0 m then 3 / 2 * d * sqrt m else 0.

  (** diff = 0, 3009-3063 *)
  Definition V1Loop0 (parwani : bool) (m : spectrum R) (T : R) : R :=
    if parwani then
      total (fun x => bos x T C_CWcbHiggs 0) (higgs m)
      + total (fun x => bos x T C_CWcbGB 0) (gauge m)
      + total (fun x => 2 * bos x T C_CWcbGB 0) (gauge0 m)
      + total (fun x => -6 * fer x T 0) (quarks m)
      + total (fun x => -2 * fer x T 0) (leptons m)
    else
      total (fun x => bos x T C_CWcbHiggs 0) (higgs0 m)
      + total (fun x => 3 * bos x T C_CWcbGB 0) (gauge0 m)
      + NColour * total (fun x => -2 * fer x T 0) (quarks m)
      + total (fun x => -2 * fer x T 0) (leptons m)
      + - T / (12 * PI) * (total cubed (higgs m) - total cubed (higgs0 m) + (total cubed (gauge m) - total cubed (gauge0 m))).
  (** 0 < diff <= NHiggs, 3064-3152; [d] holds the second halves of the mass vectors *)
  Definition on {A B} (f : A -> B -> R) (l : list A) (l' : list B) : R := total (fun p => f (fst p) (snd p)) (combine l l').
  Definition V1Loop_field (parwani : bool) (m d : spectrum R) (T : R) (diff : Z) : R :=
    if parwani then
      on (fun x y => y * bos x T C_CWcbHiggs diff) (higgs m) (higgs d)
      + on (fun x y => y * bos x T C_CWcbHiggs diff) (gauge m) (gauge d)
      + on (fun x y => 2 * y * bos x T C_CWcbHiggs diff) (gauge0 m) (gauge0 d)
      + on (fun x y => -6 * y * fer x T diff) (quarks m) (quarks d)
      + on (fun x y => -2 * y * fer x T diff) (leptons m) (leptons d)
    else
      on (fun x y => y * bos x T C_CWcbHiggs diff) (higgs0 m) (higgs0 d)
      + on (fun x y => 3 * y * bos x T C_CWcbGB diff) (gauge0 m) (gauge0 d)
      + NColour * on (fun x y => -2 * y * fer x T diff) (quarks m) (quarks d)
      + on (fun x y => -2 * y * fer x T diff) (leptons m) (leptons d)
      + - T / (12 * PI) * (on rooted (higgs m) (higgs d) - on rooted (higgs0 m) (higgs0 d)
                           + (on rooted (gauge m) (gauge d) - on rooted (gauge0 m) (gauge0 d))).
  (** diff = -1, 3153-3218 *)
  Definition V1Loop_temp (parwani : bool) (m d : spectrum R) (T : R) : R :=
    if parwani then
      on (fun x y => y * bos x T C_CWcbHiggs 0 + bos x T C_CWcbHiggs (-1)) (higgs m) (higgs d)
      + on (fun x y => y * bos x T C_CWcbGB 0 + bos x T C_CWcbGB (-1)) (gauge m) (gauge d)
      + total (fun x => 2 * bos x T C_CWcbGB (-1)) (gauge0 m)
      + total (fun x => -6 * fer x T (-1)) (quarks m)
      + total (fun x => -2 * fer x T (-1)) (leptons m)
    else
      total (fun x => bos x T C_CWcbHiggs (-1)) (higgs0 m)
      + total (fun x => 3 * bos x T C_CWcbGB (-1)) (gauge0 m)
      + NColour * total (fun x => -2 * fer x T (-1)) (quarks m)
      + total (fun x => -2 * fer x T (-1)) (leptons m)
      + -1 / (12 * PI) * (total cubed (higgs m) - total cubed (higgs0 m) + (total cubed (gauge m) - total cubed (gauge0 m))).
  (** V1Loop, 2991-3221; the mass routines depend on diff (the fermionic ones give values only for diff <= 0), [m] and [d]
      stand for what they return for this diff *)
  Definition V1Loop (NHiggs : nat) (parwani : bool) (m d : spectrum R) (T : R) (diff : Z) : R :=
    if Z.eqb diff 0 then V1Loop0 parwani m T
    else if (Z.ltb 0 diff && Z.leb diff (Z.of_nat NHiggs))%bool then V1Loop_field parwani m d T diff
    else if Z.eqb diff (-1) then V1Loop_temp parwani m d T
    else 0.
End OneLoop.

(** VEff, 2948-2989: [place] is MinimizeOrderVEV, the potentials are functions of field vector and diff.
    The recursive call of 2976 leaves Order at its default 1. *)
Section VEff.
  Variable F : Type.
  Variables nVEV NHiggs : nat.
  Variable place : list F -> list F.
  Variables VTree CounterTerm : list F -> Z -> R.
  Variable V1L : list F -> R -> Z -> R.
  Variable UseTreeLevel : bool.
  Definition VEff_full (v : list F) (T : R) (diff Order : Z) : R :=
    VTree v diff + (if (negb (Z.eqb Order 0) && negb UseTreeLevel)%bool then CounterTerm v diff + V1L v T diff else 0).
  Definition VEff (v : list F) (T : R) (diff Order : Z) : outcome R :=
    if (negb (Nat.eqb (length v) nVEV) && negb (Nat.eqb (length v) NHiggs))%bool then Throw RuntimeError
    else if (Nat.eqb (length v) nVEV && negb (Nat.eqb nVEV NHiggs))%bool then
      let w := place v in
      (* MinimizeOrderVEV returns a vector of size NHiggs *)
      if Nat.eqb (length w) NHiggs then Ok (VEff_full w T diff 1) else Throw RuntimeError
    else Ok (VEff_full v T diff Order).
End VEff.
