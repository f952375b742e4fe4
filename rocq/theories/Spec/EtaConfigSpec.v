(** What a configuration file of the baryogenesis calculation says. *)
From Verif.Model Require Import Base Strings.
Open Scope list_scope.

Inductive item := Include (b : bool) | Massive (b : bool) | Text.

Definition blank (c : ascii) : Prop := In c [" "; "009"; "010"; "011"; "012"; "013"]%char.

(** [key...  yes|no ...] in any spelling of upper and lower case *)
Definition setting (key : str) (b : bool) (line : str) : Prop :=
  exists rest gap tail,
    to_lower line = key ++ rest ++ gap ++ s2l (if b then "yes" else "no") ++ tail /\
    Forall (fun c => ~ blank c) rest /\ Forall blank gap /\ gap <> [] /\
    (tail = [] \/ exists c t, tail = c :: t /\ blank c).

Definition says (line : str) (i : item) : Prop :=
  match i with
  | Include b => setting (s2l "include") b line
  | Massive b => setting (s2l "massive") b line
  | Text => (forall t, to_lower line <> s2l "include" ++ t) /\ (forall t, to_lower line <> s2l "massive" ++ t)
  end.

Fixpoint included (items : list item) : list bool :=
  match items with [] => [] | Include b :: l => b :: included l | _ :: l => included l end.

Definition schemes : list str :=
  [s2l "eta_TopOnly"; s2l "eta_TopBot"; s2l "eta_TopBotTau"; s2l "eta_PlasmaVelocities"; s2l "eta_PlasmaVelocitiesReplaced"].

(** entries of a list that are switched on *)
Fixpoint chosen {A} (flags : list bool) (l : list A) : list A :=
  match flags, l with
  | b :: flags, x :: l => if b then x :: chosen flags l else chosen flags l
  | _, _ => []
  end.
