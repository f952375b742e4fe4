(** What the diagram of the phases should show. *)
From Coq Require Import QArith ZArith List Ascii.
From Verif Require Import Model.PhaseDiagram.
Import ListNotations.

(** lower edge of cell i when the range is divided into size cells *)
Definition edge (size : Z) (v : range) (i : Z) : Q := (low v + inject_Z i * (high v - low v) / inject_Z size)%Q.
(** the phase reaches into cell i *)
Definition reaches (size : Z) (v p : range) (i : Z) : Prop := (low p < edge size v (i + 1))%Q /\ (edge size v i < high p)%Q.
(** the phase lies in the range *)
Definition inside (v p : range) : Prop := (low v <= low p)%Q /\ (low p <= high p)%Q /\ (high p <= high v)%Q.
(** a character that can be seen *)
Definition visible (c : ascii) : Prop := (32 < nat_of_ascii c < 127)%nat.
