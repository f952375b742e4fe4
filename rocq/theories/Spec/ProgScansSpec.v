(** What is expected of the scans. *)
From Coq Require Import Reals List Ascii Arith.
Import ListNotations.

(** the number of columns of a line whose columns are separated by tabulators *)
Definition columns (line : list ascii) : nat := S (count_occ ascii_dec line (ascii_of_nat 9)).
(** the first numbers of an arithmetic progression *)
Definition progression (x step : R) (n : nat) : list R := map (fun k => (x + INR k * step)%R) (seq 0 n).
