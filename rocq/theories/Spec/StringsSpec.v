(** Independent specification for the string helpers (C04, C09). *)
From Verif.Model Require Import Base.

(** join with a one-character delimiter *)
Fixpoint join (d : ascii) (l : list str) : str :=
  match l with
  | [] => []
  | [x] => x
  | x :: l' => x ++ d :: join d l'
  end.

Definition is_prefix (p s : str) : Prop := exists r, s = p ++ r.
Definition is_suffix (p s : str) : Prop := exists r, s = r ++ p.

(** what the user typed for option [k] with value [v] *)
Definition cli_arg (dashes : nat) (k : str) (sepc : ascii) (v : str) : str :=
  repeat "-"%char dashes ++ k ++ sepc :: v.

(** two characters that differ at most in being an upper- or lower-case letter *)
Definition upper_alphabet : str := s2l "ABCDEFGHIJKLMNOPQRSTUVWXYZ".
Definition lower_alphabet : str := s2l "abcdefghijklmnopqrstuvwxyz".
Definition same_letter (a b : ascii) : Prop :=
  a = b \/ exists u l, In (u, l) (combine upper_alphabet lower_alphabet) /\
                       (a = u /\ b = l \/ a = l /\ b = u).
(** equal up to case *)
Definition same_word : str -> str -> Prop := Forall2 same_letter.
