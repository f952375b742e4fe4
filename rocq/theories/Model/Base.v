(** Shared vocabulary of the model: outcomes of a C++ call. *)
From Coq Require Export String Ascii.
From Coq Require Export List Arith ZArith NArith Bool Lia.
Export ListNotations.

(** Exceptions the modelled code can raise.  The C++ type is what matters to a
    caller's [catch]; the message text is not modelled. *)
Inductive exn :=
| ParserException        (* BSMPT::parserException, include/BSMPT/utility/parser.h 19-27 *)
| OutOfRange             (* std::out_of_range from substr()/at() *)
| RuntimeError           (* std::runtime_error *)
| InvalidArgument        (* std::invalid_argument *)
| ThrownText.            (* throw("...") of a const char*, include/BSMPT/utility/utility.h 142 *)

(** Outcome of a call: a value, an exception, undefined behaviour, or the
    model's fuel running out (used for loops whose termination is in question). *)
Inductive outcome (A : Type) : Type :=
| Ok (a : A)
| Throw (e : exn)
| UB
| OutOfFuel.
Arguments Ok {A} a.
Arguments Throw {A} e.
Arguments UB {A}.
Arguments OutOfFuel {A}.

Definition bind {A B} (o : outcome A) (f : A -> outcome B) : outcome B :=
  match o with
  | Ok a => f a
  | Throw e => Throw e
  | UB => UB
  | OutOfFuel => OutOfFuel
  end.

(** C++ std::string as a list of bytes. *)
Notation str := (list ascii).
Definition s2l (s : string) : str := list_ascii_of_string s.

Definition ascii_eqb (a b : ascii) : bool := Ascii.eqb a b.
Fixpoint str_eqb (a b : str) : bool :=
  match a, b with
  | [], [] => true
  | x :: a', y :: b' => ascii_eqb x y && str_eqb a' b'
  | _, _ => false
  end.

Lemma str_eqb_spec a b : reflect (a = b) (str_eqb a b).
Proof.
  revert b; induction a as [|x a IH]; intros [|y b]; cbn; try (constructor; congruence).
  unfold ascii_eqb. destruct (Ascii.eqb_spec x y) as [->|Hn]; cbn.
  - destruct (IH b) as [->|Hb]; constructor; congruence.
  - constructor; congruence.
Qed.

Lemma str_eqb_refl a : str_eqb a a = true.
Proof. destruct (str_eqb_spec a a); congruence. Qed.
