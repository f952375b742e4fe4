(** Reading a line of the input file into a parameter vector: ReadAndSet of the models.
    A line is the sequence of what operator>> for double meets: numbers and characters that are no number.  Numbers are
    rational, the yukawa type is assumed to fit an int. *)
From Coq Require Import List QArith Bool.
From Verif.Model Require Import Base.
Import ListNotations.
Close Scope Q_scope.

Inductive token := Num (q : Q) | Bad.
(** a stringstream with its failbit; [tmp] is the local variable of ReadAndSet, None as long as it is not initialised *)
Record stream := mkStream { left_tokens : list token; failed : bool }.
(** ss >> tmp: nothing happens after a failure and at the end (failbit is set), a malformed number stores 0 and sets the failbit *)
Definition extract (s : stream) (tmp : option Q) : stream * option Q :=
  if failed s then (s, tmp)
  else match left_tokens s with
       | [] => (mkStream [] true, tmp)
       | Num q :: r => (mkStream r false, Some q)
       | Bad :: r => (mkStream (Bad :: r) true, Some 0%Q)
       end.
(** the loop for k = 1 .. n: the value of tmp after each extraction *)
Fixpoint loop (n : nat) (s : stream) (tmp : option Q) : list (option Q) :=
  match n with
  | O => []
  | S n => let '(s', tmp') := extract s tmp in tmp' :: loop n s' tmp'
  end.
Definition columns (UseIndexCol : bool) (n : nat) (l : list token) : list (option Q) :=
  let s := mkStream l false in
  if UseIndexCol then let '(s', tmp) := extract s None in loop n s' tmp else loop n s None.

(** where an entry of par comes from: the column k = 1, 2, ...; [Int] is converted to int on the way *)
Inductive source := Col (k : nat) | Int (k : nat).
Definition truncate (q : Q) : Q := inject_Z (Z.quot (Qnum q) (Zpos (Qden q))).
Definition fetch (c : list (option Q)) (s : source) : outcome Q :=
  match s with
  | Col k => match nth_error c (k - 1) with Some (Some q) => Ok q | _ => UB end
  | Int k => match nth_error c (k - 1) with Some (Some q) => Ok (truncate q) | _ => UB end
  end.
Fixpoint fetch_all (c : list (option Q)) (l : list source) : outcome (list Q) :=
  match l with
  | [] => Ok []
  | s :: r => bind (fetch c s) (fun q => bind (fetch_all c r) (fun qs => Ok (q :: qs)))
  end.
(** ReadAndSet up to the call of set_gen: the vector par *)
Definition ReadAndSet (n : nat) (sources : list source) (UseIndexCol : bool) (l : list token) : outcome (list Q) :=
  fetch_all (columns UseIndexCol n l) sources.

(** ClassPotentialSM.cpp 112-134 *)
Definition SM_sources : list source := [Col 1; Col 2].
Definition SM_read := ReadAndSet 2 SM_sources.
(** ClassPotentialCxSM.cpp 158-201 *)
Definition CxSM_sources : list source := map Col (seq 1 12).
Definition CxSM_read := ReadAndSet 12 CxSM_sources.
(** ClassPotentialR2HDM.cpp 147-210: par[0..3] = L1..L4, par[4] = RL5, par[5] = RealMMix, par[6] = TanBeta, par[7] = Type *)
Definition R2HDM_sources : list source := [Col 2; Col 3; Col 4; Col 5; Col 6; Col 7; Col 8; Int 1].
Definition R2HDM_read := ReadAndSet 8 R2HDM_sources.
(** ClassPotentialC2HDM.cpp 170-216 *)
Definition C2HDM_sources : list source := [Col 2; Col 3; Col 4; Col 5; Col 6; Col 7; Col 8; Col 9; Int 1].
Definition C2HDM_read := ReadAndSet 9 C2HDM_sources.
(** ClassPotentialN2HDM.cpp 162-219: par[8] = tan beta, par[9] = vs, par[10] = u3, par[11] = type (a double) *)
Definition N2HDM_sources : list source := [Col 2; Col 3; Col 4; Col 5; Col 6; Col 7; Col 8; Col 9; Col 11; Col 10; Col 12; Col 1].
Definition N2HDM_read := ReadAndSet 12 N2HDM_sources.
(** ClassPotentialCPintheDark.cpp 178-239: par[0..2] = m11s, m22s, mSs, par[3..4] = reA, imA, par[5..12] = L1..L8 *)
Definition CPintheDark_sources : list source :=
  [Col 25; Col 26; Col 27; Col 23; Col 24; Col 15; Col 16; Col 17; Col 18; Col 19; Col 20; Col 21; Col 22].
Definition CPintheDark_read := ReadAndSet 27 CPintheDark_sources.

(** setUseIndexCol, ClassPotentialOrigin.cpp 3534-3537: the legend starts with the separator *)
Definition setUseIndexCol {A} (eqb : A -> A -> bool) (sep : A) (legend : list A) : bool :=
  match legend with c :: _ => eqb c sep | [] => false end.
