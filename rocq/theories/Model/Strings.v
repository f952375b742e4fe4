(** String helpers of BSMPT: src/utility/utility.cpp, parser::to_lower,
    parser::get_key_value and the std::string operations they use. *)
From Verif.Model Require Import Base.

(** std::tolower in the "C" locale on one byte: 'A'..'Z' (65..90) are shifted by
    32, everything else is unchanged. Used by src/utility/parser.cpp 440-448 and
    src/models/IncludeAllModels.cpp 62-69. *)
Definition lower_ascii (c : ascii) : ascii :=
  let n := N_of_ascii c in
  if (65 <=? n)%N && (n <=? 90)%N then ascii_of_N (n + 32) else c.

(** parser::to_lower, src/utility/parser.cpp 440-448. *)
Definition to_lower (s : str) : str := map lower_ascii s.

(** std::string::find(char): index of the first occurrence, [None] for npos. *)
Fixpoint find_char (c : ascii) (s : str) : option nat :=
  match s with
  | [] => None
  | x :: s' => if ascii_eqb x c then Some 0
               else match find_char c s' with Some n => Some (S n) | None => None end
  end.

(** std::string::find_first_not_of(char), [None] for npos. *)
Fixpoint find_first_not (c : ascii) (s : str) : option nat :=
  match s with
  | [] => None
  | x :: s' => if ascii_eqb x c
               then match find_first_not c s' with Some n => Some (S n) | None => None end
               else Some 0
  end.

(** std::string::substr(pos, n): throws std::out_of_range if pos > size();
    [n = None] stands for a count that is at least the remaining length. *)
Definition substr (s : str) (pos : nat) (n : option nat) : outcome str :=
  if Nat.ltb (length s) pos then Throw OutOfRange
  else Ok (match n with
           | None => skipn pos s
           | Some k => firstn k (skipn pos s)
           end).

(** parser::get_key_value, src/utility/parser.cpp 427-438.
    [beginning]/[seperator] are size_t with npos = 2^64-1:
    - beginning = npos makes the first substr throw out_of_range;
    - seperator = npos makes [seperator - beginning] at least the remaining
      length (key = rest of the string) and [seperator + 1] wrap to 0 (value =
      the whole input). Strings are assumed shorter than 2^64-1 bytes. *)
Definition get_key_value (input : str) : outcome (str * str) :=
  let beginning := find_first_not "-" input in
  let seperator := match find_char "=" input with
                   | Some n => Some n
                   | None => find_char " " input
                   end in
  match beginning with
  | None => Throw OutOfRange
  | Some b =>
      bind (substr input b (match seperator with None => None | Some k => Some (k - b) end))
        (fun key =>
      bind (substr input (match seperator with None => 0 | Some k => k + 1 end) None)
        (fun value => Ok (key, value)))
  end.

(** BSMPT::split, src/utility/utility.cpp 26-37: repeated std::getline on a
    stringstream. getline fails (loop ends) when it reaches the end of the stream
    without having extracted a character, so a final empty field is dropped.
    [cur] is the reversed token being read. *)
Fixpoint split_go (d : ascii) (cur : str) (s : str) : list str :=
  match s with
  | [] => match cur with [] => [] | _ => [rev cur] end
  | c :: s' => if ascii_eqb c d then rev cur :: split_go d [] s'
               else split_go d (c :: cur) s'
  end.
Definition split (s : str) (d : ascii) : list str := split_go d [] s.

(** does [s] begin with [p]? (one step of the search in std::string::find) *)
Fixpoint match_at (p s : str) : bool :=
  match p, s with
  | [], _ => true
  | _ :: _, [] => false
  | a :: p', b :: s' => ascii_eqb a b && match_at p' s'
  end.

(** std::string::find(const std::string&): first position at which the pattern
    occurs, [None] for npos. *)
Fixpoint find_str (p s : str) : option nat :=
  if match_at p s then Some 0
  else match s with
       | [] => None
       | _ :: s' => match find_str p s' with Some n => Some (S n) | None => None end
       end.

(** StringStartsWith, src/utility/utility.cpp 46-49. *)
Definition StringStartsWith (s prefix : str) : bool :=
  Nat.leb (length prefix) (length s) &&
  match find_str prefix s with Some 0 => true | _ => false end.

(** StringEndsWith, src/utility/utility.cpp 104-108. The substr start is
    size - suffix size, which the first conjunct keeps in range. *)
Definition StringEndsWith (s suffix : str) : bool :=
  if Nat.leb (length suffix) (length s)
  then match substr s (length s - length suffix) (Some (length s)) with
       | Ok r => str_eqb r suffix
       | _ => false
       end
  else false.
