(** Model of the program that tabulates the effective potential: src/prog/PotPlotter.cpp.
    Doubles are real numbers, arithmetic is exact.  The effective potential at the temperature of the run, with MinimizeOrderVEV
    inside, is an argument.  The grids are those of Model/StartPath.v (Create1DimGrid). *)
From Coq Require Import Reals List ZArith Ascii Arith.
From Verif Require Import Model.StartPath.
Import ListNotations.
Local Open Scope R_scope.

(** std::stoi as called by parser::get_value<int>, include/BSMPT/utility/parser.h 114-117: blanks, a sign, digits up to the first
    other character; None is std::invalid_argument or std::out_of_range.  [acc] is the value of the digits read so far. *)
Definition digit (c : ascii) : option Z :=
  let n := Z.of_nat (nat_of_ascii c) in if andb (Z.leb 48 n) (Z.leb n 57) then Some (n - 48)%Z else None.
Fixpoint digits (acc : option Z) (s : list ascii) : option Z :=
  match s with
  | [] => acc
  | c :: s' => match digit c with Some d => digits (Some (10 * (match acc with Some a => a | None => 0 end) + d)%Z) s' | None => acc end
  end.
Fixpoint skip_blanks (s : list ascii) : list ascii :=
  match s with
  | c :: s' => let n := nat_of_ascii c in if orb (Nat.eqb n 32) (andb (Nat.leb 9 n) (Nat.leb n 13)) then skip_blanks s' else s
  | [] => []
  end.
Definition int_range (z : option Z) : option Z :=
  match z with Some a => if andb (Z.leb (- 2147483648) a) (Z.leb a 2147483647) then Some a else None | None => None end.
Definition stoi (s : list ascii) : option Z :=
  match skip_blanks s with
  | c :: s' => if Ascii.eqb c "-" then int_range (option_map Z.opp (digits None s'))
               else if Ascii.eqb c "+" then int_range (digits None s') else int_range (digits None (c :: s'))
  | [] => None
  end.
(** low and high, PotPlotter.cpp 505-607 (one of the twelve blocks): the default of line 41-43 stays if the option is not given
    (None); the outer None is an exception that is not caught here *)
Definition read_bound (value : option (list ascii)) : option Z :=
  match value with None => Some (-1)%Z | Some s => stoi s end.

(** CLIOptions, PotPlotter.cpp 27-53, the members that are used below; npoints1 to npoints6, low1 to low6 and high1 to high6 are
    lists of six numbers.  The bounds are doubles in which integers are stored. *)
Record options := {
  model_set : bool; Line : Z; Temperature : R; point : vec;
  npointsi : list Z; low : list Z; high : list Z;
  use_slice_plotter : bool; min_start : vec; min_end : vec; npoints : Z }.

(** CLIOptions::good, 374-425 *)
Definition good (o : options) : bool :=
  if negb (model_set o) then false
  else if Rlt_dec (Temperature o) 0 then false
  else if andb (use_slice_plotter o) (orb (Nat.eqb (length (min_start o)) 0) (Nat.eqb (length (min_end o)) 0)) then false
  else if orb (existsb (fun n => Z.ltb n 0) (npointsi o)) (Z.ltb (npoints o) 0) then false
  else if existsb (fun p => Z.ltb (snd p) (fst p)) (combine (low o) (high o)) then false
  else if existsb (fun p => andb (Z.ltb 0 (fst p)) (orb (Z.eqb (fst (snd p)) (-1)) (Z.eqb (snd (snd p)) (-1))))
            (combine (npointsi o) (combine (low o) (high o))) then false
  else true.

(** std::getline until the end of the file (92-110): the text split at the line ends; a text that ends with a line end gives one
    more, empty, line, because eof() is not yet set *)
Fixpoint getlines (current : list ascii) (text : list ascii) : list (list ascii) :=
  match text with
  | [] => [rev current]
  | c :: t => if Ascii.eqb c (ascii_of_nat 10) then rev current :: getlines [] t else getlines (c :: current) t
  end.
(** the loop of 92-110: the lines given to setUseIndexCol and to initModel, in this order *)
Inductive call := UseIndexCol (line : list ascii) | InitModel (line : list ascii).
Fixpoint read_loop (Line : Z) (linecounter : Z) (lines : list (list ascii)) : list call :=
  match lines with
  | [] => []
  | l :: rest =>
    if Z.eqb linecounter 1 then UseIndexCol l :: read_loop Line (linecounter + 1) rest
    else if Z.eqb linecounter Line then InitModel l :: read_loop Line (linecounter + 1) rest
    else if Z.ltb Line linecounter then []
    else read_loop Line (linecounter + 1) rest
  end.
Definition read_file (Line : Z) (text : list ascii) : list call := read_loop Line 1 (getlines [] text).
(** found, 104 *)
Definition found (calls : list call) : bool := existsb (fun c => match c with InitModel _ => true | _ => false end) calls.

(** what the program leaves: rows of numbers and EXIT_SUCCESS, EXIT_FAILURE with a message, std::out_of_range of at(), or the
    std::runtime_error of 312-316 *)
Inductive outcome := Rows (rows : list vec) | Failure | OutOfRange | TooManyDimensions.
Definition after (x y : outcome) : outcome :=
  match x with Rows a => match y with Rows b => Rows (a ++ b) | _ => y end | _ => x end.
(** for (a : l) body *)
Definition each (l : list vec) (body : vec -> outcome) : outcome := fold_right (fun a => after (body a)) (Rows []) l.

Section Plot.
  (** VEff(MinimizeOrderVEV(v), temp) and get_nVEV() *)
  Variable V : vec -> R.
  Variable nVEV : nat.
  Variable o : options.

  (** the columns written for one point, 221-227 (and 242-248, 263-269, 284-291, 303-312, 324-334) *)
  Definition row (vevStart a : vec) : vec := a ++ vevStart ++ [V a; V vevStart; Temperature o].
  (** the d-th of the loops nested in 214-322, d = 0, .., 5: it scans the direction i + d with the bounds and the number of
      steps of the number d + 1; the last of them, [fuel] = 0, throws instead of nesting further *)
  Fixpoint level (fuel d i : nat) (vevStart a : vec) : outcome :=
    match Grid1 a (i + d) (IZR (nth d (low o) 0%Z)) (IZR (nth d (high o) 0%Z)) (nth d (npointsi o) 0%Z) with
    | None => OutOfRange
    | Some res_vec =>
      if Nat.eqb nVEV (S d) then Rows (map (row vevStart) res_vec)
      else if Nat.ltb (i + S d) nVEV then
        match fuel with
        | 0%nat => TooManyDimensions
        | S fuel' => each res_vec (level fuel' (S d) i vevStart)
        end
      else Rows []
    end.
  (** 200-208: None is the std::out_of_range of npoints.at(i), a vector of six *)
  Fixpoint reset (k : nat) (v : vec) : option vec :=
    match v with
    | [] => Some []
    | x :: v' => match nth_error (npointsi o) k, reset (S k) v' with
                 | Some n, Some r => Some ((if Z.ltb 0 n then 0 else x) :: r)
                 | _, _ => None
                 end
    end.
  (** 170-185 *)
  Definition vevStart : option vec :=
    match point o with
    | [] => Some (repeat 0 nVEV)
    | _ => if Nat.eqb (length (point o)) nVEV then Some (point o) else None
    end.
  (** 156-322 *)
  Definition grid_plot : outcome :=
    match vevStart with
    | None => Failure
    | Some s => match reset 0 s with
                | None => OutOfRange
                | Some ini => fold_right (fun i => after (level 5 0 i s ini)) (Rows []) (seq 0 nVEV)
                end
    end.
  (** 120-154 *)
  Definition slice_plot : outcome :=
    if andb (Nat.eqb (length (min_end o)) (length (min_start o))) (Nat.eqb (length (min_end o)) nVEV) then
      Rows (map (fun p => p ++ [V p; Temperature o]) (Grid (min_start o) (min_end o) (Z.to_nat (npoints o))))
    else Failure.
  (** main, 55-325, without the header; [text] is the content of the input file *)
  Definition plot (text : list ascii) : outcome :=
    if negb (good o) then Failure
    else if negb (found (read_file (Line o) text)) then Failure
    else if use_slice_plotter o then slice_plot else grid_plot.
End Plot.
