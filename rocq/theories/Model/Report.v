(** The programs CalcTemps and CalcGW: src/prog/CalcTemps.cpp 60-266, src/prog/CalcGW.cpp 62-286.
    The two mains differ in the gravitational wave columns ([i_gw]) and in the parser.  Modelled: reading the
    input file line by line, collecting the rows, writing the output file.  Not modelled: failure to
    open a file, log output, modelPointer->write(); the int linecounter does not overflow. *)
From Coq Require Import QArith.
From Verif.Model Require Import Base History Tracer.
Open Scope Z_scope.

Definition tab : ascii := "009"%char.
Definition nl : ascii := "010"%char.
(** sep, utility.h 50 *)
Definition sep : str := [tab].

(** operator<< for vectors, utility.h 96-112 *)
Fixpoint join (l : list str) : str :=
  match l with
  | [] => []
  | [x] => x
  | x :: t => x ++ sep ++ join t
  end.

(** vector::at *)
Definition at_ {A} (l : list A) (i : nat) : outcome A :=
  match nth_error l i with Some x => Ok x | None => Throw OutOfRange end.

(** ** Reading lines *)

(** std::getline on a stream with remaining content and eof flag: [None] = failure, otherwise the
    line, the remaining content and the new eof flag *)
Fixpoint take_line (s : str) : str * option str :=
  match s with
  | [] => ([], None)
  | c :: r => if Ascii.eqb c nl then ([], Some r)
              else let '(l, rest) := take_line r in (c :: l, rest)
  end.
Definition getline (content : str) (eof : bool) : option (str * str * bool) :=
  if eof then None
  else match content with
       | [] => None
       | _ => match take_line content with
              | (l, Some rest) => Some (l, rest, false)
              | (l, None) => Some (l, [], true)
              end
       end.

Section Loop.
Context {S : Type}.
(** what is done with a line between firstline and lastline, given the first line of the file *)
Variable process : str -> str -> S -> outcome S.
Variables firstline lastline : Z.

(** while (getline(infile, linestr)), CalcTemps.cpp 97-255, CalcGW.cpp 100-275 *)
Fixpoint main_loop (fuel : nat) (content : str) (eof : bool) (header : str) (linecounter : Z) (s : S) : outcome S :=
  match fuel with
  | O => OutOfFuel
  | Datatypes.S f =>
      match getline content eof with
      | None => Ok s
      | Some (line, rest, eof') =>
          let header := if linecounter =? 1 then line else header in
          if lastline <? linecounter then Ok s
          else
            bind (if (firstline <=? linecounter) && (linecounter <=? lastline) then process header line s else Ok s)
              (fun s => if eof' then Ok s else main_loop f rest eof' header (linecounter + 1) s)
      end
  end.
Definition read_file (content : str) (s : S) : outcome S :=
  main_loop (Datatypes.S (length content)) content false [] 1 s.
End Loop.

(** ** Rows *)
Section Rows.
(** operator<< for double *)
Variable show : dbl -> str.
Definition vec (l : list dbl) : str := join (map show l).

(** columns of one pair, CalcTemps.cpp 164-186, CalcGW.cpp 168-206 *)
Definition pair_cells (gw : bool) (cr : st_crit) (bo : st_gw) (na n p c : st_temp) (d : tdata) (g : gw_out) : list str :=
  [show_crit cr; show (d_crit d); vec (d_crit_false d); vec (d_crit_true d); show_gw bo;
   show_temp na; show (d_na d); vec (d_na_false d); vec (d_na_true d);
   show_temp n; show (d_n d); vec (d_n_false d); vec (d_n_true d);
   show_temp p; show (d_p d); vec (d_p_false d); vec (d_p_true d);
   show_temp c; show (d_c d); vec (d_c_false d); vec (d_c_true d)]
  ++ if gw then
       [show_gw (g_status g); show (g_trans g); show (g_vwall g); show (g_alpha g); show (g_beta g);
        show (g_K_sw g); show (g_f_sw g); show (g_h_sw g); show (g_SNR_sw g);
        show (g_K_turb g); show (g_f_turb g); show (g_h_turb g); show (g_SNR_turb g); show (g_SNR g)]
     else [].

(** every cell is followed by a separator *)
Definition cells_text (l : list str) : str := concat (map (fun c => c ++ sep) l).

Definition pair_text (gw : bool) (s : store) (i : nat) : outcome str :=
  bind (at_ (s_crit s) i) (fun cr => bind (at_ (v_trans s) i) (fun d =>
  bind (at_ (s_bounce s) i) (fun bo => bind (at_ (s_na s) i) (fun na =>
  bind (at_ (s_n s) i) (fun n => bind (at_ (s_p s) i) (fun p =>
  bind (at_ (s_c s) i) (fun c =>
  if gw then bind (at_ (v_gw s) i) (fun g => Ok (cells_text (pair_cells gw cr bo na n p c d g)))
  else Ok (cells_text (pair_cells gw cr bo na n p c d no_gw))))))))).

Fixpoint pairs_text (gw : bool) (s : store) (is : list nat) : outcome str :=
  match is with
  | [] => Ok []
  | i :: r => bind (pair_text gw s i) (fun t => bind (pairs_text gw s r) (fun u => Ok (t ++ u)))
  end.

(** output_contents.at(count - 1), CalcTemps.cpp 152-188, CalcGW.cpp 156-208; [ct] = parameters.second *)
Definition row_text (gw : bool) (line : str) (ct : list dbl) (time : str) (out : output) : outcome str :=
  let head := cells_text [line; vec ct; show_nlo (status_nlo out); show_ewsr (status_ewsr out);
                          show_trace (status_tracing out); show_coex (status_coex out); time] in
  match status_tracing out, status_coex out with
  | Tr_Success, Cx_Success =>
      bind (pairs_text gw (pairs_out out) (seq 0 (num_coex_phase_pairs out))) (fun t => Ok (head ++ t))
  | _, _ => Ok head
  end.
End Rows.

(** ** The output file *)

Definition tabs (s : str) : nat := count_occ ascii_dec s tab.

(** local variables of main: the filled part of output_contents, transition_history, legend; and
    the lines of the output file *)
Record report := { rows : list str; hists : list str; leg : list str; file : list str }.
Definition no_report : report := {| rows := []; hists := []; leg := []; file := [] |}.

(** while (diff > 0) outfile << "nan" << sep *)
Definition padding (k : nat) : str := concat (repeat (s2l "nan" ++ sep) k).

(** header and padded rows, CalcTemps.cpp 205-248, CalcGW.cpp 225-268; tab_count_legend and
    tab_count both start at 1, their difference is that of the numbers of tabs *)
Definition write_file (header : str) (legCT : list str) (r : report) : list str :=
  let full_legend := header ++ sep ++ join legCT ++ sep ++ join (leg r) in
  full_legend :: map (fun '(row, h) => row ++ padding (tabs full_legend - tabs row) ++ h)
                     (combine (rows r) (hists r)).

Section Main.
Variable show : dbl -> str.
Variable vevs : list str.     (* addLegendVEV() *)
Variable legCT : list str.    (* addLegendCT() *)
Variable nvev : nat.
Variable fuel : nat.
Variable inp : user_input.
Variable num_points : Z.      (* lastline - firstline + 1 *)
(** setUseIndexCol and initModel: counterterms of the point, its numerics, and the printed runtime *)
Variable init : str -> str -> outcome (list dbl * point * str).

(** what main does with a line, CalcTemps.cpp 105-250, CalcGW.cpp 108-270 *)
Definition process (header line : str) (r : report) : outcome report :=
  if num_points <=? Z.of_nat (length (rows r)) then Throw OutOfRange else
  bind (init header line) (fun '(ct, p, time) =>
  bind (TransitionTracer vevs nvev fuel inp p) (fun out =>
  bind (row_text show (i_gw inp) line ct time out) (fun row =>
    let r1 := {| rows := rows r ++ [row]; hists := hists r ++ [history out];
                 leg := if (length (leg r) <? length (legend out))%nat then legend out else leg r;
                 file := file r |} in
    Ok {| rows := rows r1; hists := hists r1; leg := leg r1; file := write_file header legCT r1 |}))).
End Main.

(** main after the options have been accepted *)
Definition main (show : dbl -> str) vevs legCT nvev fuel inp init firstline lastline content : outcome report :=
  read_file (process show vevs legCT nvev fuel inp (lastline - firstline + 1) init) firstline lastline content no_report.
