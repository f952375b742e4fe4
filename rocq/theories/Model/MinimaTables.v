(** Model of the tables written by src/prog/MinimaTracer.cpp 59-265: one file per parameter point with the traced minima of all phases.
    Not modelled: failure to open a file, log output, modelPointer->write(); the ints linecounter and filecounter do not overflow.  An
    exception ends the program; the files written before it are not followed. *)
From Coq Require Import QArith.
From Verif.Model Require Import Base History Tracer Report.
Open Scope Z_scope.

(** Minimum, include/BSMPT/minimum_tracer/minimum_tracer.h 252-261 (the members that are written) *)
Record minimum := { m_temp : dbl; m_point : list dbl; m_potential : dbl }.
(** what is computed for a line, MinimaTracer.cpp 111-167: parameters.second, the three statuses, the MinimumPhaseVectors of
    vac.PhasesList, and the texts of the run time at the end of row [i] *)
Record traced := { t_ct : list dbl; t_nlo : st_nlo; t_ewsr : st_ewsr; t_tracing : st_trace; t_phases : list (list minimum); t_time : nat -> str }.
(** an output file: its name and its lines *)
Record outfile := { f_name : str; f_lines : list str }.

(** good(), 316-331: the checks of the line numbers *)
Definition lines_good (firstline lastline : Z) : bool :=
  if (firstline =? 0) || (lastline =? 0) then false
  else if (firstline <? 0) || (lastline <? 0) then false
  else if lastline <? firstline then false else true.

Section Tables.
(** operator<< for double *)
Variable show : dbl -> str.
(** addLegendVEV(), addLegendCT() and get_nVEV() of the model *)
Variables vevs legCT : list str.
Variable nVEV : nat.

(** the labels of the vevs of phase [i], 181-185; at() throws if there are fewer labels than vevs *)
Fixpoint vev_labels (i j : nat) (n : nat) : outcome (list str) :=
  match n with
  | 0%nat => Ok []
  | S n' => bind (at_ vevs j) (fun v => bind (vev_labels i (S j) n') (fun r => Ok ((v ++ s2l "(Temp_" ++ to_string i ++ s2l ")") :: r)))
  end.
(** the loop over the phases, 178-187 *)
Fixpoint phase_labels (i n : nat) : outcome (list str) :=
  match n with
  | 0%nat => Ok []
  | S n' => bind (vev_labels i 0 nVEV) (fun v => bind (phase_labels (S i) n') (fun r =>
      Ok ((s2l "Temp_" ++ to_string i) :: v ++ (s2l "Veff(Temp_" ++ to_string i ++ s2l ")") :: r)))
  end.
(** the first line, 173-190 *)
Definition legend_line (header : str) (nPhases : nat) : outcome str :=
  bind (phase_labels 0 nPhases) (fun l =>
  Ok (header ++ sep ++ join legCT ++ sep ++ join ([s2l "status_nlo_stability"; s2l "status_ewsr"; s2l "status_tracing"] ++ l ++ [s2l "runtime"]))).

(** the length of the longest phase, 192-203 *)
Definition longest (phases : list (list minimum)) : nat :=
  fold_left (fun length p => if (length =? 0)%nat then List.length p else if (length <? List.length p)%nat then List.length p else length) phases 0%nat.

(** the columns of one phase in row [i], 230-245 *)
Definition phase_text (i : nat) (p : list minimum) : str :=
  match nth_error p i with
  | Some m => sep ++ show (m_temp m) ++ sep ++ join (map show (m_point m)) ++ sep ++ show (m_potential m)
  | None => sep ++ join (repeat (s2l "nan") (2 + nVEV))
  end.
(** row [i], 222-254; without phases 205-219 *)
Definition tracer_row (line : str) (t : traced) (i : nat) (phases : list (list minimum)) : str :=
  line ++ sep ++ join (map show (t_ct t)) ++ sep ++ show_nlo (t_nlo t) ++ sep ++ show_ewsr (t_ewsr t) ++ sep ++ show_trace (t_tracing t) ++
  concat (map (phase_text i) phases) ++ sep ++ t_time t i.
Definition tracer_rows (line : str) (t : traced) : list str :=
  let length := longest (t_phases t) in
  (if (length =? 0)%nat then [tracer_row line t 0 []] else []) ++ map (fun i => tracer_row line t i (t_phases t)) (seq 0 length).

(** setUseIndexCol, initModel and the tracing of a line, 111-167 *)
Variable trace_line : str -> str -> outcome traced.
Variable prefix : str.
(** args.outputfile + "_" + std::to_string(filecounter) + ".tsv", 99-100 *)
Definition file_name (filecounter : nat) : str := prefix ++ s2l "_" ++ to_string filecounter ++ s2l ".tsv".
(** the body of the loop for a line in the range, 94-254; filecounter is one more than the number of files written so far *)
Definition trace_process (header line : str) (files : list outfile) : outcome (list outfile) :=
  bind (trace_line header line) (fun t =>
  bind (legend_line header (List.length (t_phases t))) (fun l =>
  Ok (files ++ [{| f_name := file_name (S (List.length files)); f_lines := l :: tracer_rows line t |}]))).
(** the loop over the lines of the input, 88-264: the same as in CalcTemps.cpp and CalcGW.cpp *)
Definition minima_main (firstline lastline : Z) (content : str) : outcome (list outfile) :=
  read_file trace_process firstline lastline content [].
End Tables.
