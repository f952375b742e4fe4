(** What is expected of the tables of traced minima. *)
From Verif.Model Require Import Base History Tracer MinimaTables.
From Verif.Spec Require Import ReportSpec.

(** the tab separated fields of a line *)
Fixpoint fields (s : str) : list str :=
  match s with
  | [] => [[]]
  | c :: r => if Ascii.eqb c "009" then [] :: fields r
              else match fields r with f :: fs => (c :: f) :: fs | [] => [[c]] end
  end.

(** the columns after the input and the counterterms *)
Inductive column := NloStatus | EwsrStatus | TracingStatus | Temp (phase : nat) | Vev (phase k : nat) | Veff (phase : nat) | Runtime.
Definition columns_of (nPhases nVEV : nat) : list column :=
  [NloStatus; EwsrStatus; TracingStatus] ++ flat_map (fun j => Temp j :: map (Vev j) (seq 0 nVEV) ++ [Veff j]) (seq 0 nPhases) ++ [Runtime].
(** the label of a column *)
Definition label (vevs : list str) (c : column) : str :=
  match c with
  | NloStatus => s2l "status_nlo_stability"
  | EwsrStatus => s2l "status_ewsr"
  | TracingStatus => s2l "status_tracing"
  | Temp j => s2l "Temp_" ++ to_string j
  | Vev j k => nth k vevs [] ++ s2l "(Temp_" ++ to_string j ++ s2l ")"
  | Veff j => s2l "Veff(Temp_" ++ to_string j ++ s2l ")"
  | Runtime => s2l "runtime"
  end.
(** what belongs into a column in the row of the [i]-th minima; phases that have ended give nan *)
Definition minimum_of (t : traced) (j i : nat) : option minimum :=
  match nth_error (t_phases t) j with Some p => nth_error p i | None => None end.
Definition content_of (show : dbl -> str) (t : traced) (i : nat) (c : column) : str :=
  match c with
  | NloStatus => show_nlo (t_nlo t)
  | EwsrStatus => show_ewsr (t_ewsr t)
  | TracingStatus => show_trace (t_tracing t)
  | Temp j => match minimum_of t j i with Some m => show (m_temp m) | None => s2l "nan" end
  | Vev j k => match minimum_of t j i with Some m => show (nth k (m_point m) None) | None => s2l "nan" end
  | Veff j => match minimum_of t j i with Some m => show (m_potential m) | None => s2l "nan" end
  | Runtime => t_time t i
  end.
(** a file of one parameter point: the legend, and as many rows as the longest phase has minima, at least one *)
Definition table_of (show : dbl -> str) (vevs legCT : list str) (header line : str) (t : traced) (lines : list str) : Prop :=
  exists legend rows, lines = legend :: rows /\
    fields legend = fields header ++ legCT ++ map (label vevs) (columns_of (length (t_phases t)) (length vevs)) /\
    length rows = Nat.max 1 (list_max (map (@length minimum) (t_phases t))) /\
    forall i r, nth_error rows i = Some r ->
      fields r = fields line ++ map show (t_ct t) ++ map (content_of show t i) (columns_of (length (t_phases t)) (length vevs)).
(** the tracing of a model with [n] vevs and [m] counterterms gives points of that dimension, and no phase without a minimum *)
Definition tracing_ok (n m : nat) (t : traced) : Prop :=
  length (t_ct t) = m /\ (forall i, no_tab (t_time t i)) /\
  List.Forall (fun p => p <> [] /\ List.Forall (fun x => length (m_point x) = n) p) (t_phases t).
(** the parameter points among the requested lines: line 1 is the legend *)
Definition points_in (first last : Z) (ls : list str) : list str := in_range (Z.max 2 first) last 1 ls.
