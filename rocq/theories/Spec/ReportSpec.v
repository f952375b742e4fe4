(** Specification of the transition tracer's status lists and of the output tables (C22-C26, C64-C66). *)
From Coq Require Import QArith.
From Verif.Model Require Import Base Tracer.
Open Scope Z_scope.

(** ** Statuses of a phase pair *)

(** a pair is worked on if its critical temperature exists or the true phase is always lower *)
Definition tried (o : oracles) : Prop := o_crit o = Cr_Success \/ o_crit o = Cr_TrueLower.

(** bounce status, statuses of approximate and full nucleation, percolation and completion that
    are to be reported for a pair *)
Inductive reported (o : oracles) : st_gw -> st_temp -> st_temp -> st_temp -> st_temp -> Prop :=
| rep_skipped : ~ tried o -> reported o Gw_NotSet Te_NaN Te_NaN Te_NaN Te_NaN
| rep_no_bounce : tried o -> o_bounce o <> Gw_Success ->
    reported o (o_bounce o) Te_NaN Te_NaN Te_NaN Te_NaN
| rep_bounce p c : tried o -> o_bounce o = Gw_Success -> p <> Te_NaN -> c <> Te_NaN ->
    reported o Gw_Success (fst (o_nucl_approx o)) (fst (o_nucl o)) p c.

(** a stage that succeeded at temperature [x] reports [x] and the fields of both phases at [x]; any
    other stage reports no temperature and no field values.  There are always [n] values per phase. *)
Definition stage_data (n : nat) (o : oracles) (s : st_temp) (x : Q) (T : dbl) (t f : list dbl) : Prop :=
  (s = Te_Success -> T = Some x /\ t = o_true o (Some x) /\ f = o_false o (Some x)) /\
  (s <> Te_Success -> T = None /\ t = repeat None n /\ f = repeat None n) /\ length t = n /\ length f = n.

(** fields at the critical temperature: those of the two phases if the pair is worked on, otherwise none *)
Definition crit_data (n : nat) (o : oracles) (t f : list dbl) : Prop :=
  (tried o -> t = o_true o (o_Tc o) /\ f = o_false o (o_Tc o)) /\
  (~ tried o -> t = repeat None n /\ f = repeat None n).

(** ** Tables *)

(** number of tab separated columns of a line *)
Definition columns (s : str) : nat := S (length (filter (Ascii.eqb "009") s)).
Definition no_tab (s : str) : Prop := ~ In "009"%char s.

(** content of a text file and its lines; the last line may lack the newline *)
Inductive lines_of : str -> list str -> Prop :=
| lines_nil : lines_of [] []
| lines_last l : l <> [] -> ~ In "010"%char l -> lines_of l [l]
| lines_cons l rest ls : ~ In "010"%char l -> lines_of rest ls -> lines_of (l ++ "010"%char :: rest) (l :: ls).

(** the lines whose number (counted from [k]) is in a range *)
Fixpoint in_range (first last k : Z) (ls : list str) : list str :=
  match ls with
  | [] => []
  | l :: r => if (first <=? k) && (k <=? last) then l :: in_range first last (k + 1) r
              else in_range first last (k + 1) r
  end.

(** handle the given lines in order, stopping at the first failure *)
Fixpoint each {S} (f : str -> S -> outcome S) (ls : list str) (s : S) : outcome S :=
  match ls with [] => Ok s | l :: r => bind (f l s) (each f r) end.
