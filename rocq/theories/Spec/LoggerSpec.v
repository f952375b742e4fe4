(** Specification of the logger as a history (C05). *)
From Verif.Model Require Import Base Logger.

(** Effect of one operation on whether level [l] is enabled:
    [Some b] = the operation decides it, [None] = the operation leaves it. *)
Definition effect (o : log_op) (l : level) : option bool :=
  match o with
  | OpSet l' b => if level_eqb l l' then Some b else None
  | OpSetMap m =>
      (* the last entry for [l] in the map argument *)
      fold_left (fun acc kb => if level_eqb l (fst kb) then Some (snd kb) else acc) m None
  | OpDisable => Some false
  | OpQuery _ | OpWrite _ _ => None
  end.

(** enabled after a history (oldest first): the last deciding operation wins; at
    start only the default level is enabled *)
Fixpoint enabled (h_rev : list log_op) (l : level) : bool :=
  match h_rev with
  | [] => level_eqb l LDefault
  | o :: r => match effect o l with Some b => b | None => enabled r l end
  end.

(** messages that must appear: those written while their level is enabled.
    [before] is the reversed history before the operations in [h]. *)
Fixpoint expected_output (before h : list log_op) : list (level * str) :=
  match h with
  | [] => []
  | o :: r =>
      (match o with
       | OpWrite l msg => if enabled before l then [(l, msg)] else []
       | _ => []
       end) ++ expected_output (o :: before) r
  end.

(** the option under which the user sets a level *)
Definition option_of (l : level) : option str :=
  match l with
  | LNone => None
  | LDefault => Some (s2l "logginglevel::default")
  | LMinimizerDetailed => Some (s2l "logginglevel::minimizerdetailed")
  | LMinTracerDetailed => Some (s2l "logginglevel::mintracerdetailed")
  | LTransitionDetailed => Some (s2l "logginglevel::transitiondetailed")
  | LGWDetailed => Some (s2l "logginglevel::gwdetailed")
  | LBounceDetailed => Some (s2l "logginglevel::bouncedetailed")
  | LProgDetailed => Some (s2l "logginglevel::progdetailed")
  | LEWBGDetailed => Some (s2l "logginglevel::ewbgdetailed")
  | LDebug => Some (s2l "logginglevel::debug")
  | LComplete => Some (s2l "logginglevel::complete")
  end.

(** an argument the raw-argument interface understands *)
Definition recognised (el : str) : Prop :=
  exists pre l v, In (pre, l) LoggingPrefixes /\ el = pre ++ v.

(** raw arguments as a history of (level, text after '='), oldest first: level [l]
    afterwards, when it was [before] at the start.  A later setting wins; setting
    "complete" to true switches everything on except the minimiser details. *)
Fixpoint raw_enabled (h_rev : list (level * str)) (before : bool) (l : level) : bool :=
  match h_rev with
  | [] => before
  | (l', v) :: r =>
      if level_eqb l LMinimizerDetailed && level_eqb l' LComplete && str_eqb v (s2l "true") then false
      else if level_eqb l' LComplete && str_eqb v (s2l "true") && negb (level_eqb l LNone) then true
      else if level_eqb l l' then str_eqb v (s2l "true")
      else raw_enabled r before l
  end.

(** what the user types for a level *)
Definition raw_arg (lv : level * str) : str :=
  match option_of (fst lv) with
  | Some k => s2l "--" ++ k ++ s2l "=" ++ snd lv
  | None => []
  end.
