(** Specification of the argument parser as a history of declarations and
    supplied values (C01-C03). *)
From Verif.Model Require Import Base Strings Parser.

Definition same_name (a b : str) : Prop := to_lower a = to_lower b.

(** chronological list of all supplied key/value pairs *)
Fixpoint supplied (h : list call) : list (str * str) :=
  match h with
  | [] => []
  | CDeclare _ _ :: r => supplied r
  | CSupply kvs :: r => kvs ++ supplied r
  end.

(** [v] is the value supplied last under [name] *)
Definition last_value (name : str) (kvs : list (str * str)) (v : str) : Prop :=
  exists pre k post,
    kvs = pre ++ (k, v) :: post /\ same_name k name /\
    (forall k' v', In (k', v') post -> ~ same_name k' name).

Definition never_supplied (name : str) (kvs : list (str * str)) : Prop :=
  forall k v, In (k, v) kvs -> ~ same_name k name.

(** no name is declared both as required and as optional *)
Definition consistent (h : list call) : Prop :=
  forall a b, In (CDeclare a true) h -> In (CDeclare b false) h -> ~ same_name a b.

Definition declared_in (h : list call) (name : str) : Prop :=
  exists n r, In (CDeclare n r) h /\ same_name n name.

(** a name the parser object currently knows: some later supply of it would be
    accepted *)
Definition known (p : parser) (name : str) : Prop :=
  In (to_lower name) (map fst (required p)) \/ In (to_lower name) (map fst (optional p)).

(** the pairs of a json object that count as options: comments are left out *)
Inductive without_comments : list (str * str) -> list (str * str) -> Prop :=
| wc_nil : without_comments [] []
| wc_comment k v m r :
    without_comments m r -> without_comments ((k ++ s2l "_comment", v) :: m) r
| wc_keep k v m r :
    (forall k', k <> k' ++ s2l "_comment") -> without_comments m r ->
    without_comments ((k, v) :: m) ((k, v) :: r).
