(** C08: model names. C09: string helpers. *)
From Coq Require Import Permutation.
From Verif.Model Require Import Base Strings Models.
From Verif.Spec Require Import StringsSpec.
From Verif.Proofs Require Import StringsProofs ParserMore ModelsProofs.

(** For every iteration order of the name table. *)
Theorem C08_roundtrip_case_insensitive :
  forall names id,
    Permutation ModelNames names -> id <> NotSet -> id <> Stop ->
    exists s, ModelIDToString names id = Ok s /\
              (forall t, same_word t s -> getModel names t = id) /\
              FChoose id = Ok id.
Proof.
  intros names id P A B. destruct (models_roundtrip names id P A B) as (s & E & F & G). exists s.
  split; [exact E|]. split; [|exact G]. intros t W. apply F, to_lower_same_word, W.
Qed.
Print Assumptions C08_roundtrip_case_insensitive.

Theorem C08_names_distinct :
  forall names i j s t,
    Permutation ModelNames names ->
    ModelIDToString names i = Ok s -> ModelIDToString names j = Ok t ->
    same_word s t -> i = j.
Proof. intros names i j s t P A B W. apply to_lower_same_word in W. exact (models_injective names i j s t P A B W). Qed.
Print Assumptions C08_names_distinct.

Theorem C08_other_strings_rejected :
  forall names s,
    Permutation ModelNames names ->
    (forall id t, ModelIDToString names id = Ok t -> ~ same_word t s) ->
    getModel names s = NotSet /\ FChoose (getModel names s) = Throw RuntimeError.
Proof.
  intros names s P H. apply models_other; [exact P|]. intros id t E W. apply (H id t E), to_lower_same_word, W.
Qed.
Print Assumptions C08_other_strings_rejected.

(** a table giving one model two names is refused, whatever is asked for; names given once are found *)
Theorem C08_ambiguous_table_refused :
  forall names id,
    (~ NoDup (map snd names) -> ModelIDToString names id = Throw RuntimeError) /\
    (NoDup (map snd names) -> forall s, ModelIDToString names id = Ok s <-> In (s, id) names).
Proof. exact models_inverse. Qed.
Print Assumptions C08_ambiguous_table_refused.

Example C08_nonvacuous_ambiguous : ~ NoDup (map snd ((s2l "two", R2HDM) :: ModelNames)) /\ NoDup (map snd ModelNames).
Proof.
  split.
  - intro H. apply NoDup_cons_iff in H as (H & _). apply H. vm_compute. auto 12.
  - cbn [ModelNames map snd]. repeat constructor; cbn [In]; intuition discriminate.
Qed.

Example C08_nonvacuous :
  getModel ModelNames (s2l "R2hDm") = R2HDM /\ getModel (rev ModelNames) (s2l "CxSM") = CXSM /\
  getModel ModelNames (s2l "smx") = NotSet /\ ModelIDToString ModelNames SM = Ok (s2l "sm").
Proof. vm_compute. auto. Qed.

(** C09 *)
Theorem C09_split_join :
  forall d s,
    (is_suffix [d] s -> join d (split s d) ++ [d] = s) /\
    (~ is_suffix [d] s -> join d (split s d) = s).
Proof. exact split_join. Qed.
Print Assumptions C09_split_join.

Theorem C09_split_pieces : forall d s, Forall (fun p => ~ In d p) (split s d).
Proof. exact split_pieces. Qed.
Print Assumptions C09_split_pieces.

Theorem C09_split_of_join :
  forall d l,
    Forall (fun p => ~ In d p) l -> l <> [] -> last l [] <> [] -> split (join d l) d = l.
Proof. exact split_of_join. Qed.
Print Assumptions C09_split_of_join.

Theorem C09_starts_with : forall s p, StringStartsWith s p = true <-> is_prefix p s.
Proof. exact starts_with_spec. Qed.
Print Assumptions C09_starts_with.

Theorem C09_ends_with : forall s p, StringEndsWith s p = true <-> is_suffix p s.
Proof. exact ends_with_spec. Qed.
Print Assumptions C09_ends_with.

Example C09_nonvacuous :
  split (s2l "a,,b,") "," = [s2l "a"; []; s2l "b"] /\
  StringStartsWith (s2l "abc") (s2l "ab") = true /\ StringStartsWith (s2l "xab") (s2l "ab") = false /\
  StringEndsWith (s2l "abc") (s2l "bc") = true /\ StringEndsWith (s2l "c") (s2l "bc") = false.
Proof. vm_compute. auto 10. Qed.
