(** A model object whose parts all belong to the same parameter point. *)
From Coq Require Import List.

(** members, tensors, couplings, thermal masses and the stored vectors belong to the point [p], counterterms are [c] *)
Definition consistent {P C} (members tensors couplings stored : option P) (debye : option (P * P)) (ct stored_ct : option C) (p : P) (c : C) : Prop :=
  members = Some p /\ tensors = Some p /\ couplings = Some p /\ stored = Some p /\ debye = Some (p, p) /\ ct = Some c /\ stored_ct = Some c.
