(** C20, C63: sign symmetries. *)
From Verif.Model Require Import Base Signs.
From Verif.Spec Require Import SignsSpec.
From Verif.Proofs Require Import SignsProofs ReduceProofs.
Open Scope Z_scope.

(** C63: every combination of sign flips is tried exactly once *)
Theorem C63_discrete_symmetries_exact :
  forall check n, exists fuel l,
    FindDiscreteSymmetries check n fuel = Ok l /\ NoDup l /\
    (forall g, In g l <-> sign_vector n g /\ check g = true) /\
    (check (identity n) = true -> exists r, l = identity n :: r).
Proof. exact discrete_exact. Qed.
Print Assumptions C63_discrete_symmetries_exact.

Theorem C63_sign_symmetries_exact :
  forall check n, exists fuel l,
    FindSignSymmetries check n fuel = Ok l /\ NoDup l /\
    (forall g, In g l <-> sign_vector n g /\ g <> identity n /\ check g = true).
Proof. exact sign_exact. Qed.
Print Assumptions C63_sign_symmetries_exact.

Example C63_nonvacuous :
  FindDiscreteSymmetries (fun g => negb (hd 1 g =? -1)) 3 10 = Ok [[1; 1; 1]; [1; -1; 1]; [1; 1; -1]; [1; -1; -1]] /\
  FindSignSymmetries (fun g => hd 1 g =? -1) 3 10 = Ok [[-1; 1; 1]; [-1; -1; 1]; [-1; 1; -1]; [-1; -1; -1]].
Proof. split; reflexivity. Qed.

(** C20: the reduced VEV is an image of the VEV under the symmetry group *)
Theorem C20_stays_in_orbit :
  forall thr n G v, sign_group n G -> length v = n ->
    exists g, In g G /\ ReduceVEV thr G v = Ok (apply_signs g v).
Proof. exact reduce_orbit. Qed.
Print Assumptions C20_stays_in_orbit.

Theorem C20_potential_unchanged :
  forall thr (T : Type) (V : list Z -> T) G v w,
    (forall g, In g G -> length g = length v) ->
    (forall g u, In g G -> length u = length v -> V (apply_signs g u) = V u) ->
    ReduceVEV thr G v = Ok w -> V w = V v /\ length w = length v.
Proof. exact @reduce_potential. Qed.
Print Assumptions C20_potential_unchanged.

(** the measure (positive components as binary number) never gets smaller *)
Theorem C20_measure_never_smaller :
  forall thr G v w, (forall g, In g G -> length g = length v) ->
    ReduceVEV thr (identity (length v) :: G) v = Ok w -> measure thr v <= measure thr w.
Proof. exact reduce_measure. Qed.
Print Assumptions C20_measure_never_smaller.

(** Equivalent VEVs need not be mapped to the same representative. *)
Definition bad_group : list (list Z) := [[1; 1; 1; 1]; [1; -1; -1; 1]; [-1; -1; 1; -1]; [-1; 1; -1; -1]].
Theorem C20_canonical_refuted :
  exists check G v g w1 w2,
    FindDiscreteSymmetries check 4 20 = Ok G /\ sign_group 4 G /\ In g G /\ Forall (fun x => 5 <= Z.abs x) v /\
    ReduceVEV 5 G v = Ok w1 /\ ReduceVEV 5 G (apply_signs g v) = Ok w2 /\ w1 <> w2.
Proof.
  exists (fun g => existsb (fun h => if list_eq_dec Z.eq_dec g h then true else false) bad_group),
    [[1; 1; 1; 1]; [1; -1; -1; 1]; [-1; -1; 1; -1]; [-1; 1; -1; -1]],
    [100; 200; 300; 400], [-1; -1; 1; -1]. eexists. eexists.
  split; [vm_compute; reflexivity|]. split.
  - split; [left; reflexivity|]. split.
    + intros g Hg. destruct Hg as [<-|[<-|[<-|[<-|[]]]]]; (split; [reflexivity|repeat (apply Forall_cons; [lia|]); apply Forall_nil]).
    + intros g h Hg Hh.
      destruct Hg as [<-|[<-|[<-|[<-|[]]]]], Hh as [<-|[<-|[<-|[<-|[]]]]]; vm_compute; tauto.
  - split; [vm_compute; tauto|]. split; [repeat constructor; vm_compute; congruence|].
    split; [vm_compute; reflexivity|]. split; [vm_compute; reflexivity|]. discriminate.
Qed.
Print Assumptions C20_canonical_refuted.

(** They are if the symmetries are independent flips of a set S of components: the
    components of S become positive, all others are unchanged ... *)
Theorem C20_canonical_form_partial :
  forall thr, 0 < thr -> forall n S check, length S = n ->
    (forall g, sign_vector n g -> (check g = true <-> flips_only S g)) ->
    exists fuel G, FindDiscreteSymmetries check n fuel = Ok G /\
      forall v, length v = n -> ReduceVEV thr G v = Ok (abs_on thr S v).
Proof. exact reduce_canonical. Qed.
Print Assumptions C20_canonical_form_partial.

(** ... and this form is the same for all equivalent VEVs with components above the
    threshold *)
Theorem C20_canonical_form_invariant_partial :
  forall thr, 0 < thr -> forall S g v, length S = length v -> length g = length v -> flips_only S g ->
    sign_vector (length v) g -> Forall (fun x => thr <= Z.abs x) v ->
    abs_on thr S (apply_signs g v) = abs_on thr S v.
Proof. exact abs_on_invariant. Qed.
Print Assumptions C20_canonical_form_invariant_partial.

Definition demo_check (g : list Z) : bool := match g with [_; 1; _] => true | _ => false end.
Example C20_nonvacuous :
  (forall g, sign_vector 3 g -> (demo_check g = true <-> flips_only [true; false; true] g)) /\
  (exists G, FindDiscreteSymmetries demo_check 3 10 = Ok G /\ ReduceVEV 5 G [-7; -8; -9] = Ok [7; -8; 9]).
Proof.
  split.
  - intros g [L H]. destruct g as [|a [|b [|c [|d g]]]]; try discriminate. inversion H as [|? ? Ha H1]; subst.
    inversion H1 as [|? ? Hb H2]; subst. cbn. split.
    + intro E. destruct Hb as [-> | ->]; [|discriminate]. intros [|[|[|[|i]]]] Hi; cbn in *; try reflexivity; try discriminate.
    + intro F. destruct Hb as [-> | ->]; [reflexivity|]. specialize (F 1%nat eq_refl). discriminate.
  - eexists. split; reflexivity.
Qed.
