(** C82: result of the check for symmetry restoration. C83: the minimum it stores. *)
From Coq Require Import Reals List ZArith Lra Lia.
From Verif.Model Require Import Base EWSR.
From Verif.Spec Require Import NumDerivSpec EWSRSpec.
From Verif.Proofs Require Import EWSRProofs.
Import ListNotations.
Open Scope R_scope.

(** ** C82 *)

(** The result is 0 if the smallest eigenvalue never settles or no minimum can be computed, -1 if it
    settles at a negative value, otherwise 3 or 2 with the stored point; it never settles at 0. *)
Theorem C82_result_partial :
  forall ewvev steps,
    ((forall i, ~ settles steps i) -> IsThereEWSymmetryRestoration ewvev steps = (0%Z, None)) /\
    forall i s e, settles steps i -> nth_error steps i = Some s -> ev s = Some e ->
      (e < 0 -> IsThereEWSymmetryRestoration ewvev steps = ((-1)%Z, None)) /\
      (0 < e -> stat s = None -> IsThereEWSymmetryRestoration ewvev steps = (0%Z, None)) /\
      (forall x, 0 < e -> stat s = Some x -> ewvev x <= 1 / 2 -> IsThereEWSymmetryRestoration ewvev steps = (3%Z, Some x)) /\
      (forall x, 0 < e -> stat s = Some x -> 1 / 2 < ewvev x -> IsThereEWSymmetryRestoration ewvev steps = (2%Z, Some x)) /\
      e <> 0.
Proof. exact check_spec. Qed.
Print Assumptions C82_result_partial.

(** A flat region is never reported: the result 1 does not occur, and a potential which is flat at
    all temperatures is reported as a failed calculation. *)
Theorem C82_flat_refuted :
  (forall ewvev steps, fst (IsThereEWSymmetryRestoration ewvev steps) <> 1%Z) /\
  forall ewvev steps, Forall (fun s => ev s = Some 0) steps -> IsThereEWSymmetryRestoration ewvev steps = (0%Z, None).
Proof. exact (conj never_flat flat_fails). Qed.
Print Assumptions C82_flat_refuted.

(** ** C83 *)

(** If x solves H x = g, the minimum of the quadratic function is at -x ... *)
Theorem C83_minimum_is_mirrored :
  forall n c g H x, symmetric n H -> positive n H -> solves n H g x ->
    forall y, quad n c g H (fun i => - x i) <= quad n c g H y.
Proof. exact quad_min. Qed.
Print Assumptions C83_minimum_is_mirrored.

(** ... so the stored point is the minimum only if the gradient vanishes, ... *)
Theorem C83_stored_minimum_partial :
  forall n c g H x, symmetric n H -> positive n H -> solves n H g x -> (forall i, (i < n)%nat -> g i = 0) ->
    forall y, quad n c g H x <= quad n c g H y.
Proof. exact stored_minimum. Qed.
Print Assumptions C83_stored_minimum_partial.

Theorem C83_stored_minimum_refuted :
  exists n c g H x y, symmetric n H /\ positive n H /\ solves n H g x /\ quad n c g H y < quad n c g H x.
Proof. exact stored_minimum_refuted. Qed.
Print Assumptions C83_stored_minimum_refuted.

(** ... but the reported status is that of the true minimum as the electroweak vev has no sign. *)
Theorem C83_status_unaffected :
  forall ewvev steps, (forall x, ewvev (map Ropp x) = ewvev x) ->
    fst (IsThereEWSymmetryRestoration ewvev
           (map (fun s => {| ev := ev s; stat := option_map (map Ropp) (stat s) |}) steps)) =
    fst (IsThereEWSymmetryRestoration ewvev steps).
Proof. exact status_mirror. Qed.
Print Assumptions C83_status_unaffected.

(** ** Examples *)
Definition steady (e : R) : list ewsr_step := repeat {| ev := Some e; stat := Some [246] |} 3.
Example C82_nonvacuous : settles (steady 1) 2 /\ settles (steady (-1)) 2.
Proof. exact steady_settles. Qed.
Example C83_nonvacuous :
  symmetric 1 (fun _ _ => 1) /\ positive 1 (fun _ _ => 1) /\ solves 1 (fun _ _ => 1) (fun _ => 1) (fun _ => 1) /\
  solves 1 (fun _ _ => 1) (fun _ => 0) (fun _ => 0) /\ (forall x : list R, length (map Ropp x) = length x).
Proof. exact quad_example. Qed.
