(** C143: the diagram of the phases. *)
From Coq Require Import QArith Qround ZArith List Ascii Arith Lia Lqa.
From Verif Require Import Model.PhaseDiagram Spec.PhaseDiagramSpec Proofs.PhaseDiagramProofs.
Import ListNotations.
Local Open Scope Z_scope.

(** The range of temperatures is divided into size cells.  The bar of a phase in the range has size characters, a dot in each cell the phase
    reaches into and a blank in the others. *)
Theorem C143_bar : forall size v p, 0 < size -> (low v < high v)%Q -> inside v p ->
  exists l, bar size v p = Drawn l /\ Z.of_nat (List.length l) = size /\
    forall i, 0 <= i < size -> (nth (Z.to_nat i) l zero = "."%char <-> reaches size v p i) /\ (nth (Z.to_nat i) l zero = " "%char <-> ~ reaches size v p i).
Proof. intros size v p S V. exact (bar_ok size v p S V). Qed.
Example C143_nonvacuous : inside (mkRange 0 300) (mkRange 31 95) /\ bar 10 (mkRange 0 300) (mkRange 31 95) = Drawn (map (fun b : bool => if b then "."%char else " "%char) [false; true; true; true; false; false; false; false; false; false]).
Proof. split; [unfold inside; cbn; lra|reflexivity]. Qed.

(** For a phase that leaves the range std::length_error is thrown. *)
Theorem C143_outside : forall size v p, 0 < size -> (low v < high v)%Q -> (low p <= high p)%Q ->
  (low p < low v)%Q \/ (high v < high p)%Q -> bar size v p = LengthError.
Proof. intros size v p S V. exact (bar_outside size v p S V). Qed.
Example C143_nonvacuous_outside : bar 100 (mkRange 10 300) (mkRange 9 50) = LengthError /\ bar 100 (mkRange 0 300) (mkRange 9 301) = LengthError.
Proof. split; reflexivity. Qed.

(** The temperatures at which a phase is plotted go from one of its ends to the other in equal steps. *)
Theorem C143_samples_partial : forall size v p, 0 < size -> (low v < high v)%Q -> (low p < high p)%Q -> exists n, (0 < n)%nat /\ List.length (samples size v p) = S n /\
  (exists a b, nth_error (samples size v p) 0 = Some (Some a) /\ (a == low p)%Q /\ nth_error (samples size v p) n = Some (Some b) /\ (b == high p)%Q) /\
  forall i, (i < n)%nat -> exists a b, nth_error (samples size v p) i = Some (Some a) /\ nth_error (samples size v p) (S i) = Some (Some b) /\
    (b - a == (high p - low p) / inject_Z (Z.of_nat n))%Q /\ (low p <= a)%Q /\ (b <= high p)%Q.
Proof. intros size v p S V. exact (sample_ok size v p S V). Qed.
Example C143_nonvacuous_samples : List.length (samples 10 (mkRange 0 300) (mkRange 31 95)) = 4%nat.
Proof. reflexivity. Qed.
(** A phase that consists of the minimum at the upper end of the range is plotted at a temperature that is not a number, and its bar is empty. *)
Theorem C143_samples_refuted : exists v p, inside v p /\ samples 100 v p = [None] /\ bar 100 v p = Drawn (repeat " "%char 100).
Proof. exists (mkRange 0 300), (mkRange 300 300). split; [unfold inside; cbn; lra|]. split; reflexivity. Qed.

(** The first seven phases have different visible markers, which repeat after eight phases. *)
Theorem C143_markers_partial : (forall i j, (i < 7)%nat -> (j < 7)%nat -> visible (marker i) /\ (marker i = marker j -> i = j)) /\
  forall i, marker (i + 8) = marker i.
Proof. exact (conj marker_ok marker_period). Qed.
(** Every eighth phase is plotted with the null character at the end of the array. *)
Theorem C143_markers_refuted : forall i, ~ visible (marker (7 + 8 * i)).
Proof. exact marker_bad. Qed.

Print Assumptions C143_bar.
Print Assumptions C143_outside.
Print Assumptions C143_samples_partial.
Print Assumptions C143_samples_refuted.
Print Assumptions C143_markers_partial.
Print Assumptions C143_markers_refuted.
