(** C27, C28, C29, C67: the list of bounce actions and the searches on it. *)
From Coq Require Import QArith Qabs Lqa Sorted.
From Verif.Model Require Import Base BounceScan Tracer.
From Verif.Spec Require Import BounceScanSpec.
From Verif.Proofs Require Import BounceScanProofs NuclProofs.
Open Scope Q_scope.

(** ** C27 *)
Theorem C27_sorted_without_duplicates :
  forall Tm Tc viable action h s, 0 <= Tm ->
    increasing (sols s) -> physical Tm Tc (sols s) ->
    increasing (sols (evaluations Tm Tc viable action s h)) /\
    physical Tm Tc (sols (evaluations Tm Tc viable action s h)).
Proof. intros Tm Tc viable action h s H I P. exact (history Tm Tc H viable action h s (conj I P)). Qed.
Print Assumptions C27_sorted_without_duplicates.

Theorem C27_no_second_entry :
  forall Tm Tc viable action s T smart y, In y (sols s) -> Qabs (T - sT y) < 0.001 ->
    CalculateActionAt Tm Tc viable action s T smart = s.
Proof. exact CAA_close. Qed.
Print Assumptions C27_no_second_entry.

(** an evaluation changes the list at most by one new entry at the requested temperature *)
Theorem C27_one_new_entry :
  forall Tm Tc, 0 <= Tm -> forall viable action s T smart,
    sols (CalculateActionAt Tm Tc viable action s T smart) = sols s \/
    exists a, 0 < a /\ Tm <= T <= Tc /\ (sols s <> [] -> viable T = true) /\
      (forall y, In y (sols s) -> 0.001 <= Qabs (T - sT y)) /\
      forall z, In z (sols (CalculateActionAt Tm Tc viable action s T smart)) <-> z = {| sT := T; sS := a |} \/ In z (sols s).
Proof.
  intros Tm Tc H viable action s T smart. destruct (CAA_cases Tm Tc H viable action s T smart) as [E|(a & E & R & A & V & D)]; [now left|].
  right. exists a. split; [exact A|]. split; [exact R|]. split; [exact V|]. split; [exact D|]. intro z. rewrite E. apply insert_in.
Qed.
Print Assumptions C27_one_new_entry.

Example C27_nonvacuous :
  let act := fun (_ : nat) T (_ : bool) => Some (T * T) in
  map sT (sols (evaluations 0 100 (fun _ => true) act {| sols := []; calls := 0 |}
                  [(50, true); (20, true); (50.0005, false); (70, true); (150, true); (20, true)])) = [20; 50; 70].
Proof. vm_compute. reflexivity. Qed.

(** ** C67 *)
Theorem C67_scan_terminates :
  forall Tm Tc N viable action, 0 <= Tm -> Tm < Tc ->
    exists f0, forall fuel, (f0 <= fuel)%nat -> exists s b,
      GWInitialScan Tm Tc N viable action fuel = Ok (s, b) /\ increasing (sols s) /\ physical Tm Tc (sols s) /\
      (b = true <-> (4 <= length (sols s))%nat).
Proof. exact construction. Qed.
Print Assumptions C67_scan_terminates.

(** If the critical temperature is the lower end of the coexistence region the scan never ends: at
    the critical temperature the two potentials are equal, so the transition is not viable there. *)
Theorem C67_no_room_refuted :
  forall Tm Tc N viable action, Tm == Tc -> (0 < N)%nat -> (forall T, T == Tc -> viable T = false) ->
    forall fuel, GWInitialScan Tm Tc N viable action fuel = OutOfFuel.
Proof. exact hang. Qed.
Print Assumptions C67_no_room_refuted.

(** S3/T = 60 everywhere: nine steps between 10 and 100 *)
Example C67_nonvacuous :
  match GWInitialScan 10 100 9 (fun _ => true) (fun _ T _ => Some (60 * T)) 200 with
  | Ok (s, b) => (map (fun x => Qred (sT x)) (sols s), b) = ([20; 30; 40; 50; 60; 70; 80; 90], true)
  | _ => False
  end.
Proof. vm_compute. reflexivity. Qed.

(** ** C28 *)
Theorem C28_success_is_a_solution :
  forall g c Ts lo hi T, 0 < lo -> span Ts lo hi -> nucleation g c Ts = Some T ->
    sign_change g c (1 # 10000000000) T lo hi.
Proof. exact nucleation_sound. Qed.
Print Assumptions C28_success_is_a_solution.

Theorem C28_success_iff_sign_change :
  forall g c Ts lo hi, 0 < lo -> hi <= 100000 * lo -> span Ts lo hi ->
    ((exists T, nucleation g c Ts = Some T) <->
     (exists T v, In T Ts /\ g T = Some v /\ v < c) /\ (exists T v, In T Ts /\ g T = Some v /\ c < v)).
Proof. exact nucleation_iff. Qed.
Print Assumptions C28_success_iff_sign_change.

Example C28_nonvacuous :
  span [50; 60; 70; 80] 50 80 /\
  exists T, nucleation (fun T => Some (2 * T)) 140 [50; 60; 71; 80] = Some T /\ Qabs (T - 70) < 0.00001.
Proof.
  split; [unfold span; repeat (constructor; [lra|]); constructor|].
  destruct (nucleation (fun T => Some (2 * T)) 140 [50; 60; 71; 80]) as [T|] eqn:E; [|vm_compute in E; discriminate].
  exists T. split; [reflexivity|]. vm_compute in E. assert (H : Some T = Some T) by reflexivity. rewrite <- E in H at 1.
  injection H as <-. vm_compute. reflexivity.
Qed.

(** ** C29 *)
(** the search ends and only returns -1 or a solution *)
Theorem C29_search :
  forall I target Ts lo hi, 0 < lo -> span Ts lo hi ->
    (exists f0, forall fuel, (f0 <= fuel)%nat -> exists T, CalcTempAtFalseVacFraction I target fuel Ts = Ok T) /\
    (forall fuel T, CalcTempAtFalseVacFraction I target fuel Ts = Ok T -> T = -1 \/ solves I target T lo hi).
Proof. intros. split; [now apply (fraction_ends I target Ts lo hi)|]. intros. now apply (fraction_sound I target Ts lo hi fuel). Qed.
Print Assumptions C29_search.

(** The status reflects the first search, the temperature the second one. *)
Theorem C29_status_partial :
  forall o I0 I1 target Ts0 Ts1 f0 f1 lo hi uv v frac t0 t1,
    0 < lo -> span Ts0 lo hi -> span Ts1 lo hi ->
    CalcTempAtFalseVacFraction I0 target f0 Ts0 = Ok t0 -> CalcTempAtFalseVacFraction I1 target f1 Ts1 = Ok t1 ->
    o_tfrac_0 o v frac = t0 -> o_tfrac_1 o v frac = t1 ->
    let b := CalculatePercolationTemp o frac (set_vwall v (new_bounce uv)) in
    (status_perc b = Te_Success <-> 0 < t0) /\ (status_perc b = Te_NotMet <-> t0 = -1) /\
    (status_perc b = Te_Success -> solves I0 target t0 lo hi /\ Tperc b = t1 /\ (t1 = -1 \/ solves I1 target t1 lo hi)).
Proof. exact perc_status. Qed.
Print Assumptions C29_status_partial.

(** Success is reported together with the temperature -1 when only the second search fails. *)
Theorem C29_success_without_temperature_refuted :
  exists I0 I1 target Ts0 Ts1 o uv v frac f t0,
    span Ts0 1 2 /\ span Ts1 1 2 /\ incl Ts0 Ts1 /\
    CalcTempAtFalseVacFraction I0 target f Ts0 = Ok t0 /\ 0 < t0 /\
    CalcTempAtFalseVacFraction I1 target f Ts1 = Ok (-1) /\
    o_tfrac_0 o v frac = t0 /\ o_tfrac_1 o v frac = -1 /\
    let b := CalculatePercolationTemp o frac (set_vwall v (new_bounce uv)) in
    status_perc b = Te_Success /\ Tperc b = -1.
Proof. exact perc_success_refuted. Qed.
Print Assumptions C29_success_without_temperature_refuted.

(** A strictly decreasing integral crossing the target in the middle of the bracket is reported as
    never meeting it. *)
Theorem C29_exact_midpoint_refuted :
  exists I target Ts,
    span Ts 1 2 /\ (exists v, I (3 # 2) = Some v /\ v == target) /\
    (exists T v, In T Ts /\ I T = Some v /\ v < target) /\ (exists T v, In T Ts /\ I T = Some v /\ target < v) /\
    (forall S T v w, S < T -> I S = Some v -> I T = Some w -> w < v) /\
    forall fuel, (0 < fuel)%nat -> CalcTempAtFalseVacFraction I target fuel Ts = Ok (-1).
Proof. exact missed. Qed.
Print Assumptions C29_exact_midpoint_refuted.

Example C29_nonvacuous :
  exists T, CalcTempAtFalseVacFraction (fun T => Some (1 + 1000 * ((4 # 3) - T))) 1 100 [1; 2] = Ok T /\ 1 < T.
Proof. eexists. split; [vm_compute; reflexivity|]. vm_compute. reflexivity. Qed.
