(** C87, C88, C89: at which temperatures the bounce equation is solved *)
From Coq Require Import QArith Qabs Lqa List Sorted.
Import ListNotations.
From Verif.Model Require Import Base BounceScan.
From Verif.Spec Require Import BounceScanSpec ScanSpec.
From Verif.Proofs Require Import BounceScanProofs ScanProofs.
Open Scope Q_scope.

(** C87: the initial scan *)
Theorem C87_initial_temperatures :
  forall Tm Tc N viable action fuel, 0 <= Tm -> Tm < Tc -> (0 < N)%nat -> (N <= fuel)%nat ->
  let dT := (Tc - Tm) / inject_Z (Z.of_nat N) in
  let E := planned viable (steps (Tc - dT) dT (N - 1)) 0 in
  exists s m, initial_loop Tm viable action fuel dT (Tc - dT) {| sols := []; calls := 0 |} = Ok s /\
    (m <= length E)%nat /\ calls s = m /\ sols s = rev (flat_map (entry action) (firstn m E)) /\
    (forall k p, (S k < m)%nat -> nth_error E k = Some p -> ~ low_enough action p) /\
    (m = length E \/ exists p, nth_error E (m - 1) = Some p /\ (0 < m)%nat /\ low_enough action p).
Proof. exact initial_scan. Qed.
Print Assumptions C87_initial_temperatures.
(** C87: the temperatures are equidistant *)
Theorem C87_equidistant : forall T dT n k, (k < n)%nat -> nth k (steps T dT n) 0 == T - inject_Z (Z.of_nat k) * dT.
Proof.
  intros T dT n k K. unfold steps. rewrite (nth_indep _ 0 (Nat.iter 0 (fun t => t - dT) T)) by (rewrite map_length, seq_length; exact K).
  rewrite (map_nth (fun k => Nat.iter k (fun t => t - dT) T)), seq_nth by exact K. apply iter_value.
Qed.
Print Assumptions C87_equidistant.
(** S3/T = T: from 90 downwards in steps of 10, the scan ends below 40; 60 is not viable *)
Example C87_nonvacuous :
  match initial_loop 0 (fun T => negb (Qeq_bool T 60)) (fun _ T _ => Some (T * T)) 10 10 90 {| sols := []; calls := 0 |} with
  | Ok s => (map (fun x => Qred (sT x)) (sols s), calls s) = ([30; 40; 50; 70; 80; 90], 6%nat)
  | _ => False
  end.
Proof. vm_compute. reflexivity. Qed.

(** C88: refinement between neighbours *)
Theorem C88_refinement :
  forall a b, 0 < sT a -> sT a < sT b -> per a < per b -> per a <= 200 -> 50 <= per b ->
  exists Ts, cuts a b 20 Ts /\
    between_two a b = Ok (filter (fun T => let p := (T - sT a) * (per b - per a) / (sT b - sT a) + per a in Qlt_bool p 400 && Qlt_bool 0 p) Ts).
Proof. exact between_cuts. Qed.
Print Assumptions C88_refinement.
(** C88: nothing outside the range of interest and between neighbours that do not rise *)
Theorem C88_no_refinement :
  forall a b, 0 < sT a -> sT a < sT b -> 200 < per a \/ per b < 50 \/ per b <= per a -> between_two a b = Ok [].
Proof. exact between_none. Qed.
Print Assumptions C88_no_refinement.
Example C88_nonvacuous : between_two {| sT := 10; sS := 1000 |} {| sT := 20; sS := 4000 |} = Ok [12; 14; 16; 18].
Proof. vm_compute. reflexivity. Qed.

(** C89: towards high actions *)
Theorem C89_towards_high_partial :
  forall Tm Tc viable action fuel s s', 0 < Tm -> increasing (sols s) -> physical Tm Tc (sols s) -> (2 <= length (sols s))%nat ->
  GWScanTowardsHighAction Tm Tc viable action fuel 0 s = Ok s' ->
  exists new j, sols s' = sols s ++ new /\ extends_up Tc (sols s) new j /\ stops_up Tc viable action (sols s') (Z.of_nat j).
Proof.
  intros Tm Tc viable action fuel s s' H I P L G.
  destruct (up_char Tm Tc viable action H fuel 0 s s' (conj I P) L G) as (new & j & R1 & R2 & R3). exists new, j. now repeat split.
Qed.
Print Assumptions C89_towards_high_partial.
(** C89: towards low actions *)
Theorem C89_towards_low_partial :
  forall Tm Tc viable action fuel s s', 0 < Tm -> increasing (sols s) -> physical Tm Tc (sols s) -> (2 <= length (sols s))%nat ->
  GWScanTowardsLowAction Tm Tc viable action fuel 0 s = Ok s' ->
  exists new j, sols s' = new ++ sols s /\ extends_down Tm (sols s) new j /\ stops_down Tm viable action (sols s') (Z.of_nat j).
Proof.
  intros Tm Tc viable action fuel s s' H I P L G.
  destruct (down_char Tm Tc viable action H fuel 0 s s' (conj I P) L G) as (new & j & R1 & R2 & R3). exists new, j. now repeat split.
Qed.
Print Assumptions C89_towards_low_partial.
(** C89: the scan gives up early although nothing is in its way: action over temperature is the straight line
    20 (T - 10), every evaluation succeeds, and the region reaches down to where it is zero *)
Theorem C89_gives_up_refuted :
  exists Tm Tc N viable action s,
    (forall T, viable T = true) /\ (forall n T smart, exists v, action n T smart = Some v /\ v == T * (20 * (T - 10))) /\
    Tm == 10 /\ GWInitialScan Tm Tc N viable action 200 = Ok (s, true) /\
    Forall (fun x => 70 <= per x) (sols s).
Proof.
  exists 10, 260, 25%nat, (fun _ => true), (fun (_ : nat) (T : Q) (_ : bool) => Some (Qred (T * (20 * (T - 10))))).
  eexists. split; [reflexivity|]. split; [intros n T smart; eexists; split; [reflexivity|apply Qred_correct]|]. split; [reflexivity|].
  split; [vm_compute; reflexivity|]. cbn [sols].
  repeat (constructor; [vm_compute; discriminate|]). constructor.
Qed.
Print Assumptions C89_gives_up_refuted.
(** the direct run from 90 and 100 with S3/T = T ends at 160 instead of 200 *)
Example C89_nonvacuous :
  let s := {| sols := [{| sT := 90; sS := 8100 |}; {| sT := 100; sS := 10000 |}]; calls := 2 |} in
  increasing (sols s) /\ physical 10 1000 (sols s) /\
  match GWScanTowardsHighAction 10 1000 (fun _ => true) (fun _ T _ => Some (T * T)) 100 0 s with
  | Ok s' => map (fun x => Qred (per x)) (sols s') = [90; 100; 110; 120; 130; 140; 150; 160]
  | _ => False
  end.
Proof.
  cbn zeta. split; [repeat constructor|]. split; [repeat (constructor; [cbn; lra|]); constructor|]. vm_compute. reflexivity.
Qed.
