(** C102, C103: derivatives of the one-loop potential; VEff. *)
From Coq Require Import List Reals ZArith Lra Lia Bool.
From Verif.Model Require Import Base Loop OneLoop.
From Verif.Spec Require Import OneLoopSpec.
From Verif.Proofs Require Import DerivLib LoopProofs OneLoopProofs.
Import ListNotations.
Open Scope R_scope.

Notation at_ t s := (map_spectrum (fun g : R -> R => g t) s).

(** ** C102 *)
(** field derivatives: direction 1, or temperature 0 *)
Theorem C102_field_derivative_partial :
  forall scale JIb JIf JNb JNf NHiggs T t0 (s : spectrum (R -> R)) (d : spectrum R) diff,
    (1 <= diff <= Z.of_nat NHiggs)%Z -> diff = 1%Z \/ T = 0 ->
    Forall2 (moves t0) (higgs s) (higgs d) -> Forall2 (moves t0) (gauge s) (gauge d) ->
    Forall2 (regular JIb (fun x => JNb x 1%Z) CW_threshold T t0) (higgs0 s) (higgs0 d) ->
    Forall2 (regular JIb (fun x => JNb x 1%Z) CW_threshold T t0) (gauge0 s) (gauge0 d) ->
    Forall2 (regular JIf (fun x => JNf x 1%Z) CW_threshold T t0) (quarks s) (quarks d) ->
    Forall2 (regular JIf (fun x => JNf x 1%Z) CW_threshold T t0) (leptons s) (leptons d) ->
    derivable_pt_lim (fun t => V1Loop scale JIb JIf JNb JNf NHiggs false (at_ t s) d T 0) t0
                     (V1Loop scale JIb JIf JNb JNf NHiggs false (at_ t0 s) d T diff).
Proof. exact field_derivative. Qed.
Print Assumptions C102_field_derivative_partial.

(** every other direction at non-zero temperature: the thermal part of the derivative is missing *)
Theorem C102_field_derivative_error :
  forall scale JIb JIf JNb JNf NHiggs T t0 (s : spectrum (R -> R)) (d : spectrum R) diff,
    (1 < diff <= Z.of_nat NHiggs)%Z -> T <> 0 ->
    Forall2 (moves t0) (higgs s) (higgs d) -> Forall2 (moves t0) (gauge s) (gauge d) ->
    Forall2 (regular JIb (fun x => JNb x 1%Z) CW_threshold T t0) (higgs0 s) (higgs0 d) ->
    Forall2 (regular JIb (fun x => JNb x 1%Z) CW_threshold T t0) (gauge0 s) (gauge0 d) ->
    Forall2 (regular JIf (fun x => JNf x 1%Z) CW_threshold T t0) (quarks s) (quarks d) ->
    Forall2 (regular JIf (fun x => JNf x 1%Z) CW_threshold T t0) (leptons s) (leptons d) ->
    derivable_pt_lim (fun t => V1Loop scale JIb JIf JNb JNf NHiggs false (at_ t s) d T 0) t0
      (V1Loop scale JIb JIf JNb JNf NHiggs false (at_ t0 s) d T diff
       + T ^ 2 / (2 * PI ^ 2) * (on (fun x y => y * JNb (x / T ^ 2) 1%Z) (higgs0 (at_ t0 s)) (higgs0 d)
                                 + 3 * on (fun x y => y * JNb (x / T ^ 2) 1%Z) (gauge0 (at_ t0 s)) (gauge0 d)
                                 - 6 * on (fun x y => y * JNf (x / T ^ 2) 1%Z) (quarks (at_ t0 s)) (quarks d)
                                 - 2 * on (fun x y => y * JNf (x / T ^ 2) 1%Z) (leptons (at_ t0 s)) (leptons d))).
Proof. exact field_error. Qed.
Print Assumptions C102_field_derivative_error.

Theorem C102_field_derivative_refuted :
  exists scale JI JN T t0 (s : spectrum (R -> R)) (d : spectrum R), T <> 0 /\
    Forall2 (moves t0) (higgs s) (higgs d) /\ Forall2 (regular JI (fun x => JN x 1%Z) CW_threshold T t0) (higgs0 s) (higgs0 d) /\
    length (higgs s) = 2%nat /\
    ~ derivable_pt_lim (fun t => V1Loop scale JI JI JN JN 2 false (at_ t s) d T 0) t0 (V1Loop scale JI JI JN JN 2 false (at_ t0 s) d T 2).
Proof. exact field_refuted. Qed.
Print Assumptions C102_field_derivative_refuted.

(** the temperature derivative used for the strength of a transition (diff = -1) *)
Theorem C102_temperature_derivative_error :
  forall scale JIb JIf JNb JNf NHiggs T (s : spectrum (R -> R)) (d : spectrum R),
    T <> 0 -> (forall x, JIb x = JNb x 0%Z) -> (forall x, JIf x = JNf x 0%Z) ->
    Forall2 (moves T) (higgs s) (higgs d) -> Forall2 (moves T) (gauge s) (gauge d) ->
    Forall (thermal_point JIb (fun x => JNb x 1%Z) T) (higgs0 s) -> Forall (thermal_point JIb (fun x => JNb x 1%Z) T) (gauge0 s) ->
    Forall (thermal_point JIf (fun x => JNf x 1%Z) T) (quarks s) -> Forall (thermal_point JIf (fun x => JNf x 1%Z) T) (leptons s) ->
    derivable_pt_lim (fun t => V1Loop scale JIb JIf JNb JNf NHiggs false (at_ t s) d t 0) T
      (V1Loop scale JIb JIf JNb JNf NHiggs false (at_ T s) d T (-1)
       - T / (8 * PI) * (on (fun m dm => dm * sqrt m) (higgs (at_ T s)) (higgs d) + on (fun m dm => dm * sqrt m) (gauge (at_ T s)) (gauge d))).
Proof. exact temp_error. Qed.
Print Assumptions C102_temperature_derivative_error.

Theorem C102_temperature_derivative_refuted :
  exists scale JI JN T (s : spectrum (R -> R)) (d : spectrum R), 0 < T /\ (forall x, JI x = JN x 0%Z) /\
    Forall2 (moves T) (higgs s) (higgs d) /\ Forall (thermal_point JI (fun x => JN x 1%Z) T) (higgs0 s) /\
    ~ derivable_pt_lim (fun t => V1Loop scale JI JI JN JN 1 false (at_ t s) d t 0) T (V1Loop scale JI JI JN JN 1 false (at_ T s) d T (-1)).
Proof. exact temp_refuted. Qed.
Print Assumptions C102_temperature_derivative_refuted.

(** right when no thermal mass changes with the temperature *)
Theorem C102_temperature_derivative_partial :
  forall scale JIb JIf JNb JNf NHiggs T (s : spectrum (R -> R)) (d : spectrum R),
    T <> 0 -> (forall x, JIb x = JNb x 0%Z) -> (forall x, JIf x = JNf x 0%Z) ->
    Forall2 (fun g y => moves T g y /\ (y = 0 \/ g T <= 0)) (higgs s) (higgs d) -> Forall2 (fun g y => moves T g y /\ (y = 0 \/ g T <= 0)) (gauge s) (gauge d) ->
    Forall (thermal_point JIb (fun x => JNb x 1%Z) T) (higgs0 s) -> Forall (thermal_point JIb (fun x => JNb x 1%Z) T) (gauge0 s) ->
    Forall (thermal_point JIf (fun x => JNf x 1%Z) T) (quarks s) -> Forall (thermal_point JIf (fun x => JNf x 1%Z) T) (leptons s) ->
    derivable_pt_lim (fun t => V1Loop scale JIb JIf JNb JNf NHiggs false (at_ t s) d t 0) T (V1Loop scale JIb JIf JNb JNf NHiggs false (at_ T s) d T (-1)).
Proof. exact temp_right. Qed.
Print Assumptions C102_temperature_derivative_partial.

(** the other resummation (C_UseParwani) *)
Theorem C102_parwani_field_error :
  forall scale JIb JIf JNb JNf NHiggs T t0 (s : spectrum (R -> R)) (d : spectrum R), (1 <= NHiggs)%nat ->
    Forall2 (regular JIb (fun x => JNb x 1%Z) CW_threshold T t0) (higgs s) (higgs d) ->
    Forall2 (regular JIb (fun x => JNb x 1%Z) CW_threshold T t0) (gauge s) (gauge d) ->
    Forall2 (regular JIb (fun x => JNb x 1%Z) CW_threshold T t0) (gauge0 s) (gauge0 d) ->
    Forall2 (regular JIf (fun x => JNf x 1%Z) CW_threshold T t0) (quarks s) (quarks d) ->
    Forall2 (regular JIf (fun x => JNf x 1%Z) CW_threshold T t0) (leptons s) (leptons d) ->
    derivable_pt_lim (fun t => V1Loop scale JIb JIf JNb JNf NHiggs true (at_ t s) d T 0) t0
      (V1Loop scale JIb JIf JNb JNf NHiggs true (at_ t0 s) d T 1
       + on (fun x y => y * (boson scale JIb JNb x T (5 / 6) 1 - boson scale JIb JNb x T (3 / 2) 1)) (gauge (at_ t0 s)) (gauge d)
       + on (fun x y => 2 * y * (boson scale JIb JNb x T (5 / 6) 1 - boson scale JIb JNb x T (3 / 2) 1)) (gauge0 (at_ t0 s)) (gauge0 d)).
Proof. exact parwani_field_error. Qed.
Print Assumptions C102_parwani_field_error.

Theorem C102_parwani_temperature_error :
  forall scale JIb JIf JNb JNf NHiggs T (s : spectrum (R -> R)) (d : spectrum R),
    T <> 0 -> (forall x, JIb x = JNb x 0%Z) -> (forall x, JIf x = JNf x 0%Z) ->
    Forall2 (heated JIb (fun x => JNb x 1%Z) CW_threshold T) (higgs s) (higgs d) -> Forall2 (heated JIb (fun x => JNb x 1%Z) CW_threshold T) (gauge s) (gauge d) ->
    Forall (thermal_point JIb (fun x => JNb x 1%Z) T) (gauge0 s) ->
    Forall (thermal_point JIf (fun x => JNf x 1%Z) T) (quarks s) -> Forall (thermal_point JIf (fun x => JNf x 1%Z) T) (leptons s) ->
    derivable_pt_lim (fun t => V1Loop scale JIb JIf JNb JNf NHiggs true (at_ t s) d t 0) T
      (V1Loop scale JIb JIf JNb JNf NHiggs true (at_ T s) d T (-1)
       + on (fun x y => y * (boson scale JIb JNb x T (3 / 2) 1 - boson scale JIb JNb x T (3 / 2) 0)) (higgs (at_ T s)) (higgs d)
       + on (fun x y => y * (boson scale JIb JNb x T (5 / 6) 1 - boson scale JIb JNb x T (5 / 6) 0)) (gauge (at_ T s)) (gauge d)).
Proof. exact parwani_temp_error. Qed.
Print Assumptions C102_parwani_temperature_error.

(** the two resummations agree when there are no thermal masses *)
Theorem C102_schemes_agree :
  forall scale JIb JIf JNb JNf NHiggs (m d : spectrum R) T, higgs m = higgs0 m -> gauge m = gauge0 m ->
    V1Loop scale JIb JIf JNb JNf NHiggs true m d T 0 = V1Loop scale JIb JIf JNb JNf NHiggs false m d T 0.
Proof. intros scale JIb JIf JNb JNf N m d T. exact (schemes_agree scale JIb JIf JNb JNf m T). Qed.
Print Assumptions C102_schemes_agree.

(** a moving Higgs mass, a resting gauge boson mass 0 and a moving quark mass meet the hypotheses *)
Example C102_nonvacuous :
  regular (fun x => x ^ 2) (fun x => 2 * x) CW_threshold 3 1 (fun t => t ^ 2) 2 /\ regular (fun x => x ^ 2) (fun x => 2 * x) CW_threshold 3 1 (fun _ => 0) 0 /\
  moves 1 (fun t => 5 + t) 1 /\ thermal_point (fun x => x ^ 2) (fun x => 2 * x) 3 (fun _ => 7) /\
  heated (fun x => x ^ 2) (fun x => 2 * x) CW_threshold 3 (fun t => 2 * t) 2.
Proof.
  assert (D : forall x, derivable_pt_lim (fun x => x ^ 2) x (2 * x)) by (intro x; eapply dl_eq; [dlauto|cbn; ring]).
  split; [|split; [|split; [|split]]].
  - left. split; [eapply dl_eq; [dlauto|cbn; ring]|]. split; [lra|]. split; [unfold CW_threshold; lra|]. intros _. apply D.
  - right. split; [|reflexivity]. exists 1. split; [lra|reflexivity].
  - eapply dl_eq; [dlauto|ring].
  - split; [reflexivity|]. right. apply D.
  - left. split; [eapply dl_eq; [dlauto|cbn; ring]|]. split; [lra|]. split; [unfold CW_threshold; lra|]. apply D.
Qed.

(** ** C103 *)
Theorem C103_full_vector :
  forall F nVEV NHiggs place VTree CounterTerm V1L UseTreeLevel (v : list F) T diff Order, length v = NHiggs ->
    (Order <> 0%Z /\ UseTreeLevel = false ->
      VEff F nVEV NHiggs place VTree CounterTerm V1L UseTreeLevel v T diff Order = Ok (VTree v diff + (CounterTerm v diff + V1L v T diff))) /\
    (Order = 0%Z \/ UseTreeLevel = true ->
      VEff F nVEV NHiggs place VTree CounterTerm V1L UseTreeLevel v T diff Order = Ok (VTree v diff)).
Proof. exact VEff_full_vector. Qed.
Print Assumptions C103_full_vector.

Theorem C103_wrong_size :
  forall F nVEV NHiggs place VTree CounterTerm V1L UseTreeLevel (v : list F) T diff Order, length v <> NHiggs -> length v <> nVEV ->
    VEff F nVEV NHiggs place VTree CounterTerm V1L UseTreeLevel v T diff Order = Throw RuntimeError.
Proof. exact VEff_wrong_size. Qed.
Print Assumptions C103_wrong_size.

Theorem C103_vacuum_coordinates_partial :
  forall F nVEV NHiggs place VTree CounterTerm V1L UseTreeLevel (v : list F) T diff Order, length v = nVEV -> nVEV <> NHiggs -> length (place v) = NHiggs ->
    Order <> 0%Z \/ UseTreeLevel = true ->
    VEff F nVEV NHiggs place VTree CounterTerm V1L UseTreeLevel v T diff Order = VEff F nVEV NHiggs place VTree CounterTerm V1L UseTreeLevel (place v) T diff Order.
Proof. exact VEff_vacuum. Qed.
Print Assumptions C103_vacuum_coordinates_partial.

Theorem C103_order_dropped_refuted :
  exists nVEV NHiggs (place : list R -> list R) VTree CounterTerm V1L v T diff, length v = nVEV /\ nVEV <> NHiggs /\ length (place v) = NHiggs /\
    VEff R nVEV NHiggs place VTree CounterTerm V1L false v T diff 0 <> VEff R nVEV NHiggs place VTree CounterTerm V1L false (place v) T diff 0.
Proof.
  exists 1%nat, 2%nat, (fun v => v ++ [0]), (fun _ _ => 0), (fun _ _ => 0), (fun _ _ _ => 1), [1], 0, 0%Z.
  split; [reflexivity|]. split; [discriminate|]. split; [reflexivity|]. unfold VEff, VEff_full. cbn. intro E. injection E as E. lra.
Qed.
Print Assumptions C103_order_dropped_refuted.

Example C103_nonvacuous :
  VEff R 1 2 (fun v => 0 :: v) (fun v _ => nth 1 v 0) (fun _ _ => 0) (fun _ _ _ => 0) true [3] 0 0 0 = Ok (3 + 0) /\
  VEff R 1 2 (fun v => 0 :: v) (fun v _ => nth 1 v 0) (fun _ _ => 0) (fun _ _ _ => 0) true [3; 4; 5] 0 0 0 = Throw RuntimeError.
Proof. split; reflexivity. Qed.
