(** C16: critical temperature. *)
From Coq Require Import Lqa.
From Verif.Model Require Import Base Track Tc.
From Verif.Spec Require Import TcSpec.
From Verif.Proofs Require Import TrackProofs TcProofs.
Open Scope Q_scope.

(** the status tells the truth *)
Theorem C16_status_meaning :
  forall dV fuel lo hi st T,
    0 <= lo -> lo <= hi -> CalculateTc dV fuel lo hi = Ok (st, T) -> tc_meaning dV lo hi st T.
Proof. exact tc_cases. Qed.
Print Assumptions C16_status_meaning.

(** it returns for every energy difference if the phases coexist on an interval *)
Theorem C16_terminates_partial :
  forall dV lo hi, 0 < lo -> lo < hi -> exists fuel s, CalculateTc dV fuel lo hi = Ok s.
Proof. exact tc_terminates. Qed.
Print Assumptions C16_terminates_partial.

(** but never if the phases coexist at a single temperature (such pairs are examined,
    C15): the plotting loop advances by (T_high - T_low)/100 = 0 *)
Theorem C16_terminates_refuted :
  exists lo hi, 0 < lo /\ lo <= hi /\ forall dV fuel, CalculateTc dV fuel lo hi = OutOfFuel.
Proof.
  exists 100, 100. split; [reflexivity|]. split; [discriminate|]. intros. apply tc_stuck.
Qed.
Print Assumptions C16_terminates_refuted.

Example C16_nonvacuous :
  exists T, CalculateTc (fun T => if Qle_bool T 142 then SNeg else SPos) 150 100 200 = Ok (CritSuccess, T) /\
    Qabs (T - 142) <= 1 # 10000000.
Proof. eexists. split; [vm_compute; reflexivity|vm_compute; discriminate]. Qed.
