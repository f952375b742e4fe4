(** Specification for the critical temperature (C16). *)
From Verif.Model Require Import Base Track Tc.
Open Scope Q_scope.

(** relative accuracy 1e-10 *)
Definition tc_accuracy : Q := 1 # 10000000000.

(** what each status promises about the energy difference dV = V(true) - V(false) and
    about the returned temperature, for phases coexisting on [lo, hi] *)
Definition tc_meaning (dV : Q -> sgn) (lo hi : Q) (st : status_crit) (T : Q) : Prop :=
  match st with
  | CritFalseLower => dV lo = SPos /\ dV hi = SPos /\ T = -1
  | CritTrueLower => dV lo = SNeg /\ dV hi = SNeg /\ T = hi
  | CritSuccess => dV lo = SNeg /\ dV hi = SPos /\
      exists a b, lo <= a /\ a <= b /\ b <= hi /\ (T = a \/ T = b) /\
        dV b = SPos /\ dV a <> SPos /\ b <= a * (1 + tc_accuracy)
  | CritFailure => T = -2 /\ (dV lo = SZero \/ dV hi = SZero \/ dV lo = SNaN \/ dV hi = SNaN \/
                              (dV lo = SPos /\ dV hi = SNeg))
  end.
