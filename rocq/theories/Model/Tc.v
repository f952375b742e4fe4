(** Critical temperature of a pair of coexisting phases: CoexPhases::CalculateTc,
    src/minimum_tracer/minimum_tracer.cpp 1291-1378.

    Temperatures are exact rationals; deltaV(T) enters only through its sign (a NaN is
    neither positive nor negative) as a function of the temperature; that Phase::Get may
    extend the phases while it is asked is not repeated here (see Model/Phase.v, Get). *)
From Verif.Model Require Export Base Track.
Open Scope Q_scope.

Inductive sgn := SNeg | SZero | SPos | SNaN.
Definition is_pos (s : sgn) : bool := match s with SPos => true | _ => false end.
Definition is_neg (s : sgn) : bool := match s with SNeg => true | _ => false end.

(** StatusCrit, include/BSMPT/minimum_tracer/minimum_tracer.h *)
Inductive status_crit := CritSuccess | CritFalseLower | CritTrueLower | CritFailure.

(** the plotting loop for (double T = T_low; T <= T_high; T += (T_high - T_low) / 100),
    lines 1313-1318; returns the number of points *)
Fixpoint plot_loop (lo hi : Q) (fuel : nat) (T : Q) (n : nat) : outcome nat :=
  match fuel with
  | O => OutOfFuel
  | S f => if Qle_bool T hi then plot_loop lo hi f (Qred (T + (hi - lo) / 100)) (S n) else Ok n
  end.

(** |binaryHighT / binaryLowT - 1| > 1e-10, line 1353; x/0 is infinite, 0/0 NaN *)
Definition tc_wide (lo hi : Q) : bool :=
  if Qeq_bool lo 0 then negb (Qeq_bool hi 0)
  else Qltb (1 # 10000000000) (Qabs (hi / lo - 1)).

(** the binary search, lines 1349-1367; returns binaryMiddleT *)
Fixpoint tc_bisect (dV : Q -> sgn) (fuel : nat) (lo mid hi : Q) : outcome Q :=
  match fuel with
  | O => OutOfFuel
  | S f =>
      if tc_wide lo hi then
        let m := Qred ((hi + lo) / 2) in
        if is_pos (dV m) then tc_bisect dV f lo m m else tc_bisect dV f m m hi
      else Ok mid
  end.

(** CalculateTc, lines 1291-1378 *)
Definition CalculateTc (dV : Q -> sgn) (fuel : nat) (lo hi : Q) : outcome (status_crit * Q) :=
  bind (plot_loop lo hi fuel lo 0) (fun _ =>
    if is_pos (dV hi) && is_pos (dV lo) then Ok (CritFalseLower, -1)
    else if is_neg (dV hi) && is_neg (dV lo) then Ok (CritTrueLower, hi)
    else if is_pos (dV hi) && is_neg (dV lo) then
      bind (tc_bisect dV fuel lo lo hi) (fun m => Ok (CritSuccess, m))
    else Ok (CritFailure, -2)).
