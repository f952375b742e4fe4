(** Kink profiles of the fields and of the CP-violating phase across the bubble wall, as used by the transport
    equations.  Sources: src/baryo_calculation/transport_equations.cpp (calculate_vev, calculate_vev_derivative,
    calculate_theta) and src/baryo_calculation/Fluid_Type/gen_func_fluid.cpp (the profile inside top_func and
    tau_func, omegaprime, Calc_theta).
    Doubles are real numbers.  The checks for NaN in the C++ code only concern a zero wall thickness or values
    that are not numbers already; [LW = 0] is excluded in the theorems.  The messages written for models other
    than the C2HDM do not change the result and are left out. *)
From Coq Require Import Reals List ZArith.
Import ListNotations.
Open Scope R_scope.

(** transport_equations::calculate_vev, transport_equations.cpp 445-459: [vc] is vev_critical, already in the
    full field basis (359) *)
Definition calculate_vev (LW : R) (vc : list R) (z : R) : list R :=
  map (fun v => 1 / 2 * v * (1 - tanh (z / LW))) vc.

(** transport_equations::calculate_vev_derivative, transport_equations.cpp 461-472 *)
Definition calculate_vev_derivative (LW : R) (vc : list R) (z : R) : list R :=
  let tanhv := tanh (z / LW) in
  let diffval := - (1 - tanhv * tanhv) / LW in
  map (fun v => 1 / 2 * v * diffval) vc.

(** transport_equations::calculate_theta, transport_equations.cpp 474-514.  [UseTanBetaSuppression] is false
    (include/BSMPT/baryo_calculation/transport_equations.h 56) and nothing sets it, so the factor of lines
    505-511 is not applied. Orders other than 0, 1, 2 give 0 (477). *)
Definition calculate_theta (LW sym brk : R) (diff : Z) (z : R) : R :=
  let difftheta := brk - sym in
  let tanhv := tanh (z / LW) in
  if (diff =? 0)%Z then brk - 1 / 2 * difftheta * (1 + tanhv)
  else if (diff =? 1)%Z then - difftheta / (2 * LW) * (1 - tanhv * tanhv)
  else if (diff =? 2)%Z then difftheta * tanhv / (LW * LW) * (1 - tanhv * tanhv)
  else 0.

(** the profile [gen_phi] inside gen_fluid::top_func and gen_fluid::tau_func, gen_func_fluid.cpp 415-418 and
    527-530 *)
Definition gen_phi (LW : R) (vc : list R) (z : R) : list R :=
  map (fun v => v / 2 * (1 - tanh (z / LW))) vc.

(** gen_fluid::omegaprime, gen_func_fluid.cpp 452-461 *)
Definition omegaprime (LW : R) (vc : list R) (z : R) : list R :=
  map (fun v => (- v / (2 * LW)) * (1 / (cosh (z / LW)) ^ 2)) vc.

(** gen_fluid::Calc_theta, gen_func_fluid.cpp 472-518: the phase, its first and its second derivative; zero
    when both boundary phases are below 1e-12 in magnitude (480-486) *)
Definition Calc_theta (LW sym brk z : R) : R * R * R :=
  if Rlt_dec (Rabs sym) (/ 10 ^ 12) then
    if Rlt_dec (Rabs brk) (/ 10 ^ 12) then (0, 0, 0)
    else
      let d := brk - sym in
      (brk - d / 2 * (1 + tanh (z / LW)),
       - d / (2 * LW * (cosh (z / LW)) ^ 2),
       (d * tanh (z / LW)) / (LW * cosh (z / LW)) ^ 2)
  else
    let d := brk - sym in
    (brk - d / 2 * (1 + tanh (z / LW)),
     - d / (2 * LW * (cosh (z / LW)) ^ 2),
     (d * tanh (z / LW)) / (LW * cosh (z / LW)) ^ 2).
