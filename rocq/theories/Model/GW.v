(** Gravitational wave spectrum: src/gravitational_waves/gw.cpp 54-146, 223-278; wall velocity:
    src/bounce_solution/bounce_solution.cpp 992-1053.
    Doubles are real numbers: rounding and overflow are not modelled.  Where a division by zero
    makes the C++ result NaN the model returns [None]. *)
From Coq Require Import Reals List.
Import ListNotations.
Open Scope R_scope.

(** std::pow for a non-negative base; for base zero only positive exponents occur, where the
    result is zero *)
Definition cpow (x y : R) : R := if Rlt_dec 0 x then Rpower x y else 0.

(** GravitationalWaveData, gw.h 26-51: the fields the spectrum depends on, and the four peak data *)
Record gwdata := {
  g_T : R; g_HR : R; g_Ksw : R; g_Kturb : R; g_gstar : R; g_Hstar : R;
  g_fsw : R; g_asw : R; g_ftb : R; g_atb : R
}.

(** IsFluidTurnoverApproxOne, gw.cpp 274-278, for K > 0 *)
Definition IsFluidTurnoverApproxOne (HR K : R) : bool :=
  if Rlt_dec (2 * HR / sqrt (3 * K)) 1 then false else true.

(** CalcEpsTurb, gw.cpp 54-65 *)
Definition CalcEpsTurb (HR Ksw eps : R) : R :=
  if Req_EM_T eps (-1) then
    let tau := 2 / sqrt 3 * HR / sqrt Ksw in
    cpow (1 - Rmin tau 1) (2 / 3)
  else eps.

(** CalcPeakFrequencySoundWave, gw.cpp 67-73; CalcPeakFrequencyTurbulence, 94-100 *)
Definition peak_f_sw (d : gwdata) : R := 26e-6 * (1 / g_HR d) * (g_T d / 100) * cpow (g_gstar d / 100) (1 / 6).
Definition peak_f_tb (d : gwdata) : R := 7.909e-5 * (1 / g_HR d) * (g_T d / 100) * cpow (g_gstar d / 100) (1 / 6).
(** the reduced Hubble constant, gw.h 85 *)
Definition h0 : R := 0.674.
(** CalcPeakAmplitudeSoundWave, gw.cpp 75-92 *)
Definition peak_a_sw (d : gwdata) : R :=
  let ratio := if IsFluidTurnoverApproxOne (g_HR d) (g_Ksw d) then g_HR d * g_Ksw d ^ 2
               else 2 / sqrt 3 * g_HR d ^ 2 * cpow (g_Ksw d) (3 / 2) in
  h0 * h0 * 2.061 * 1.2e-2 * 3.57e-5 * cpow (100 / g_gstar d) (1 / 3) * ratio.
(** CalcPeakAmplitudeTurbulence, gw.cpp 102-107 *)
Definition peak_a_tb (d : gwdata) : R :=
  1.144e-4 * cpow (100 / g_gstar d) (1 / 3) * g_HR d * cpow (g_Kturb d) (3 / 2).

Definition set_fsw (d : gwdata) : gwdata :=
  {| g_T := g_T d; g_HR := g_HR d; g_Ksw := g_Ksw d; g_Kturb := g_Kturb d; g_gstar := g_gstar d; g_Hstar := g_Hstar d;
     g_fsw := peak_f_sw d; g_asw := g_asw d; g_ftb := g_ftb d; g_atb := g_atb d |}.
Definition set_asw (d : gwdata) : gwdata :=
  {| g_T := g_T d; g_HR := g_HR d; g_Ksw := g_Ksw d; g_Kturb := g_Kturb d; g_gstar := g_gstar d; g_Hstar := g_Hstar d;
     g_fsw := g_fsw d; g_asw := peak_a_sw d; g_ftb := g_ftb d; g_atb := g_atb d |}.
Definition set_ftb (d : gwdata) : gwdata :=
  {| g_T := g_T d; g_HR := g_HR d; g_Ksw := g_Ksw d; g_Kturb := g_Kturb d; g_gstar := g_gstar d; g_Hstar := g_Hstar d;
     g_fsw := g_fsw d; g_asw := g_asw d; g_ftb := peak_f_tb d; g_atb := g_atb d |}.
Definition set_atb (d : gwdata) : gwdata :=
  {| g_T := g_T d; g_HR := g_HR d; g_Ksw := g_Ksw d; g_Kturb := g_Kturb d; g_gstar := g_gstar d; g_Hstar := g_Hstar d;
     g_fsw := g_fsw d; g_asw := g_asw d; g_ftb := g_ftb d; g_atb := peak_a_tb d |}.

(** the peak data as set by TransitionTracer before any evaluation, transition_tracer.cpp 293-299 *)
Definition set_peaks (d : gwdata) : gwdata := set_atb (set_ftb (set_asw (set_fsw d))).

(** sound wave term, gw.cpp 123-126.  With fPeak = 0 the quotient f/fPeak is infinite or NaN and the
    product (infinity times zero) NaN. *)
Definition sw_term (d : gwdata) (f : R) : option R :=
  if Req_EM_T (g_fsw d) 0 then None
  else Some (g_asw d * cpow (4 / 7) (- (7 / 2)) * (f / g_fsw d) ^ 3
             * cpow (1 + 3 / 4 * (f / g_fsw d) ^ 2) (- (7 / 2))).
(** turbulence term, gw.cpp 139-142: the exponent [11 / 3] is an integer division.  With fPeak = 0
    it is NaN as above; Hstar is the Hubble rate at a non-zero temperature, hence not zero. *)
Definition tb_term (d : gwdata) (f : R) : option R :=
  if Req_EM_T (g_ftb d) 0 then None
  else Some (g_atb d * (f / g_ftb d) ^ 3 / (1 + f / g_ftb d) ^ (Nat.div 11 3) / (1 + 8 * PI * f / g_Hstar d)).

Definition add_opt (a b : option R) : option R :=
  match a, b with Some x, Some y => Some (x + y) | _, _ => None end.

(** the lazy initialisation in front of each term, gw.cpp 114-121, 130-137 *)
Definition init_sw (d : gwdata) : gwdata :=
  if Req_EM_T (g_asw d) 0 then set_asw d else if Req_EM_T (g_fsw d) 0 then set_fsw d else d.
Definition init_tb (d : gwdata) : gwdata :=
  if Req_EM_T (g_atb d) 0 then set_atb d else if Req_EM_T (g_ftb d) 0 then set_ftb d else d.

(** CalcGWAmplitude, gw.cpp 109-146: the object afterwards and the returned value *)
Definition CalcGWAmplitude (d : gwdata) (f : R) (swON turbON : bool) : gwdata * option R :=
  let '(d1, r1) := if swON then (init_sw d, add_opt (Some 0) (sw_term (init_sw d) f)) else (d, Some 0) in
  if turbON then (init_tb d1, add_opt r1 (tb_term (init_tb d1) f)) else (d1, r1).

(** a sequence of evaluations on one object (for instance the integrand calls of GetSNR,
    gw.cpp 148-181): the object afterwards *)
Definition run (d : gwdata) (h : list (R * bool * bool)) : gwdata :=
  fold_left (fun d e => fst (CalcGWAmplitude d (fst (fst e)) (snd (fst e)) (snd e))) h d.

(** ** Efficiency factor, gw.cpp 223-254 *)
(** Csound, SMparam.h 220 *)
Definition Csound : R := 0.5773502691896258.
Definition kappaA (alpha v : R) : R := cpow v (6 / 5) * 6.9 * alpha / (1.36 - 0.037 * sqrt alpha + alpha).
Definition kappaB (alpha : R) : R := cpow alpha (2 / 5) / (0.017 + cpow (0.997 + alpha) (2 / 5)).
Definition kappaC (alpha : R) : R := sqrt alpha / (0.135 + sqrt (0.98 + alpha)).
Definition kappaD (alpha : R) : R := alpha / (0.73 + 0.083 * sqrt alpha + alpha).
Definition xiJ (alpha : R) : R := (sqrt (2 / 3 * alpha + alpha * alpha) + sqrt (1 / 3)) / (1 + alpha).
Definition deltaK (alpha : R) : R := - 0.9 * ln (sqrt alpha / (1 + sqrt alpha)).
Definition Getkappa_sw (alpha v cs : R) : R :=
  if Rlt_dec v cs then
    cpow cs (11 / 5) * kappaA alpha v * kappaB alpha
    / ((cpow cs (11 / 5) - cpow v (11 / 5)) * kappaB alpha + v * cpow cs (6 / 5) * kappaA alpha v)
  else if Rlt_dec (xiJ alpha) v then
    (xiJ alpha - 1) ^ 3 * cpow (xiJ alpha) (5 / 2) * cpow v (- (5 / 2)) * kappaC alpha * kappaD alpha
    / (((xiJ alpha - 1) ^ 3 - (v - 1) ^ 3) * cpow (xiJ alpha) (5 / 2) * kappaC alpha + (v - 1) ^ 3 * kappaD alpha)
  else
    kappaB alpha + (v - cs) * deltaK alpha
    + (v - cs) ^ 3 / (xiJ alpha - cs) ^ 3 * (kappaC alpha - kappaB alpha - (xiJ alpha - cs) * deltaK alpha).
(** GetK_sw, gw.cpp 256-260; GetHR, 262-267; GetK_turb, 269-272 *)
Definition GetK_sw (alpha v cs : R) : R := Getkappa_sw alpha v cs * alpha / (1 + alpha).
Definition GetHR (beta v cs : R) : R := 1 / beta * cpow (8 * PI) (1 / 3) * Rmax v cs.
Definition GetK_turb (alpha kappa : R) : R := kappa * alpha / (1 + alpha).

(** ** Wall velocity, bounce_solution.cpp 992-1053 *)

(** Chapman-Jouguet velocity, 1015-1017 and 1027-1029 *)
Definition v_ChapmanJouget (cs alpha : R) : R := 1 / (1 + alpha) * (cs + sqrt (alpha ^ 2 + 2 / 3 * alpha)).
(** UserDefined_vwall = -1, lines 1005-1023.  [None] is NaN: for alpha = 0 the quotient is infinite
    (giving 1) or, with equal potentials, NaN; the root of a negative number is NaN. *)
Definition vwall_mode1 (cs alpha rho_gam Vi Vf : R) : option R :=
  if Req_EM_T (alpha * rho_gam) 0 then (if Rlt_dec Vf Vi then Some 1 else None)
  else
    let q := (Vi - Vf) / (alpha * rho_gam) in
    if Rlt_dec q 0 then None
    else Some (if Rlt_dec (v_ChapmanJouget cs alpha) (sqrt q) then 1 else sqrt q).
(** UserDefined_vwall = -2, lines 1024-1052, for alpha <> 0 (alpha = 0 is not modelled) and psi <= 1
    (otherwise the power of 1 - psi is NaN).  A zero raised to a negative power is infinite and makes
    the result zero; a quotient by zero is infinite and its negative power zero. *)
Definition vwall_mode2 (cs alpha psi : R) : option R :=
  let num := 3 * alpha + psi - 1 in
  let den := 2 * (2 - 3 * psi + psi ^ 3) in
  let x := Rabs (num / den) in
  let y := Rabs (v_ChapmanJouget cs alpha * (1 - 0.2233 * cpow (1 - psi) 1.704 / alpha)) in
  if Req_EM_T alpha 0 then None
  else if Rlt_dec 1 psi then None
  else if Req_EM_T den 0 then
    if Req_EM_T num 0 then None
    else if Req_EM_T y 0 then Some 0
    else Some (cpow (0 + cpow y (- 3.433 / 2)) (1 / - 3.433))
  else if Req_EM_T x 0 then Some 0 else if Req_EM_T y 0 then Some 0
  else Some (cpow (cpow x (- 3.433 / 2) + cpow y (- 3.433 / 2)) (1 / - 3.433)).
