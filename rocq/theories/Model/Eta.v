(** The integral that turns the left-handed density in front of the bubble
    wall into the baryon asymmetry, and the grid of positions at which that
    density is computed.

    Simplifications: doubles are exact reals and the adaptive integration
    gives the exact integral; the check for NaN of Nintegrate_eta is left out.
    Boost's cubic spline is not modelled, only the positions at which it
    assumes the values. *)
From Coq Require Import Reals List ZArith.
From Coquelicot Require Import Hierarchy RInt.
From Verif Require Import Base.
Import ListNotations.
Open Scope R_scope.

(** src/baryo_calculation/Fluid_Type/gen_func_fluid.cpp 295-303 (the same in
    337-345): entropy density, diffusion constant and sphaleron rate. *)
Definition relax_factor : R := 15 / 4.
Definition s_entr (T : R) : R := 10675 / 100 * T ^ 3 * 2 * PI * PI / 45.
Definition diff_q (T : R) : R := 6 / T.
Definition alpha_W : R := 65 / 100 * (65 / 100) / (4 * PI).
Definition GamWS (T : R) : R := 6 * 20 * alpha_W ^ 5 * T.
Definition omega (T vw : R) : R := sqrt (vw * vw + 4 * GamWS T * diff_q T * relax_factor).

(** gen_func_fluid.cpp 308-309 and 350-351 *)
Definition prefactor (T vw : R) : R := -3 * GamWS T / (2 * omega T vw * s_entr T).
Definition exponent (T vw : R) : R := (vw - omega T vw) / (2 * diff_q T).

(** gen_func_fluid.cpp 267-275 and 369-387: integration from [z_end] to
    [z_start]. *)
Definition Nintegrate_eta (T vw : R) (nL : R -> R) (z_start z_end : R) : R :=
  prefactor T vw * RInt (V := R_CompleteNormedModule) (fun z => nL z * exp (exponent T vw * z)) z_end z_start.

(** src/baryo_calculation/CalculateEtaInterface.cpp 271-272, 286-287, 300-301 *)
Definition eta_of (T vw : R) (nL : R -> R) (zmax : R) : R := Nintegrate_eta T vw nL 0 zmax.

(** include/BSMPT/baryo_calculation/transport_equations.h (TransportMethod);
    the class of plasma that is handed over as boost::any *)
Inductive network := top | bottom | tau.
Definition network_eqb (a b : network) : bool :=
  match a, b with top, top | bottom, bottom | tau, tau => true | _, _ => false end.

(** src/baryo_calculation/Fluid_Type/gen_calc.cpp 21-78: [nL i z_start z_end]
    is Calc_nL of the handed over object.  For [n_step = 0] the program divides
    zero by zero; the theorems have at least one step. *)
Definition set_up_nL_grid (n_step : nat) (method handed : network) (zmax : R) (nL : R -> R -> R)
  : outcome (list R * list R) :=
  if network_eqb method handed then
    let zs := map (fun i => INR i * zmax / INR n_step) (seq 0 (S n_step)) in
    Ok (zs, map (fun z => nL zmax z) zs)
  else Throw RuntimeError.

(** gen_func_fluid.cpp 313-324 and 355-366: first position and step size handed
    to the spline, which takes its i-th value at [t0 + i h]. *)
Definition spline_nodes (array_z : list R) : outcome (R * R) :=
  match array_z with
  | [] => Throw OutOfRange
  | z0 :: _ =>
      let zl := last array_z 0 in
      if Rlt_dec z0 zl then
        match array_z with _ :: z1 :: _ => Ok (z0, z1 - z0) | _ => Throw OutOfRange end
      else if Rlt_dec zl z0 then
        match array_z with _ :: z1 :: _ => Ok (zl, z0 - z1) | _ => Throw OutOfRange end
      else Ok (0, 0)
  end.
