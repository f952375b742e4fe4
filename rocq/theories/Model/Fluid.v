(** The diffusion networks of the vev-insertion approach: the right hand sides
    that the three plasma descriptions hand to the ODE integrator.

    Simplifications: doubles are exact reals; the numerical integrals for the
    statistical factor, the relaxation rate and the CP-violating source are
    arbitrary functions of what they are set up with (the mass, and for the
    source also the derivative of the phase); their remaining inputs
    (temperature, wall velocity, thermal masses) are the same during one
    evaluation.  A state vector is a function of its index; the integrator
    supplies vectors of the right length, so no index is out of range.
    The network sets its member [Gam_Y_b] to zero for a massless bottom
    quark; here the zero is used in the same call only. *)
From Coq Require Import Reals List ZArith.
From Verif Require Import Base.
Open Scope R_scope.

(** include/BSMPT/baryo_calculation/Fluid_Type/gen_func_fluid.h 465-470:
    statistical factors of massless quarks, leptons and Higgs doublets. *)
Definition kappa_QL_0 : R := 6.
Definition kappa_QR_0 : R := 3.
Definition kappa_LL_0 : R := 2.
Definition kappa_RL_0 : R := 1.
Definition kappa_H_0 : R := 4.

(** src/baryo_calculation/Fluid_Type/gen_func_fluid.cpp 597-649 (members of
    gen_fluid filled by set_class) and the three numerical integrals:
    [e_kappa] NIntegrate_kappa, [e_relax_*] Nintegrate_GamM, [e_source_*]
    Nintegrate_Scp set up for the top, the bottom and the tau. *)
Record fluid := Fluid {
  e_vw : R; e_Dq : R; e_Dt : R; e_Dh : R; e_Dlep : R; e_Dtau : R;
  e_SS : R; e_Y : R; e_Yt : R; e_Yb : R; e_Ytau : R;
  e_kappa : R -> R;
  e_relax_t : R -> R; e_relax_b : R -> R; e_relax_tau : R -> R;
  e_source_t : R -> R -> R; e_source_b : R -> R -> R; e_source_tau : R -> R -> R }.

(** What top_func, tau_func and Calc_theta give at a position
    (top_source.cpp 72-79, bot_source.cpp 55-79, tau_source.cpp 61-103). *)
Record wall_point := WallPoint {
  w_mt : R; w_mb : R; w_mtau : R;
  w_tht : R; w_thb : R; w_thtau : R }.

(** src/baryo_calculation/Fluid_Type/top_source.cpp 63-120: q, t, h1, h2 and
    their derivatives. *)
Definition top_rhs (e : fluid) (p : wall_point) (w : nat -> R) : list R :=
  let num := e_kappa e (w_mt p) in
  let kq := kappa_QL_0 * num in
  let ktR := kappa_QR_0 * num in
  let muM := w 1%nat / ktR - w 0%nat / kq in
  let bR := - (w 1%nat + w 0%nat) in
  let muSS := 2 * w 0%nat / kq - w 1%nat / ktR - bR / kappa_QR_0 in
  let muY := w 1%nat / ktR - w 0%nat / kq - w 2%nat / kappa_H_0 - w 3%nat / kappa_H_0 in
  let GM := e_relax_t e (w_mt p) in
  let S := e_source_t e (w_mt p) (w_tht p) in
  [ w 4%nat; w 5%nat; w 6%nat; w 7%nat;
    (S - GM * muM + 2 * e_SS e * muSS - e_Y e * muY + e_vw e * w 4%nat) / e_Dq e;
    (- S + GM * muM + e_Y e * muY + e_vw e * w 5%nat) / e_Dt e;
    (- e_Y e * muY + e_vw e * w 6%nat) / e_Dh e;
    (- e_Y e * muY + e_vw e * w 7%nat) / e_Dh e ].

(** src/baryo_calculation/Fluid_Type/top_source.cpp 59-60: the left-handed
    density taken from the final state. *)
Definition top_left (w : nat -> R) : R := 3 * w 0%nat + 2 * w 1%nat.

(** src/baryo_calculation/Fluid_Type/bot_source.cpp 57-64 (and tau_source.cpp
    63-70, 74-81): the mass used for flag 1 and 2, anything else throws. *)
Definition flag_mass (flag : Z) (m : R) : outcome R :=
  if Z.eqb flag 1 then Ok m
  else if Z.eqb flag 2 then Ok 0
  else Throw RuntimeError.

(** src/baryo_calculation/Fluid_Type/bot_source.cpp 90 and tau_source.cpp 119. *)
Definition kappa_doublet (ktL kbL : R) : R := ktL * kbL / (ktL + kbL).

(** src/baryo_calculation/Fluid_Type/bot_source.cpp 30-155: q, t, b, h1, h2, u
    and their derivatives. *)
Definition bot_rhs (e : fluid) (flag : Z) (p : wall_point) (w : nat -> R) : outcome (list R) :=
  bind (flag_mass flag (w_mb p)) (fun mb =>
  let mt := w_mt p in
  let num_t := e_kappa e mt in
  let ktL := kappa_QL_0 * num_t in
  let ktR := kappa_QR_0 * num_t in
  let num_b := e_kappa e mb in
  let kbL := kappa_QL_0 * num_b in
  let kbR := kappa_QR_0 * num_b in
  let kq := kappa_doublet ktL kbL in
  let muMt := w 1%nat / ktR - w 0%nat / kq in
  let muMb := w 2%nat / kbR - w 0%nat / kq in
  let muYt := w 1%nat / ktR - w 0%nat / kq - w 3%nat / kappa_H_0 - w 4%nat / kappa_H_0 in
  let muYb := w 2%nat / kbR - w 0%nat / kq - w 3%nat / kappa_H_0 - w 4%nat / kappa_H_0 in
  let muSS := -4 * w 5%nat * (2 / kappa_QL_0 + 1 / kappa_QR_0)
              + 2 * w 0%nat / kq - w 1%nat / ktR - w 2%nat / kbR in
  let GMt := e_relax_t e mt in
  let GMb := e_relax_b e mb in
  let GYt := e_Yt e in
  let GYb := if Z.eqb flag 2 then 0 else e_Yb e in
  let GSS := e_SS e in
  let St := e_source_t e mt (w_tht p) in
  let Sb := if Z.eqb flag 1 then e_source_b e mb (w_thb p) else 0 in
  Ok [ w 6%nat; w 7%nat; w 8%nat; w 9%nat; w 10%nat; w 11%nat;
       (e_vw e * w 6%nat
        - (GMt * muMt + GMb * muMb + GYt * muYt + GYb * muYb
           - 2 * GSS * muSS - St - Sb)) / e_Dq e;
       (e_vw e * w 7%nat - (- GMt * muMt - GYt * muYt + GSS * muSS + St)) / e_Dq e;
       (e_vw e * w 8%nat - (- GMb * muMb - GYb * muYb + GSS * muSS + Sb)) / e_Dq e;
       (e_vw e * w 9%nat - (GYt * muYt - GYb * muYb)) / e_Dh e;
       (e_vw e * w 10%nat - (GYt * muYt - GYb * muYb)) / e_Dh e;
       (e_vw e * w 11%nat - GSS * muSS) / e_Dq e ]).

(** src/baryo_calculation/Fluid_Type/bot_source.cpp 190. *)
Definition bot_left (w : nat -> R) : R := w 0%nat - 2 * w 5%nat.

(** src/baryo_calculation/Fluid_Type/tau_source.cpp 30-209: q, t, b, l, nu,
    tau, h1, h2, u and their derivatives. *)
Definition tau_rhs (e : fluid) (bflag tflag : Z) (p : wall_point) (w : nat -> R)
  : outcome (list R) :=
  bind (flag_mass bflag (w_mb p)) (fun mb =>
  bind (flag_mass tflag (w_mtau p)) (fun mtau =>
  let mt := w_mt p in
  let num_t := e_kappa e mt in
  let ktL := kappa_QL_0 * num_t in
  let ktR := kappa_QR_0 * num_t in
  let num_b := e_kappa e mb in
  let kbL := kappa_QL_0 * num_b in
  let kbR := kappa_QR_0 * num_b in
  let num_tau := e_kappa e mtau in
  let klL := kappa_LL_0 * num_tau in
  let klR := kappa_RL_0 * num_tau in
  let kq := kappa_doublet ktL kbL in
  let muMt := w 1%nat / ktR - w 0%nat / kq in
  let muMb := w 2%nat / kbR - w 0%nat / kq in
  let muMl := w 5%nat / klR - w 3%nat / klL in
  let muYt := w 1%nat / ktR - w 0%nat / kq - w 6%nat / kappa_H_0 - w 7%nat / kappa_H_0 in
  let muYb := w 2%nat / kbR - w 0%nat / kq - w 6%nat / kappa_H_0 - w 7%nat / kappa_H_0 in
  let muYl := w 5%nat / klR - w 3%nat / klL + w 6%nat / kappa_H_0 + w 7%nat / kappa_H_0 in
  let muSS := -4 * w 8%nat * (2 / kappa_QL_0 + 1 / kappa_QR_0)
              + 2 * w 0%nat / kq - w 1%nat / ktR - w 2%nat / kbR in
  let GMt := e_relax_t e mt in
  let GMb := e_relax_b e mb in
  let GMl := e_relax_tau e mtau in
  let GYt := e_Yt e in
  let GYb := if Z.eqb bflag 2 then 0 else e_Yb e in
  let GYl := e_Ytau e in
  let GSS := e_SS e in
  let both := andb (Z.eqb bflag 1) (Z.eqb tflag 1) in
  let St := e_source_t e mt (w_tht p) in
  let Sb := if both then e_source_b e mb (w_thb p) else 0 in
  let Sl := if both then e_source_tau e mtau (w_thtau p) else 0 in
  Ok [ w 9%nat; w 10%nat; w 11%nat; w 12%nat; w 13%nat; w 14%nat; w 15%nat; w 16%nat; w 17%nat;
       (e_vw e * w 9%nat
        - (GMt * muMt + GMb * muMb + GYt * muYt + GYb * muYb
           - 2 * GSS * muSS - St - Sb)) / e_Dq e;
       (e_vw e * w 10%nat - (- GMt * muMt - GYt * muYt + GSS * muSS + St)) / e_Dq e;
       (e_vw e * w 11%nat - (- GMb * muMb - GYb * muYb + GSS * muSS + Sb)) / e_Dq e;
       (e_vw e * w 12%nat - (GMl * muMl + GYl * muYl - Sl)) / e_Dlep e;
       (e_vw e * w 13%nat - 0) / e_Dtau e;
       (e_vw e * w 14%nat - (- GMl * muMl - GYl * muYl + Sl)) / e_Dtau e;
       (e_vw e * w 15%nat - (GYt * muYt - GYb * muYb - GYl * muYl)) / e_Dh e;
       (e_vw e * w 16%nat - (GYt * muYt - GYb * muYb - GYl * muYl)) / e_Dh e;
       (e_vw e * w 17%nat - GSS * muSS) / e_Dq e ])).

(** src/baryo_calculation/Fluid_Type/tau_source.cpp 254. *)
Definition tau_left (w : nat -> R) : R := w 0%nat - 2 * w 8%nat + w 3%nat.
