(** Right-hand side of the Fromme-Huber transport equations.  Source:
    src/baryo_calculation/transport_equations.cpp, transport_equations::get_W_mass, the sum for the derivative of
    the squared top mass, and transport_equations::operator().
    Doubles are real numbers.  The thermal averages (Kfactors::K..._normalized, lines 539-565) are a record of
    numbers.  The vector [x] and the vector [dxdt] always have the eight entries the code reads and writes
    (calculateTransportEquation, 816-819); they are records here.  The formulas were copied from the C++ text by a
    script, only the casts were dropped and 0.3e1, 0.4e1 were written 3 and 4. *)
From Coq Require Import Reals List ZArith.
Import ListNotations.
Open Scope R_scope.

(** the eight entries of [x] and [dxdt], transport_equations.cpp 589-596 and 670-677: chemical potentials of left
    top, left bottom, right top and Higgs, then velocities or derivatives of the potentials *)
Record st8 := mk8 { x0 : R; x1 : R; x2 : R; x3 : R; x4 : R; x5 : R; x6 : R; x7 : R }.

(** values returned by the K factor functions, transport_equations.cpp 539-565 *)
Record kvals := mkK { v_K1t : R; v_K2t : R; v_K4t : R; v_K5t : R; v_K6t : R; v_K8t : R; v_K9t : R; v_K1b : R; v_K4b : R; v_K5b : R; v_K1h : R; v_K4h : R; v_K5h : R }.

(** transport_equations::get_W_mass, transport_equations.cpp 368-397: the entry with the largest index that has a
    partner within 1e-5; zero if there is none.  [res] is the result of GaugeMassesSquared; every entry counts
    itself (375-379).  The NaN check (385-391) is left out, entries are numbers. *)
Definition nrepeat (res : list R) (a : R) : nat :=
  length (filter (fun b => if Rle_dec (Rabs (a - b)) (/ 100000) then true else false) res).
Definition get_W_mass (res : list R) : R :=
  match find (fun a => (1 <? nrepeat res a)%nat) (rev res) with Some a => a | None => 0 end.

(** [dmtsquared], transport_equations.cpp 531-535: [topres] holds the squared top mass and its derivatives by all
    fields (get_top_mass_and_derivative, 399-443) *)
Definition dmtsquared_of (vevdiff : list R) (topres_deriv : list R) : R :=
  fold_left Rplus (map (fun p => fst p * snd p) (combine vevdiff topres_deriv)) 0.

(** coefficients in operator(), transport_equations.cpp 567-581 *)
Record coeffs := mkC { c_GH : R; c_GY : R; c_GM : R; c_GSS : R; c_GHTot : R; c_GTTot : R; c_GBTot : R; c_GW : R }.
Definition coefficients (k : kvals) (TC mws mtsquared : R) : coeffs :=
  let Dh := 20 / TC in
  let Dt := 6 / TC in
  let GHTot := v_K4h k / (v_K1h k * Dh) in
  mkC (mws / (50 * TC)) (42 / 10000 * TC) (mtsquared / (63 * TC)) (49 / 100000 * TC)
    GHTot (v_K4t k / (v_K1t k * Dt)) (v_K4b k / (v_K1b k * Dt)) GHTot.

(** the source [St], transport_equations.cpp 584-585 *)
Definition St_of (k : kvals) (vw mtsquared dmtsquared dtheta d2theta : R) : R :=
  let K8t := v_K8t k in let K9t := v_K9t k in
  -vw * K8t * (mtsquared * d2theta + dmtsquared * dtheta) + vw * K9t * dtheta * mtsquared * dmtsquared.

(** [dSt], transport_equations.cpp 687-689 *)
Definition dSt_of (k : kvals) (vw mtsquared dmtsquared dtheta d2theta : R) : R :=
  let K8t := v_K8t k in let K9t := v_K9t k in
  -vw * K8t * (2 * dmtsquared * d2theta) + vw * K9t * (d2theta * mtsquared + dtheta * dmtsquared) * dmtsquared.

(** operator() with UseVelocityTransportEquations, transport_equations.cpp 587-667 *)
Definition velocity_rhs (k : kvals) (c : coeffs) (vw dmtsquared St : R) (x : st8) : st8 :=
  match k, c, x with
  | mkK K1t K2t K4t K5t K6t K8t K9t K1b K4b K5b K1h K4h K5h,
    mkC GH GY GM GSS GHTot GTTot GBTot GW,
    mk8 mut2 mub2 mutc2 muh2 ut2 ub2 utc2 uh2 =>
  mk8
  (((-3 * K2t * K5t * mut2 * vw * vw * dmtsquared + 27 * GSS * K1b * K5t * mub2 * vw + 27 * GSS * K1t * K5t *
    mut2 * vw - 27 * GSS * K1t * K5t * mutc2 * vw + 6 * GM * K5t * mut2 * vw + 6 * GM * K5t * mutc2 * vw + 3 *
    GSS * K5t * mub2 * vw + 3 * GSS * K5t * mut2 * vw + 3 * GSS * K5t * mutc2 * vw - 3 * GW * K5t * mub2 * vw +
    3 * GW * K5t * mut2 * vw + 3 * GY * K5t * muh2 * vw + 3 * GY * K5t * mut2 * vw + 3 * GY * K5t * mutc2 * vw +
    3 * K6t * ut2 * vw * dmtsquared + 3 * GTTot * ut2 - St) / (K1t * K5t * vw * vw + K4t)) / 3)
  ((9 * GSS * K1b * K5b * mub2 * vw + 9 * GSS * K1t * K5b * mut2 * vw - 9 * GSS * K1t * K5b * mutc2 * vw + GSS
    * K5b * mub2 * vw + GSS * K5b * mut2 * vw + GSS * K5b * mutc2 * vw + GW * K5b * mub2 * vw - GW * K5b * mut2
    * vw + GY * K5b * mub2 * vw + GY * K5b * muh2 * vw + GY * K5b * mutc2 * vw + GBTot * ub2) / (K1b * K5b * vw
    * vw + K4b))
  (((-3 * K2t * K5t * mutc2 * vw * vw * dmtsquared + 27 * GSS * K1b * K5t * mub2 * vw + 27 * GSS * K1t * K5t *
    mut2 * vw - 27 * GSS * K1t * K5t * mutc2 * vw + 6 * GM * K5t * mut2 * vw + 6 * GM * K5t * mutc2 * vw + 3 *
    GSS * K5t * mub2 * vw + 3 * GSS * K5t * mut2 * vw + 3 * GSS * K5t * mutc2 * vw + 3 * GY * K5t * mub2 * vw +
    6 * GY * K5t * muh2 * vw + 3 * GY * K5t * mut2 * vw + 6 * GY * K5t * mutc2 * vw + 3 * K6t * utc2 * vw *
    dmtsquared + 3 * GTTot * utc2 - St) / (K1t * K5t * vw * vw + K4t)) / 3)
  (((4 * GH * K5h * muh2 * vw + 3 * GY * K5h * mub2 * vw + 6 * GY * K5h * muh2 * vw + 3 * GY * K5h * mut2 * vw
    + 6 * GY * K5h * mutc2 * vw + 4 * GHTot * uh2) / (K1h * K5h * vw * vw + K4h)) / 4)
  (((-3 * K1t * K6t * ut2 * vw * vw * dmtsquared - 3 * K2t * K4t * mut2 * vw * dmtsquared + 27 * GSS * K1b *
    K4t * mub2 + 27 * GSS * K1t * K4t * mut2 - 27 * GSS * K1t * K4t * mutc2 - 3 * GTTot * K1t * ut2 * vw + 6 *
    GM * K4t * mut2 + 6 * GM * K4t * mutc2 + 3 * GSS * K4t * mub2 + 3 * GSS * K4t * mut2 + 3 * GSS * K4t * mutc2
    - 3 * GW * K4t * mub2 + 3 * GW * K4t * mut2 + 3 * GY * K4t * muh2 + 3 * GY * K4t * mut2 + 3 * GY * K4t *
    mutc2 + K1t * St * vw) / (K1t * K5t * vw * vw + K4t)) / 3)
  (-(GBTot * K1b * ub2 * vw - 9 * GSS * K1b * K4b * mub2 - 9 * GSS * K1t * K4b * mut2 + 9 * GSS * K1t * K4b *
    mutc2 - GSS * K4b * mub2 - GSS * K4b * mut2 - GSS * K4b * mutc2 - GW * K4b * mub2 + GW * K4b * mut2 - GY *
    K4b * mub2 - GY * K4b * muh2 - GY * K4b * mutc2) / (K1b * K5b * vw * vw + K4b))
  (((-3 * K1t * K6t * utc2 * vw * vw * dmtsquared - 3 * K2t * K4t * mutc2 * vw * dmtsquared + 27 * GSS * K1b *
    K4t * mub2 + 27 * GSS * K1t * K4t * mut2 - 27 * GSS * K1t * K4t * mutc2 - 3 * GTTot * K1t * utc2 * vw + 6 *
    GM * K4t * mut2 + 6 * GM * K4t * mutc2 + 3 * GSS * K4t * mub2 + 3 * GSS * K4t * mut2 + 3 * GSS * K4t * mutc2
    + 3 * GY * K4t * mub2 + 6 * GY * K4t * muh2 + 3 * GY * K4t * mut2 + 6 * GY * K4t * mutc2 + K1t * St * vw) /
    (K1t * K5t * vw * vw + K4t)) / 3)
  (((-4 * GHTot * K1h * uh2 * vw + 4 * GH * K4h * muh2 + 3 * GY * K4h * mub2 + 6 * GY * K4h * muh2 + 3 * GY *
    K4h * mut2 + 6 * GY * K4h * mutc2) / (K1h * K5h * vw * vw + K4h)) / 4)
  end.

(** operator() without it, transport_equations.cpp 668-760 *)
Definition second_order_rhs (k : kvals) (c : coeffs) (vw dmtsquared dSt : R) (x : st8) : st8 :=
  match k, c, x with
  | mkK K1t K2t K4t K5t K6t K8t K9t K1b K4b K5b K1h K4h K5h,
    mkC GH GY GM GSS GHTot GTTot GBTot GW,
    mk8 mut2 mub2 mutc2 muh2 dmut2 dmub2 dmutc2 dmuh2 =>
  mk8 dmut2 dmub2 dmutc2 dmuh2
  (((-3 * K2t * K6t * mut2 * vw * vw * dmtsquared * dmtsquared + 27 * GSS * K1b * K6t * mub2 * vw * dmtsquared
    + 27 * GSS * K1t * K6t * mut2 * vw * dmtsquared - 27 * GSS * K1t * K6t * mutc2 * vw * dmtsquared - 3 * K1t *
    K6t * dmut2 * vw * vw * dmtsquared + 6 * GM * K6t * mut2 * vw * dmtsquared + 6 * GM * K6t * mutc2 * vw *
    dmtsquared + 3 * GSS * K6t * mub2 * vw * dmtsquared + 3 * GSS * K6t * mut2 * vw * dmtsquared + 3 * GSS * K6t
    * mutc2 * vw * dmtsquared - 3 * GTTot * K2t * mut2 * vw * dmtsquared - 3 * GW * K6t * mub2 * vw * dmtsquared
    + 3 * GW * K6t * mut2 * vw * dmtsquared + 3 * GY * K6t * muh2 * vw * dmtsquared + 3 * GY * K6t * mut2 * vw *
    dmtsquared + 3 * GY * K6t * mutc2 * vw * dmtsquared + 27 * GSS * GTTot * K1b * mub2 + 27 * GSS * GTTot * K1t
    * mut2 - 27 * GSS * GTTot * K1t * mutc2 - 3 * GTTot * K1t * dmut2 * vw + 6 * GM * GTTot * mut2 + 6 * GM *
    GTTot * mutc2 + 3 * GSS * GTTot * mub2 + 3 * GSS * GTTot * mut2 + 3 * GSS * GTTot * mutc2 - 3 * GTTot * GW *
    mub2 + 3 * GTTot * GW * mut2 + 3 * GTTot * GY * muh2 + 3 * GTTot * GY * mut2 + 3 * GTTot * GY * mutc2 - dSt)
    / K4t) / 3)
  (GBTot * (9 * GSS * K1b * mub2 + 9 * GSS * K1t * mut2 - 9 * GSS * K1t * mutc2 - vw * K1b * dmub2 + GSS * mub2
    + GSS * mut2 + GSS * mutc2 + mub2 * GW - mut2 * GW + GY * mub2 + muh2 * GY + mutc2 * GY) / K4b)
  (((-3 * K2t * K6t * mutc2 * vw * vw * dmtsquared * dmtsquared + 27 * GSS * K1b * K6t * mub2 * vw * dmtsquared
    + 27 * GSS * K1t * K6t * mut2 * vw * dmtsquared - 27 * GSS * K1t * K6t * mutc2 * vw * dmtsquared - 3 * K1t *
    K6t * dmutc2 * vw * vw * dmtsquared + 6 * GM * K6t * mut2 * vw * dmtsquared + 6 * GM * K6t * mutc2 * vw *
    dmtsquared + 3 * GSS * K6t * mub2 * vw * dmtsquared + 3 * GSS * K6t * mut2 * vw * dmtsquared + 3 * GSS * K6t
    * mutc2 * vw * dmtsquared - 3 * GTTot * K2t * mutc2 * vw * dmtsquared + 3 * GY * K6t * mub2 * vw *
    dmtsquared + 6 * GY * K6t * muh2 * vw * dmtsquared + 3 * GY * K6t * mut2 * vw * dmtsquared + 6 * GY * K6t *
    mutc2 * vw * dmtsquared + 27 * GSS * GTTot * K1b * mub2 + 27 * GSS * GTTot * K1t * mut2 - 27 * GSS * GTTot *
    K1t * mutc2 - 3 * GTTot * K1t * dmutc2 * vw + 6 * GM * GTTot * mut2 + 6 * GM * GTTot * mutc2 + 3 * GSS *
    GTTot * mub2 + 3 * GSS * GTTot * mut2 + 3 * GSS * GTTot * mutc2 + 3 * GTTot * GY * mub2 + 6 * GTTot * GY *
    muh2 + 3 * GTTot * GY * mut2 + 6 * GTTot * GY * mutc2 - dSt) / K4t) / 3)
  ((GHTot * (-4 * vw * K1h * dmuh2 + 4 * GH * muh2 + 3 * mub2 * GY + 6 * GY * muh2 + 3 * mut2 * GY + 6 * GY *
    mutc2) / K4h) / 4)
  end.

(** operator(), transport_equations.cpp 516-801: [velocity] is UseVelocityTransportEquations *)
Definition transport_rhs (velocity : bool) (k : kvals) (TC vw mws mtsquared dmtsquared dtheta d2theta : R) (x : st8) : st8 :=
  let c := coefficients k TC mws mtsquared in
  if velocity then velocity_rhs k c vw dmtsquared (St_of k vw mtsquared dmtsquared dtheta d2theta) x
  else second_order_rhs k c vw dmtsquared (dSt_of k vw mtsquared dmtsquared dtheta d2theta) x.

(** mubl_func, transport_equations.cpp 877-893: left-handed chemical potential from the end state; entries below
    1e-16 were set to zero before (841-844) *)
Definition small_to_zero (v : R) : R := if Rle_dec (Rabs v) (/ 10 ^ 16) then 0 else v.
Definition mubl_of (K1t K1b : R) (x : st8) : R :=
  1 / 2 * (1 + 4 * K1t) * small_to_zero (x0 x) + 1 / 2 * (1 + 4 * K1b) * small_to_zero (x1 x) - 2 * K1t * small_to_zero (x2 x).
