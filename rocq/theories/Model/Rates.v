(** Thermal masses, thermal distribution functions and the momentum integrands
    of the relaxation rate and of the CP-violating source in the vev-insertion
    approach (src/baryo_calculation/Fluid_Type/gen_func_fluid.cpp).

    Simplifications: doubles are exact reals; of the special values only the
    overflow of [std::exp] in [hf] and the quotient 0/0 at zero momentum in
    [Calc_Scp::operator()] are represented. *)
From Coq Require Import Reals ZArith.
From Verif Require Import Base.
Open Scope R_scope.

(** include/BSMPT/baryo_calculation/Fluid_Type/gen_func_fluid.h 29 (C_smallcut)
    and include/BSMPT/models/ClassPotentialOrigin.h 37 (C_threshold). *)
Definition smallcut : R := / 10 ^ 20.
Definition mass_threshold : R := / 10 ^ 4.

(** the recurring "if (std::abs(x) < C_smallcut) x = 0" *)
Definition small (x : R) : R := if Rlt_dec (Rabs x) smallcut then 0 else x.

(** gen_func_fluid.cpp 57-76, 186-205: thermal width of quarks and leptons *)
Definition width (lepton : bool) (T : R) : R := if lepton then 2 / 1000 * T else 16 / 100 * T.

(** gen_func_fluid.cpp 78-87: for arguments above this number [std::exp] is
    infinite and [exp / pow(1 + exp, 2)] is NaN. *)
Definition exp_limit : R := 7097 / 10.
Definition hf_value (T w : R) : R := exp (w * (1 / T)) / (1 + exp (w * (1 / T))) ^ 2.
Definition hf (T w : R) : outcome R :=
  if Rle_dec (w * (1 / T)) exp_limit then Ok (small (hf_value T w)) else Throw RuntimeError.

(** gen_func_fluid.cpp 88-97 before the cut *)
Definition hf_prime_value (T w : R) : R :=
  - (1 / T) * exp (w * (1 / T)) * (exp (w * (1 / T)) - 1) / (1 + exp (w * (1 / T))) ^ 3.

(** gen_func_fluid.cpp 21-55: integrand of the relaxation rate.  [G] is the
    thermal width, [m2] the squared thermal mass, [dm2] the difference of the
    squared thermal masses, [m] the mass in the wall. *)
Definition gam_poly (G m2 dm2 k : R) : R :=
  let w := sqrt (k ^ 2 + m2) in
  let dw := dm2 / (2 * sqrt (k ^ 2 + m2)) in
  0 + k ^ 2 / G - k ^ 4 / (w ^ 2 * G) + k ^ 4 * G / w ^ 4
  + dw * k ^ 4 / (w ^ 3 * G) - 2 * dw * k ^ 4 * G / w ^ 5.
Definition gam_integrand (lepton : bool) (T m m2 dm2 k : R) : outcome R :=
  let w := sqrt (k ^ 2 + m2) in
  let fsqrt := 2 * m * m in
  let Nc := 3 in
  if Rlt_dec mass_threshold (Rabs m2) then
    bind (hf T w) (fun h =>
      Ok (6 / T ^ 2 * (Nc * fsqrt * small (gam_poly (width lepton T) m2 dm2 k * h)) / (2 * PI * PI * T)))
  else if Rlt_dec (Rabs m2) mass_threshold then Throw RuntimeError
  else Ok 0.

(** gen_func_fluid.cpp 172-184 before the cut *)
Definition nf_value (T w : R) : R := 1 / (exp (w / T) + 1).
Definition nf_prime_value (T w : R) : R :=
  - ((1 / T) * exp (1 / T * w)) / (1 + exp (1 / T * w)) ^ 2.

(** gen_func_fluid.cpp 126-170: the six terms added to the integrand of the
    source, [n] and [n'] being the values of nf and nf_prime.  The quotient of
    the fifth term is the one of line 150 (k^4 in the denominator). *)
Definition scp_terms (G w dw n n' k : R) : list R :=
  [ - (k ^ 4 * G / (2 * w ^ 5));
    5 * k ^ 4 * G * dw / (4 * w ^ 6);
    k ^ 4 * G * n / w ^ 5;
    - (5 * k ^ 4 * G * dw * n / (2 * w ^ 6));
    (k * k / (2 * G) - k ^ 4 / (2 * w * w * G) - k ^ 4 * G / (2 * k ^ 4)) * n';
    (k ^ 4 / (2 * w ^ 3 * G) + 3 * k ^ 4 * G / (2 * w ^ 5)) * dw * n' ].

(** the running sum with the cut after every term *)
Definition scp_sum (l : list R) : R := fold_left (fun acc x => small (acc + x)) l 0.

Definition scp_integrand (lepton : bool) (T vw m thp m2 dm2 k : R) : outcome R :=
  let w := sqrt (k ^ 2 + m2) in
  let dw := dm2 / (2 * sqrt (k * k + m2)) in
  let Imff := 2 * m * m * thp in
  let NC := 3 in
  if Rlt_dec (1 / 1000) (Rabs m2) then
    if Req_EM_T k 0 then Ok 0
    else Ok (NC * vw * Imff
             * scp_sum (scp_terms (width lepton T) w dw (small (nf_value T w)) (small (nf_prime_value T w)) k) / (PI * PI))
  else if Rlt_dec (Rabs m2) (1 / 1000) then Throw RuntimeError
  else Ok 0.

(** gen_func_fluid.cpp 653-663: squared thermal mass and difference of the
    squared thermal masses of a quark; [gp], [g], [gs] are the members gprime,
    g and gS. *)
Definition thermal_q (gp g gs y T : R) : R * R :=
  ((gp ^ 2 / 18 + gs ^ 2 / 6 + y ^ 2 / 8) * T ^ 2,
   (5 * gp ^ 2 / 96 - 3 * g ^ 2 / 32 + y ^ 2 / 16) * T ^ 2).

(** gen_func_fluid.cpp 664-673: the same for a lepton *)
Definition thermal_l (gp g y T : R) : R * R :=
  ((gp ^ 2 / 8 + y ^ 2 / 8) * T ^ 2,
   (3 * gp ^ 2 / 4 - 3 * g ^ 2 / 32 + y ^ 2 / 16) * T ^ 2).

(** gen_func_fluid.cpp 602-643: Yukawa couplings and thermal masses that
    set_class stores for top, bottom and tau; other types than 1 and 2 throw. *)
Record thermal := Thermal {
  t_top : R * R; t_bot : R * R; t_tau : R * R; t_yt : R; t_yb : R; t_ytau : R }.
Definition set_thermal (gp g gs v tanb : R) (type : Z) (mt mb mtau T : R) : outcome thermal :=
  let sinb := sin (atan tanb) in
  let cosb := cos (atan tanb) in
  let yt := sqrt 2 * mt / (v * sinb) in
  if Z.eqb type 1 then
    let yb := sqrt 2 * mb / (v * sinb) in
    let ytau := sqrt 2 * mtau / (v * sinb) in
    Ok (Thermal (thermal_q gp g gs yt T) (thermal_q gp g gs yb T) (thermal_l gp g ytau T) yt yb ytau)
  else if Z.eqb type 2 then
    let yb := sqrt 2 * mb / (v * cosb) in
    let ytau := sqrt 2 * mtau / (v * cosb) in
    Ok (Thermal (thermal_q gp g gs yt T) (thermal_q gp g gs yb T) (thermal_l gp g ytau T) yt yb ytau)
  else Throw RuntimeError.
