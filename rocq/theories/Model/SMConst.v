(** src/models/SMParam.cpp: the constants of the Standard Model.  Doubles are real numbers, [arg] is the argument in (-pi, pi] (std::arg). *)
From Coq Require Import Reals.
From Coquelicot Require Import Complex.
Open Scope R_scope.

(** SMParam.cpp 8-11, 39-52: the numbers everything is computed from *)
Record input := mkI { i_lambda : R; i_A : R; i_rho : R; i_eta : R; i_MassW : R; i_MassZ : R; i_MassSMHiggs : R;
  i_MassUp : R; i_MassDown : R; i_MassStrange : R; i_MassTop : R; i_MassCharm : R; i_MassBottom : R;
  i_MassTau : R; i_MassMu : R; i_MassElectron : R; i_GF : R }.
(** SMParam.cpp 8-11, 39-51 *)
Definition the_input : input := mkI (22537 / 100000) (814 / 1000) (117 / 1000) (353 / 1000) (80385 / 1000) (911876 / 10000) (12509 / 100)
  (1 / 10) (1 / 10) (1 / 10) (1725 / 10) (151 / 100) (492 / 100) (177682 / 100000) (1056583715 / 10000000000) (510998928 / 1000000000 * / 1000) (11663787 / 10000000 * (1 / 100000)).

(** std::arg *)
Definition arg (z : C) : R := if Rle_dec 0 (Im z) then acos (Re z / Cmod z) else - acos (Re z / Cmod z).
(** std::exp of an imaginary number *)
Definition expi (x : R) : C := (cos x, sin x).
(** ISMConstants, include/BSMPT/models/SMparam.h: the members that enter the couplings *)
Record constants := mkK { V11 : C; V12 : C; V13 : C; V21 : C; V22 : C; V23 : C; V31 : C; V32 : C; V33 : C;
  MassUp : R; MassDown : R; MassStrange : R; MassTop : R; MassCharm : R; MassBottom : R; MassTau : R; MassMu : R; MassElectron : R;
  vev0 : R; C_g : R; C_gs : R; C_sinsquaredWeinberg : R; C_SMTriHiggs : R }.
(** GetSMConstants, SMParam.cpp 5-62 *)
Definition GetSMConstants (i : input) : constants :=
  let z : C := (RtoC (i_A i * i_lambda i ^ 3) * (i_rho i, i_eta i))%C in
  let theta12 := asin (i_lambda i) in
  let theta23 := asin (i_A i * i_lambda i ^ 2) in
  let delta := arg z in
  let theta13 := asin (Cmod z) in
  let v := sqrt (1 / sqrt 2 * 1 / i_GF i) in
  mkK (RtoC (cos theta12 * cos theta13)) (RtoC (sin theta12 * cos theta13)) (RtoC (sin theta13) * expi (- delta))%C
      (RtoC (- sin theta12 * cos theta23) - RtoC (cos theta12 * sin theta23 * sin theta13) * expi delta)%C
      (RtoC (cos theta12 * cos theta23) - RtoC (sin theta12 * sin theta23 * sin theta13) * expi delta)%C
      (RtoC (sin theta23 * cos theta13))
      (RtoC (sin theta12 * sin theta23) - RtoC (cos theta12 * cos theta23 * sin theta13) * expi delta)%C
      (RtoC (- cos theta12 * sin theta23) - RtoC (sin theta12 * cos theta23 * sin theta13) * expi delta)%C
      (RtoC (cos theta23 * cos theta13))
      (i_MassUp i) (i_MassDown i) (i_MassStrange i) (i_MassTop i) (i_MassCharm i) (i_MassBottom i) (i_MassTau i) (i_MassMu i) (i_MassElectron i)
      v (2 * i_MassW i / v) (2 * sqrt (i_MassZ i ^ 2 - i_MassW i ^ 2) / v)
      (1 - (i_MassW i * i_MassW i) / (i_MassZ i * i_MassZ i)) (3 * i_MassSMHiggs i * i_MassSMHiggs i / v).
