(** The counterterm parameters: calc_CT of src/models/ClassPotential*.cpp.
    Doubles are real numbers.  The derivatives of the one-loop potential that WeinbergFirstDerivative and
    WeinbergSecondDerivative return are inputs.  A quotient by zero is not the infinity of the program; the theorems
    exclude it. *)
From Coq Require Import Reals ZArith List Bool.
From Verif.Model Require Import Base Potential Tables.
Import ListNotations.
Open Scope R_scope.

(** ClassPotentialOrigin.cpp 1640-1654, WeinbergSecondDerivative: the matrix is stored column by column *)
Definition WeinbergSecondDerivative (n : nat) (ResMatrix : nat -> nat -> R) : list R :=
  flat_map (fun i => map (fun j => ResMatrix j i) (seq 0 n)) (seq 0 n).

(** the common beginning, e.g. ClassPotentialR2HDM.cpp 637-670: two exceptions, the vectors, and the copy into a vector and
    a matrix, where [.at] throws and operator[] does not check *)
Definition with_derivatives (n : nat) (SetCurvatureDone CalcCouplingsdone : bool) (WeinbergNabla WeinbergHesse : list R)
    (body : (nat -> R) -> (nat -> nat -> R) -> outcome (list R)) : outcome (list R) :=
  if negb SetCurvatureDone then Throw RuntimeError
  else if negb CalcCouplingsdone then Throw RuntimeError
  else if Nat.ltb (length WeinbergNabla) n then UB
  else if Nat.ltb (length WeinbergHesse) (n * n) then Throw OutOfRange
  else body (fun i => nth i WeinbergNabla 0) (fun i j => nth (j * n + i) WeinbergHesse 0).

(** if (std::abs(x) <= c) x = 0 *)
Definition cut_le (c x : R) : R := if Rle_dec (Rabs x) c then 0 else x.
(** if (std::abs(x) < c) x = 0 *)
Definition cut_lt (c x : R) : R := if Rlt_dec (Rabs x) c then 0 else x.

(** ClassPotentialSM.cpp 229-269 *)
Definition calc_CT_SM (SetCurvatureDone CalcCouplingsdone : bool) (v0 : R) (WeinbergNabla WeinbergHesse : list R) : outcome (list R) :=
  with_derivatives 4 SetCurvatureDone CalcCouplingsdone WeinbergNabla WeinbergHesse (fun N H =>
  Ok [H 2%nat 2%nat / 2 - 3 / 2 * H 3%nat 3%nat;
      (- H 2%nat 2%nat + H 3%nat 3%nat) * / v0 ^ 2 / 2;
      - N 0%nat; - N 1%nat; H 3%nat 3%nat * v0 - N 2%nat; - N 3%nat]).

(** ClassPotentialR2HDM.cpp 635-743; (c, s) = (C_CosBeta, C_SinBeta), v0 = SMConstants.C_vev0 *)
Definition calc_CT_R2HDM (SetCurvatureDone CalcCouplingsdone : bool) (v0 : R) (cs : R * R) (WeinbergNabla WeinbergHesse : list R) : outcome (list R) :=
  let v1 := v0 * fst cs in
  let v2 := v0 * snd cs in
  with_derivatives 8 SetCurvatureDone CalcCouplingsdone WeinbergNabla WeinbergHesse (fun N H0 =>
  let H i j := cut_le (1 / 1000) (H0 i j) in
  let freepar := 0 in
  Ok [- ((-2 * freepar * v1 * v2 * v2 + 5 * H 0%nat 0%nat * v1 + H 1%nat 3%nat * v2 - H 4%nat 6%nat * v2
          - H 4%nat 4%nat * v1 - 2 * H 5%nat 5%nat * v1) / v1) / 2;
      (2 * freepar * v1 * v1 * v2 * v2 + H 6%nat 6%nat * v2 * v2 - 2 * H 0%nat 0%nat * v1 * v1 - H 1%nat 3%nat * v1 * v2
       - 3 * H 3%nat 3%nat * v2 * v2 + H 4%nat 6%nat * v1 * v2 + 2 * v1 * v1 * H 5%nat 5%nat) * / v2 ^ 2 / 2;
      - (- freepar * v1 * v2 * v2 + H 0%nat 0%nat * v1 - H 1%nat 3%nat * v2 - H 5%nat 5%nat * v1) / v2;
      (- freepar * v2 * v2 + 2 * H 0%nat 0%nat - H 4%nat 4%nat - H 5%nat 5%nat) * / v1 ^ 2;
      - (freepar * v1 * v1 * v2 * v2 + H 6%nat 6%nat * v2 * v2 - H 0%nat 0%nat * v1 * v1 - H 3%nat 3%nat * v2 * v2
         + v1 * v1 * H 5%nat 5%nat) * / v2 ^ 4;
      (- freepar * v1 * v2 * v2 + H 0%nat 0%nat * v1 + H 1%nat 3%nat * v2 - H 4%nat 6%nat * v2 - H 5%nat 5%nat * v1) / v1 * / v2 ^ 2;
      freepar;
      - (- freepar * v2 * v2 + 2 * H 0%nat 0%nat - 2 * H 5%nat 5%nat) * / v2 ^ 2;
      cut_lt (1 / 1000000000) (H 1%nat 3%nat * v2 + H 0%nat 0%nat * v1 - N 4%nat);
      cut_lt (1 / 1000000000) (H 1%nat 3%nat * v1 + H 3%nat 3%nat * v2 - N 6%nat);
      cut_lt (1 / 1000000000) (- (- v1 * v1 * H 4%nat 5%nat - H 4%nat 7%nat * v1 * v2 + N 7%nat * v2) / v2)]).

(** ClassPotentialC2HDM.cpp 2287-2397 *)
Definition calc_CT_C2HDM (SetCurvatureDone CalcCouplingsdone : bool) (v0 : R) (cs : R * R) (WeinbergNabla WeinbergHesse : list R) : outcome (list R) :=
  let v1 := v0 * fst cs in
  let v2 := v0 * snd cs in
  with_derivatives 8 SetCurvatureDone CalcCouplingsdone WeinbergNabla WeinbergHesse (fun N H =>
  let freepar := - (2 * H 3%nat 3%nat) / v1 ^ 2 + 2 * H 7%nat 7%nat / v1 ^ 2 in
  Ok [freepar * v2 ^ 2 + H 4%nat 4%nat / 2 + v2 * H 4%nat 6%nat / (2 * v1) - 3 * H 5%nat 5%nat / 2 - v2 * H 5%nat 7%nat / (2 * v1);
      freepar * v1 ^ 2 + v1 * H 4%nat 6%nat / (2 * v2) - v1 * H 5%nat 7%nat / (2 * v2) + H 6%nat 6%nat / 2 - 3 * H 7%nat 7%nat / 2;
      H 4%nat 7%nat / 2 + v2 * H 6%nat 7%nat / (2 * v1) + 3 * N 5%nat / (2 * v2);
      freepar * v1 * v2 + H 5%nat 7%nat;
      - (freepar * v2 ^ 2 / v1 ^ 2) - H 4%nat 4%nat / v1 ^ 2 + H 5%nat 5%nat / v1 ^ 2;
      - (freepar * v1 ^ 2 / v2 ^ 2) - H 6%nat 6%nat / v2 ^ 2 + H 7%nat 7%nat / v2 ^ 2;
      - freepar + H 1%nat 3%nat / (v1 * v2) - H 3%nat 3%nat / v1 ^ 2 - H 4%nat 6%nat / (v1 * v2) + H 7%nat 7%nat / v1 ^ 2;
      freepar + 2 * H 3%nat 3%nat / v1 ^ 2 - 2 * H 7%nat 7%nat / v1 ^ 2;
      freepar;
      2 * H 6%nat 7%nat / v1 ^ 2;
      - N 2%nat;
      v1 * H 5%nat 5%nat + v2 * H 5%nat 7%nat - N 4%nat;
      v1 * H 1%nat 3%nat + v2 * H 3%nat 3%nat - N 6%nat;
      - (v1 * N 5%nat / v2) - N 7%nat;
      - (H 4%nat 5%nat / (v1 * v2)) - v2 * H 6%nat 7%nat / v1 ^ 3]).

(** ClassPotentialN2HDM.cpp 616-773; VSol stays uninitialised for Nvs = 0; VB1 and VB2 are multiplied by tL4 = tDTS = 0 *)
Definition calc_CT_N2HDM (SetCurvatureDone CalcCouplingsdone : bool) (v0 : R) (cs : R * R) (Nvs : R) (WeinbergNabla WeinbergHesse : list R) : outcome (list R) :=
  let v1 := v0 * fst cs in
  let v2 := v0 * snd cs in
  with_derivatives 9 SetCurvatureDone CalcCouplingsdone WeinbergNabla WeinbergHesse (fun N H =>
  let tL4 := 0 in
  let tDTS := 0 in
  if Req_EM_T Nvs 0 then UB else
  let VB0 :=
     [(Nvs * H 6%nat 8%nat - H 2%nat 3%nat * v2 + 2 * H 4%nat 4%nat * v1 + H 6%nat 7%nat * v2 - 5 * H 2%nat 2%nat * v1
       + H 6%nat 6%nat * v1) / v1 / 2;
      (Nvs * H 7%nat 8%nat * v2 + H 7%nat 7%nat * v2 * v2 - 3 * H 5%nat 5%nat * v2 * v2 - H 2%nat 3%nat * v1 * v2
       + 5 * v1 * v1 * H 4%nat 4%nat + v1 * v2 * H 6%nat 7%nat - 5 * H 2%nat 2%nat * v1 * v1) * / v2 ^ 2 / 2;
      (H 2%nat 3%nat * v2 + H 4%nat 4%nat * v1 - H 2%nat 2%nat * v1) / v2;
      (- H 4%nat 4%nat + 2 * H 2%nat 2%nat - H 6%nat 6%nat) * / v1 ^ 2;
      (- H 7%nat 7%nat * v2 * v2 + H 5%nat 5%nat * v2 * v2 - 2 * v1 * v1 * H 4%nat 4%nat + 2 * H 2%nat 2%nat * v1 * v1) * / v2 ^ 4;
      (H 2%nat 2%nat * v1 + H 2%nat 3%nat * v2 - H 4%nat 4%nat * v1 - H 6%nat 7%nat * v2) / v1 * / v2 ^ 2;
      0;
      (2 * H 4%nat 4%nat - 2 * H 2%nat 2%nat) * / v2 ^ 2;
      (H 8%nat 8%nat * Nvs + v2 * H 7%nat 8%nat + v1 * H 6%nat 8%nat - 3 * N 8%nat) / Nvs / 2;
      - / Nvs ^ 3 * (H 8%nat 8%nat * Nvs - N 8%nat);
      -1 / v1 / Nvs * H 6%nat 8%nat;
      -1 / v2 / Nvs * H 7%nat 8%nat;
      H 2%nat 2%nat * v1 + H 2%nat 3%nat * v2 - N 6%nat;
      (H 0%nat 0%nat * v1 * v1 + H 2%nat 3%nat * v1 * v2 - v1 * v1 * H 4%nat 4%nat + H 5%nat 5%nat * v2 * v2 - N 7%nat * v2) / v2;
      0] in
  let VB1 := [v2 * v2; v1 * v1; v1 * v2; - / v1 ^ 2 * v2 * v2; - / v2 ^ 2 * v1 * v1; -1; 1; 1; 0; 0; 0; 0; 0; 0; 0] in
  let VB2 := [0; 0; 0; 0; 0; 0; 0; 0; - (3 / 2) / Nvs; / Nvs ^ 3; 0; 0; 0; 0; 1] in
  Ok (map (fun i => nth i VB0 0 + tL4 * nth i VB1 0 + tDTS * nth i VB2 0) (seq 0 15))).

(** ClassPotentialCPintheDark.cpp 1251-1315; v1 = SMConstants.C_vev0 *)
Definition calc_CT_CPintheDark (SetCurvatureDone CalcCouplingsdone : bool) (v1 : R) (WeinbergNabla WeinbergHesse : list R) : outcome (list R) :=
  with_derivatives 9 SetCurvatureDone CalcCouplingsdone WeinbergNabla WeinbergHesse (fun N H =>
  let L2ct := 0 in let L3ct := 0 in let L6ct := 0 in let L7ct := 0 in let L8ct := 0 in
  Ok [H 4%nat 4%nat / 2 - 3 / 2 * H 5%nat 5%nat;
      - H 3%nat 3%nat - v1 ^ 2 / 2 * L3ct;
      - H 8%nat 8%nat - v1 ^ 2 / 2 * L7ct;
      - H 6%nat 8%nat / v1;
      H 7%nat 8%nat / v1;
      (- H 4%nat 4%nat + H 5%nat 5%nat) * / v1 ^ 2;
      L2ct; L3ct;
      (2 * H 3%nat 3%nat - H 6%nat 6%nat - H 7%nat 7%nat) * / v1 ^ 2;
      (- H 6%nat 6%nat + H 7%nat 7%nat) * / v1 ^ 2;
      L6ct; L7ct; L8ct;
      - N 2%nat;
      H 5%nat 5%nat * v1 - N 4%nat;
      - N 6%nat; - N 7%nat; - N 8%nat;
      2 * H 6%nat 7%nat * / v1 ^ 2]).

(** ClassPotentialCxSM.cpp 581-766 for a threshold ZeroCut *)
Definition calc_CT_CxSM_cut (ZeroCut : R) (SetCurvatureDone CalcCouplingsdone : bool) (vh vs va Ima1 : R) (WeinbergNabla WeinbergHesse : list R) : outcome (list R) :=
  with_derivatives 6 SetCurvatureDone CalcCouplingsdone WeinbergNabla WeinbergHesse (fun N0 H0 =>
  let N i := cut_le ZeroCut (N0 i) in
  let H i j := cut_le ZeroCut (H0 i j) in
  let dlambda := (2 * H 2%nat 2%nat - 2 * H 3%nat 3%nat) * / vh ^ 2 in
  let dT4 := H 2%nat 2%nat * vh - N 3%nat in
  let parCT :=
    if Req_EM_T va 0 then
      if Req_EM_T vs 0 then
        [-3 * H 2%nat 2%nat + H 3%nat 3%nat;
         dlambda;
         0;
         - H 4%nat 4%nat - H 5%nat 5%nat;
         0;
         H 5%nat 5%nat - H 4%nat 4%nat;
         2 * H 4%nat 5%nat;
         - sqrt 2 * N 4%nat / 2;
         sqrt 2 * N 5%nat / 2;
         - N 0%nat; - N 1%nat; - N 2%nat; dT4; 0; 0]
      else
        [(-3 * H 2%nat 2%nat * vh + H 3%nat 3%nat * vh + vs * H 3%nat 4%nat) / vh;
         dlambda;
         -2 / vh / vs * H 3%nat 4%nat;
         (H 3%nat 4%nat * vh + vs * H 4%nat 4%nat - H 5%nat 5%nat * vs - 2 * N 4%nat) / vs;
         (-2 * vs * H 4%nat 4%nat + 2 * N 4%nat) * / vs ^ 3;
         (H 5%nat 5%nat * vs - N 4%nat) / vs;
         2 * H 4%nat 5%nat;
         0;
         - sqrt 2 * (H 4%nat 5%nat * vs - N 5%nat) / 2;
         - N 0%nat; - N 1%nat; - N 2%nat; dT4; 0; 0]
    else
      if Req_EM_T vs 0 then
        [(-3 * H 2%nat 2%nat * vh + H 3%nat 3%nat * vh + va * H 3%nat 5%nat) / vh;
         dlambda;
         -2 / va / vh * H 3%nat 5%nat;
         (H 3%nat 5%nat * vh - H 4%nat 4%nat * va + H 5%nat 5%nat * va - 2 * N 5%nat) / va;
         (-2 * H 5%nat 5%nat * va + 2 * N 5%nat) * / va ^ 3;
         (- H 4%nat 4%nat * va + N 5%nat) / va;
         2 * H 4%nat 5%nat;
         - sqrt 2 * (- va * H 4%nat 5%nat + N 4%nat) / 2;
         0;
         - N 0%nat; - N 1%nat; - N 2%nat; dT4; 0; 0]
      else
        if Req_EM_T Ima1 0 then
          [((va * va + vs * vs) * H 3%nat 5%nat - 3 * vh * (H 2%nat 2%nat - H 3%nat 3%nat / 3) * va) / vh / va;
           dlambda;
           -2 / va / vh * H 3%nat 5%nat;
           (2 * H 4%nat 5%nat * vs + H 5%nat 5%nat * va - H 4%nat 4%nat * va + H 3%nat 5%nat * vh - 2 * N 5%nat) / va;
           (-2 * H 4%nat 5%nat * vs - 2 * H 5%nat 5%nat * va + 2 * N 5%nat) / (va * va + vs * vs) / va;
           ((- va ^ 3 - vs * vs * va) * H 4%nat 4%nat + (- vs * va * va + vs ^ 3) * H 4%nat 5%nat + 2 * H 5%nat 5%nat * va * vs * vs
            + N 5%nat * (va * va - vs * vs)) / (va * va + vs * vs) / va;
           (2 * va * va * H 4%nat 5%nat - 2 * vs * (H 5%nat 5%nat * va - N 5%nat)) / (va * va + vs * vs);
           (H 4%nat 5%nat * (va * va - vs * vs) + H 4%nat 4%nat * va * vs - H 5%nat 5%nat * va * vs - N 4%nat * va + N 5%nat * vs)
             * sqrt 2 / va / 2;
           0;
           - N 0%nat; - N 1%nat; - N 2%nat; dT4; 0; 0]
        else
          [((va * va + vs * vs) * H 3%nat 5%nat - 3 * vh * va * (H 2%nat 2%nat - H 3%nat 3%nat / 3)) / vh / va;
           dlambda;
           -2 / va / vh * H 3%nat 5%nat;
           ((2 * va * va + 2 * vs * vs) * H 4%nat 5%nat
            - (- H 3%nat 5%nat * vh + va * (H 4%nat 4%nat + H 5%nat 5%nat)) * vs) / vs / va;
           -2 / vs / va * H 4%nat 5%nat;
           H 5%nat 5%nat + vs / va * H 4%nat 5%nat - va / vs * H 4%nat 5%nat - H 4%nat 4%nat;
           0;
           (- H 4%nat 5%nat * vs * vs + va * (vs * H 4%nat 4%nat - N 4%nat)) * sqrt 2 / va / 2;
           sqrt 2 * (va * va * H 4%nat 5%nat - vs * (H 5%nat 5%nat * va - N 5%nat)) / vs / 2;
           - N 0%nat; - N 1%nat; - N 2%nat; dT4; 0; 0] in
  Ok (map (cut_le ZeroCut) parCT)).
(** ClassPotentialCxSM.cpp 612: ZeroCut = 1e-5 *)
Definition calc_CT_CxSM : bool -> bool -> R -> R -> R -> R -> list R -> list R -> outcome (list R) := calc_CT_CxSM_cut (1 / 100000).
