(** The thermal (Debye) masses: CalculateDebye and CalculateDebyeGauge with the overrides CalculateDebyeSimplified and CalculateDebyeGaugeSimplified
    of the models.  Doubles are real numbers. *)
From Coq Require Import Reals ZArith List.
From Coquelicot Require Import Complex.
From Verif.Model Require Import Base Potential Tables SMConst Yukawa.
Import ListNotations.
Open Scope R_scope.

(** "if (std::abs(x) <= 1e-5) x = 0", ClassPotentialOrigin.cpp 3276 and 3327 *)
Definition cut (x : R) : R := if Rle_dec (Rabs x) (1 / 100000) then 0 else x.

(** the real part of 0.5 (conj(F_j) F_i + conj(F_i) F_j), ClassPotentialOrigin.cpp 3248-3252 and 3261-3265 *)
Definition fermion_product (Y : nat -> nat -> nat -> C) (i j a b : nat) : R :=
  Re (RtoC (1 / 2) * (Cconj (Y a b j) * Y a b i + Cconj (Y a b i) * Y a b j))%C.
(** the sum in CalculateDebye for i <= j, ClassPotentialOrigin.cpp 3234-3268; [n], [ng], [nq] and [nl] are NHiggs, NGauge, NQuarks and NLepton *)
Definition debye_sum (n ng nq nl : nat) (L4 G : tensor R) (Yq Yl : nat -> nat -> nat -> C) (i j : nat) : R :=
  let s := accum n (fun k r => r + 1 / 2 * L4 [i; j; k; k] / 12) 0 in
  let s := accum ng (fun k r => r + 3 * (1 / 2) * G [k; k; i; j] / 12) s in
  let s := accum nq (fun a r => accum nq (fun b r => r + 6 / 24 * fermion_product Yq i j a b) r) s in
  accum nl (fun a r => accum nl (fun b r => r + 2 / 24 * fermion_product Yl i j a b) r) s.
(** CalculateDebye, ClassPotentialOrigin.cpp 3223-3289; [simplified] is what CalculateDebyeSimplified stores and returns true for, if it does; the
    lower triangle is copied from the upper one *)
Definition CalculateDebye (force : bool) (simplified : option (nat -> nat -> R)) (n ng nq nl : nat) (L4 G : tensor R) (Yq Yl : nat -> nat -> nat -> C)
    : nat -> nat -> R :=
  let generic i j := let up i j := cut (debye_sum n ng nq nl L4 G Yq Yl i j) in if Nat.ltb j i then up j i else up i j in
  if force then generic else match simplified with Some D => D | None => generic end.

(** CalculateDebyeSimplified: the two coefficients, ClassPotentialR2HDM.cpp 1382-1414, ClassPotentialC2HDM.cpp 3077-3109, ClassPotentialN2HDM.cpp
    3107-3138; [L1] .. [L4] are the members of that name, cosine and sine those of beta *)
Definition CTempC (K : constants) (Type_ : Z) (CosBeta SinBeta L1 L2 L3 L4 : R) : R * R :=
  let with2 := orb (Z.eqb Type_ 1) (Z.eqb Type_ 3) in
  let cb := 0 in
  let cb := if with2 then sqrt 2 * MassBottom K / (vev0 K * SinBeta) else cb in
  let cb := if orb (Z.eqb Type_ 2) (Z.eqb Type_ 4) then sqrt 2 * MassBottom K / (vev0 K * CosBeta) else cb in
  let C1 := 1 / 48 * (12 * L1 + 8 * L3 + 4 * L4 + 3 * (3 * C_g K * C_g K + C_gs K * C_gs K)) in
  let ct := sqrt 2 * MassTop K / (vev0 K * SinBeta) in
  let C2 := 1 / 48 * (12 * L2 + 8 * L3 + 4 * L4 + 3 * (3 * C_g K * C_g K + C_gs K * C_gs K) + 12 * ct * ct) in
  if with2 then (C1, C2 + 12 / 48 * cb * cb) else (C1 + 12 / 48 * cb * cb, C2).
(** ClassPotentialR2HDM.cpp 1415-1424, ClassPotentialC2HDM.cpp 3110-3119: the diagonal; the other entries keep the zeros they are created with *)
Definition R2HDM_debye (K : constants) (Type_ : Z) (CosBeta SinBeta L1 L2 L3 L4 : R) (i j : nat) : R :=
  let (C1, C2) := CTempC K Type_ CosBeta SinBeta L1 L2 L3 L4 in
  match i, j with
  | 0, 0 | 1, 1 | 4, 4 | 5, 5 => C1
  | 2, 2 | 3, 3 | 6, 6 | 7, 7 => C2
  | _, _ => 0%R
  end%nat.
(** ClassPotentialN2HDM.cpp 3140-3152 *)
Definition N2HDM_debye (K : constants) (Type_ : Z) (CosBeta SinBeta L1 L2 L3 L4 NL6 NL7 NL8 : R) (i j : nat) : R :=
  let (C1, C2) := CTempC K Type_ CosBeta SinBeta L1 L2 L3 L4 in
  let C1 := C1 + 1 / 48 * (2 * NL7) in
  let C2 := C2 + 1 / 48 * (2 * NL8) in
  let CS := 1 / 6 * (NL7 + NL8) + 1 / 8 * NL6 in
  match i, j with
  | 0, 0 | 2, 2 | 4, 4 | 6, 6 => C1
  | 1, 1 | 3, 3 | 5, 5 | 7, 7 => C2
  | 8, 8 => CS
  | _, _ => 0%R
  end%nat.

(** CalculateDebyeGauge, ClassPotentialOrigin.cpp 3292-3330, with four gauge bosons; None: 1.0 / nGaugeHiggs divides by zero *)
Definition CalculateDebyeGauge (simplified : option (nat -> nat -> R)) (n : nat) (G : tensor R) : option (nat -> nat -> R) :=
  match simplified with
  | Some D => Some D
  | None =>
      let nGaugeHiggs := fold_left (fun c i => if Req_EM_T (G [0; 0; i; i]%nat) 0 then c else S c) (seq 0 n) 0%nat in
      if Nat.eqb nGaugeHiggs 0 then None
      else Some (fun i j =>
        let GaugeFac := accum n (fun k r => r + G [i; i; k; k]) 0 * (1 / INR nGaugeHiggs) in
        cut (if Nat.eqb i j then 2 / 3 * (INR nGaugeHiggs / 8 + 5) * GaugeFac else 0))
  end.
(** CalculateDebyeGaugeSimplified, ClassPotentialR2HDM.cpp 1427-1435, ClassPotentialC2HDM.cpp 3122-3130, ClassPotentialN2HDM.cpp 3157-3165; the other
    models return false *)
Definition two_doublet_gauge (K : constants) (i j : nat) : R :=
  match i, j with
  | 0, 0 | 1, 1 | 2, 2 => (2 * C_g K * C_g K)%R
  | 3, 3 => (2 * C_gs K * C_gs K)%R
  | _, _ => 0%R
  end%nat.
