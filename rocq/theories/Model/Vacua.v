(** How set_gen of src/models/ClassPotential*.cpp turns the input parameters into couplings and the tree-level vacuum.
    Doubles are real numbers.  Where the program divides by zero (TanBeta = 0) the real quotient is not the infinity of
    the program; the theorems exclude that case. *)
From Coq Require Import Reals ZArith List.
From Verif.Model Require Import Base Potential Tables.
From Verif.Model Require PotSM PotCxSM PotR2HDM PotC2HDM PotN2HDM PotCPintheDark.
Import ListNotations.
Open Scope R_scope.

(** VevOrder, see model_tables in Potential.v: ClassPotentialSM.cpp 37-38, CxSM 43-47, R2HDM 35-39, C2HDM 36-48,
    N2HDM 41-46, CPintheDark 47-52 *)
Definition order_SM : list nat := [2]%nat.
Definition order_CxSM : list nat := [3; 4; 5]%nat.
Definition order_R2HDM : list nat := [2; 4; 6; 7]%nat.
Definition order_C2HDM (IncludeChargeBreakingVEV : bool) : list nat :=
  if IncludeChargeBreakingVEV then [2; 4; 6; 7]%nat else [4; 6; 7]%nat.
Definition order_N2HDM : list nat := [1; 5; 6; 7; 8]%nat.
Definition order_CPintheDark : list nat := [2; 4; 6; 7; 8]%nat.

(** C_CosBetaSquared, C_CosBeta, C_SinBetaSquared, C_SinBeta: ClassPotentialR2HDM.cpp 230-233, ClassPotentialC2HDM.cpp
    233-236, ClassPotentialN2HDM.cpp 238-241 *)
Definition CosBetaSquared (TanBeta : R) : R := 1 / (1 + TanBeta * TanBeta).
Definition CosBeta (TanBeta : R) : R := sqrt (CosBetaSquared TanBeta).
Definition SinBetaSquared (TanBeta : R) : R := TanBeta * TanBeta * CosBetaSquared TanBeta.
Definition SinBeta (TanBeta : R) : R := sqrt (SinBetaSquared TanBeta).
(** ClassPotentialR2HDM.cpp 233-238: "for beta in 4th quadrant" *)
Definition SinBeta_signed (TanBeta : R) : R :=
  if Rlt_dec TanBeta 0 then SinBeta TanBeta * -1 else SinBeta TanBeta.

(** ClassPotentialSM.cpp 136-158; par is ignored, MH is SMConstants.C_MassSMHiggs, v0 is SMConstants.C_vev0; the result
    are the couplings and vevTreeMin *)
Definition set_gen_SM (v0 MH : R) (par : list R) : outcome (PotSM.params * list R) :=
  let muSq := - MH ^ 2 / 2 in
  let lambda := - muSq * / v0 ^ 2 in
  Ok (PotSM.mkP muSq lambda, [v0]).

(** ClassPotentialR2HDM.cpp 215-297 without CTempC1, CTempC2; the third component is (C_CosBeta, C_SinBeta); par[7] (Type)
    selects Yukawa couplings only *)
Definition set_gen_R2HDM (v0 : R) (par : list R) : outcome (PotR2HDM.params * list R * (R * R)) :=
  match par with
  | L1 :: L2 :: L3 :: L4 :: RL5 :: RealMMix :: TanBeta :: Type_ :: _ =>
      let c2 := CosBetaSquared TanBeta in
      let s2 := SinBetaSquared TanBeta in
      let u1 := RealMMix * TanBeta - v0 * v0 * s2 * (L4 + RL5 + L3) / 2 - v0 * v0 * c2 * L1 / 2 in
      let u2 := RealMMix * 1 / TanBeta - v0 * v0 * c2 * (L4 + RL5 + L3) / 2 - v0 * v0 * s2 * L2 / 2 in
      let c := CosBeta TanBeta in
      let s := SinBeta_signed TanBeta in
      Ok (PotR2HDM.mkP u1 u2 RealMMix L1 L2 L3 L4 RL5, [0; v0 * c; v0 * s; 0], (c, s))
  | _ => UB
  end.

(** ClassPotentialC2HDM.cpp 218-298, same remarks *)
Definition set_gen_C2HDM (IncludeChargeBreakingVEV : bool) (v0 : R) (par : list R) : outcome (PotC2HDM.params * list R * (R * R)) :=
  match par with
  | L1 :: L2 :: L3 :: L4 :: RL5 :: IL5 :: RealMMix :: TanBeta :: Type_ :: _ =>
      let c2 := CosBetaSquared TanBeta in
      let s2 := SinBetaSquared TanBeta in
      let u1 := RealMMix * TanBeta - v0 * v0 * s2 * (L4 + RL5 + L3) / 2 - v0 * v0 * c2 * L1 / 2 in
      let u2 := RealMMix * 1 / TanBeta - v0 * v0 * c2 * (L4 + RL5 + L3) / 2 - v0 * v0 * s2 * L2 / 2 in
      let Iu3 := v0 * v0 * TanBeta * c2 * IL5 * (1 / 2) in
      let c := CosBeta TanBeta in
      let s := SinBeta TanBeta in
      Ok (PotC2HDM.mkP u1 u2 RealMMix Iu3 L1 L2 L3 L4 RL5 IL5,
          if IncludeChargeBreakingVEV then [0; v0 * c; v0 * s; 0] else [v0 * c; v0 * s; 0], (c, s))
  | _ => UB
  end.

(** ClassPotentialN2HDM.cpp 221-261; the third component is (C_CosBeta, C_SinBeta, Nvs) *)
Definition set_gen_N2HDM (v0 : R) (par : list R) : outcome (PotN2HDM.params * list R * (R * R * R)) :=
  match par with
  | L1 :: L2 :: L3 :: L4 :: RL5 :: NL6 :: NL7 :: NL8 :: TanBeta :: Nvs :: RealMMix :: Type_ :: _ =>
      let c := CosBeta TanBeta in
      let s := SinBeta TanBeta in
      let v1 := v0 * c in
      let v2 := v0 * s in
      let u1 := RealMMix * TanBeta - 1 / 2 * v1 * v1 * L1 - 1 / 2 * v2 * v2 * (L3 + L4 + RL5) - 1 / 2 * Nvs * Nvs * NL7 in
      let u2 := RealMMix / TanBeta - 1 / 2 * v2 * v2 * L2 - 1 / 2 * v1 * v1 * (L3 + L4 + RL5) - 1 / 2 * Nvs * Nvs * NL8 in
      let Nus := - (1 / 2) * NL6 * Nvs * Nvs - 1 / 2 * NL7 * v1 * v1 - 1 / 2 * NL8 * v2 * v2 in
      Ok (PotN2HDM.mkP u1 u2 RealMMix L1 L2 L3 L4 RL5 Nus NL6 NL7 NL8, [0; 0; v0 * c; v0 * s; Nvs], (c, s, Nvs))
  | _ => UB
  end.

(** ClassPotentialCPintheDark.cpp 244-278 *)
Definition set_gen_CPintheDark (v0 : R) (par : list R) : outcome (PotCPintheDark.params * list R) :=
  match par with
  | m11s :: m22s :: mSs :: ReA :: ImA :: L1 :: L2 :: L3 :: L4 :: L5 :: L6 :: L7 :: L8 :: _ =>
      Ok (PotCPintheDark.mkP m11s m22s mSs ReA ImA L1 L2 L3 L4 L5 L6 L7 L8, [0; v0; 0; 0; 0])
  | _ => UB
  end.

(** ClassPotentialCxSM.cpp 203-273: the conditions va != 0 and vs != 0 choose which parameters are replaced *)
Definition set_gen_CxSM (par : list R) : outcome (PotCxSM.params * list R) :=
  match par with
  | vh :: vs :: va :: msq :: lambda :: delta2 :: b2 :: d2 :: Reb1 :: Imb1 :: Rea1 :: Ima1 :: _ =>
      let vev := [vh; vs; va] in
      if Req_EM_T va 0 then
        if Req_EM_T vs 0 then
          Ok (PotCxSM.mkP (- lambda * vh * vh / 2) lambda delta2 b2 d2 Reb1 Imb1 0 0, vev)
        else
          let Ima1' := - sqrt 2 * Imb1 * vs / 4 in
          let Reb1' := - 1 / vs * (d2 * vs ^ 3 + delta2 * vh * vh * vs + 4 * Rea1 * sqrt 2 + 2 * b2 * vs) / 2 in
          let msq' := - delta2 * vs * vs / 2 - lambda * vh * vh / 2 in
          Ok (PotCxSM.mkP msq' lambda delta2 b2 d2 Reb1' Imb1 Rea1 Ima1', vev)
      else
        if Req_EM_T vs 0 then
          let Rea1' := sqrt 2 * Imb1 * va / 4 in
          let Reb1' := 1 / va * (d2 * va ^ 3 + delta2 * va * vh * vh - 4 * Ima1 * sqrt 2 + 2 * b2 * va) / 2 in
          let msq' := - delta2 * va * va / 2 - lambda * vh * vh / 2 in
          Ok (PotCxSM.mkP msq' lambda delta2 b2 d2 Reb1' Imb1 Rea1' Ima1, vev)
        else
          let Rea1' := (- sqrt 2 * d2 * va ^ 3 * vs - sqrt 2 * d2 * va * vs ^ 3 - sqrt 2 * delta2 * va * vh * vh * vs
                        + 4 * Ima1 * vs + Imb1 * sqrt 2 * va * va + Imb1 * sqrt 2 * vs * vs - 2 * sqrt 2 * b2 * va * vs) / va / 4 in
          let Reb1' := 1 / va * (d2 * va ^ 3 + d2 * va * vs * vs + delta2 * va * vh * vh - 4 * Ima1 * sqrt 2
                        - 2 * Imb1 * vs + 2 * b2 * va) / 2 in
          let msq' := - delta2 * va * va / 2 - delta2 * vs * vs / 2 - lambda * vh * vh / 2 in
          Ok (PotCxSM.mkP msq' lambda delta2 b2 d2 Reb1' Imb1 Rea1' Ima1, vev)
  | _ => UB
  end.
