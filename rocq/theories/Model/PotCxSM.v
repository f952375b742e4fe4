(** Scalar couplings of src/models/ClassPotentialCxSM.cpp.  Doubles are real numbers. *)
From Coq Require Import Reals ZArith List.
From Verif.Model Require Import Base Potential Tables.
Import ListNotations.
Open Scope R_scope.

(** number of scalar fields, ClassPotentialCxSM.cpp constructor *)
Definition N : nat := 6%nat.

(** the members the tree-level couplings are made of, ClassPotentialCxSM.h *)
Record params := mkP { p_msq : R; p_lambda : R; p_delta2 : R; p_b2 : R; p_d2 : R; p_Reb1 : R; p_Imb1 : R; p_Rea1 : R; p_Ima1 : R }.

(** SetCurvatureArrays, 918-919 *)
Definition tree_L1 (p : params) : table :=
  let 'mkP msq lambda delta2 b2 d2 Reb1 Imb1 Rea1 Ima1 := p in
  [
   ([4]%nat, Rea1 * sqrt (2)); ([5]%nat, - Ima1 * sqrt (2))].

(** SetCurvatureArrays, 921-928 *)
Definition tree_L2 (p : params) : table :=
  let 'mkP msq lambda delta2 b2 d2 Reb1 Imb1 Rea1 Ima1 := p in
  [
   ([0; 0]%nat, msq / 2); ([1; 1]%nat, msq / 2); ([2; 2]%nat, msq / 2); ([3; 3]%nat, msq / 2);
   ([4; 4]%nat, Reb1 / 2 + b2 / 2); ([4; 5]%nat, - Imb1 / 2); ([5; 4]%nat, - Imb1 / 2);
   ([5; 5]%nat, - Reb1 / 2 + b2 / 2)].

(** SetCurvatureArrays, 930-1025 *)
Definition tree_L4 (p : params) : table :=
  let 'mkP msq lambda delta2 b2 d2 Reb1 Imb1 Rea1 Ima1 := p in
  [
   ([0; 0; 0; 0]%nat, 3 / 2 * lambda); ([0; 0; 1; 1]%nat, lambda / 2); ([0; 0; 2; 2]%nat, lambda / 2);
   ([0; 0; 3; 3]%nat, lambda / 2); ([0; 0; 4; 4]%nat, delta2 / 2); ([0; 0; 5; 5]%nat, delta2 / 2);
   ([0; 1; 0; 1]%nat, lambda / 2); ([0; 1; 1; 0]%nat, lambda / 2); ([0; 2; 0; 2]%nat, lambda / 2);
   ([0; 2; 2; 0]%nat, lambda / 2); ([0; 3; 0; 3]%nat, lambda / 2); ([0; 3; 3; 0]%nat, lambda / 2);
   ([0; 4; 0; 4]%nat, delta2 / 2); ([0; 4; 4; 0]%nat, delta2 / 2); ([0; 5; 0; 5]%nat, delta2 / 2);
   ([0; 5; 5; 0]%nat, delta2 / 2); ([1; 0; 0; 1]%nat, lambda / 2); ([1; 0; 1; 0]%nat, lambda / 2);
   ([1; 1; 0; 0]%nat, lambda / 2); ([1; 1; 1; 1]%nat, 3 / 2 * lambda); ([1; 1; 2; 2]%nat, lambda / 2);
   ([1; 1; 3; 3]%nat, lambda / 2); ([1; 1; 4; 4]%nat, delta2 / 2); ([1; 1; 5; 5]%nat, delta2 / 2);
   ([1; 2; 1; 2]%nat, lambda / 2); ([1; 2; 2; 1]%nat, lambda / 2); ([1; 3; 1; 3]%nat, lambda / 2);
   ([1; 3; 3; 1]%nat, lambda / 2); ([1; 4; 1; 4]%nat, delta2 / 2); ([1; 4; 4; 1]%nat, delta2 / 2);
   ([1; 5; 1; 5]%nat, delta2 / 2); ([1; 5; 5; 1]%nat, delta2 / 2); ([2; 0; 0; 2]%nat, lambda / 2);
   ([2; 0; 2; 0]%nat, lambda / 2); ([2; 1; 1; 2]%nat, lambda / 2); ([2; 1; 2; 1]%nat, lambda / 2);
   ([2; 2; 0; 0]%nat, lambda / 2); ([2; 2; 1; 1]%nat, lambda / 2); ([2; 2; 2; 2]%nat, 3 / 2 * lambda);
   ([2; 2; 3; 3]%nat, lambda / 2); ([2; 2; 4; 4]%nat, delta2 / 2); ([2; 2; 5; 5]%nat, delta2 / 2);
   ([2; 3; 2; 3]%nat, lambda / 2); ([2; 3; 3; 2]%nat, lambda / 2); ([2; 4; 2; 4]%nat, delta2 / 2);
   ([2; 4; 4; 2]%nat, delta2 / 2); ([2; 5; 2; 5]%nat, delta2 / 2); ([2; 5; 5; 2]%nat, delta2 / 2);
   ([3; 0; 0; 3]%nat, lambda / 2); ([3; 0; 3; 0]%nat, lambda / 2); ([3; 1; 1; 3]%nat, lambda / 2);
   ([3; 1; 3; 1]%nat, lambda / 2); ([3; 2; 2; 3]%nat, lambda / 2); ([3; 2; 3; 2]%nat, lambda / 2);
   ([3; 3; 0; 0]%nat, lambda / 2); ([3; 3; 1; 1]%nat, lambda / 2); ([3; 3; 2; 2]%nat, lambda / 2);
   ([3; 3; 3; 3]%nat, 3 / 2 * lambda); ([3; 3; 4; 4]%nat, delta2 / 2); ([3; 3; 5; 5]%nat, delta2 / 2);
   ([3; 4; 3; 4]%nat, delta2 / 2); ([3; 4; 4; 3]%nat, delta2 / 2); ([3; 5; 3; 5]%nat, delta2 / 2);
   ([3; 5; 5; 3]%nat, delta2 / 2); ([4; 0; 0; 4]%nat, delta2 / 2); ([4; 0; 4; 0]%nat, delta2 / 2);
   ([4; 1; 1; 4]%nat, delta2 / 2); ([4; 1; 4; 1]%nat, delta2 / 2); ([4; 2; 2; 4]%nat, delta2 / 2);
   ([4; 2; 4; 2]%nat, delta2 / 2); ([4; 3; 3; 4]%nat, delta2 / 2); ([4; 3; 4; 3]%nat, delta2 / 2);
   ([4; 4; 0; 0]%nat, delta2 / 2); ([4; 4; 1; 1]%nat, delta2 / 2); ([4; 4; 2; 2]%nat, delta2 / 2);
   ([4; 4; 3; 3]%nat, delta2 / 2); ([4; 4; 4; 4]%nat, 3 / 2 * d2); ([4; 4; 5; 5]%nat, d2 / 2);
   ([4; 5; 4; 5]%nat, d2 / 2); ([4; 5; 5; 4]%nat, d2 / 2); ([5; 0; 0; 5]%nat, delta2 / 2);
   ([5; 0; 5; 0]%nat, delta2 / 2); ([5; 1; 1; 5]%nat, delta2 / 2); ([5; 1; 5; 1]%nat, delta2 / 2);
   ([5; 2; 2; 5]%nat, delta2 / 2); ([5; 2; 5; 2]%nat, delta2 / 2); ([5; 3; 3; 5]%nat, delta2 / 2);
   ([5; 3; 5; 3]%nat, delta2 / 2); ([5; 4; 4; 5]%nat, d2 / 2); ([5; 4; 5; 4]%nat, d2 / 2);
   ([5; 5; 0; 0]%nat, delta2 / 2); ([5; 5; 1; 1]%nat, delta2 / 2); ([5; 5; 2; 2]%nat, delta2 / 2);
   ([5; 5; 3; 3]%nat, delta2 / 2); ([5; 5; 4; 4]%nat, d2 / 2); ([5; 5; 5; 5]%nat, 3 / 2 * d2)].

(** SetCurvatureArrays, from line 904: the scalar tensors it leaves behind (initVectors zeroes them first) *)
Definition SetCurvatureArrays (p : params) : tensors :=
  mkT
    (assign (tree_L1 p) zero_tensor)
    (assign (tree_L2 p) zero_tensor)
    zero_tensor
    (assign (tree_L4 p) zero_tensor).

(** the counterterm members, ClassPotentialCxSM.h *)
Record ctparams := mkC { c_dmsq : R; c_dlambda : R; c_ddelta2 : R; c_db2 : R; c_dd2 : R; c_dReb1 : R; c_dImb1 : R; c_dRea1 : R; c_dIma1 : R; c_dT1 : R; c_dT2 : R; c_dT3 : R; c_dT4 : R; c_dT5 : R; c_dT6 : R }.

(** set_CT_Pot_Par, 282-296: reads past the end of a shorter vector *)
Definition read_CT (par : list R) : outcome ctparams :=
  match par with
  | dmsq :: dlambda :: ddelta2 :: db2 :: dd2 :: dReb1 :: dImb1 :: dRea1 :: dIma1 :: dT1 :: dT2 :: dT3 :: dT4 :: dT5 :: dT6 :: _ =>
      Ok (mkC dmsq dlambda ddelta2 db2 dd2 dReb1 dImb1 dRea1 dIma1 dT1 dT2 dT3 dT4 dT5 dT6)
  | _ => UB
  end.

(** set_CT_Pot_Par, 298-303 *)
Definition CT_L1 (c : ctparams) : table :=
  let 'mkC dmsq dlambda ddelta2 db2 dd2 dReb1 dImb1 dRea1 dIma1 dT1 dT2 dT3 dT4 dT5 dT6 := c in
  [
   ([0]%nat, dT1); ([1]%nat, dT2); ([2]%nat, dT3); ([3]%nat, dT4); ([4]%nat, sqrt (2) * dRea1 + dT5);
   ([5]%nat, - sqrt (2) * dIma1 + dT6)].

(** set_CT_Pot_Par, 305-312 *)
Definition CT_L2 (c : ctparams) : table :=
  let 'mkC dmsq dlambda ddelta2 db2 dd2 dReb1 dImb1 dRea1 dIma1 dT1 dT2 dT3 dT4 dT5 dT6 := c in
  [
   ([0; 0]%nat, dmsq / 2); ([1; 1]%nat, dmsq / 2); ([2; 2]%nat, dmsq / 2); ([3; 3]%nat, dmsq / 2);
   ([4; 4]%nat, db2 / 2 + dReb1 / 2); ([4; 5]%nat, - dImb1 / 2); ([5; 4]%nat, - dImb1 / 2);
   ([5; 5]%nat, db2 / 2 - dReb1 / 2)].

(** set_CT_Pot_Par, 314-409 *)
Definition CT_L4 (c : ctparams) : table :=
  let 'mkC dmsq dlambda ddelta2 db2 dd2 dReb1 dImb1 dRea1 dIma1 dT1 dT2 dT3 dT4 dT5 dT6 := c in
  [
   ([0; 0; 0; 0]%nat, 3 / 2 * dlambda); ([0; 0; 1; 1]%nat, dlambda / 2); ([0; 0; 2; 2]%nat, dlambda / 2);
   ([0; 0; 3; 3]%nat, dlambda / 2); ([0; 0; 4; 4]%nat, ddelta2 / 2); ([0; 0; 5; 5]%nat, ddelta2 / 2);
   ([0; 1; 0; 1]%nat, dlambda / 2); ([0; 1; 1; 0]%nat, dlambda / 2); ([0; 2; 0; 2]%nat, dlambda / 2);
   ([0; 2; 2; 0]%nat, dlambda / 2); ([0; 3; 0; 3]%nat, dlambda / 2); ([0; 3; 3; 0]%nat, dlambda / 2);
   ([0; 4; 0; 4]%nat, ddelta2 / 2); ([0; 4; 4; 0]%nat, ddelta2 / 2); ([0; 5; 0; 5]%nat, ddelta2 / 2);
   ([0; 5; 5; 0]%nat, ddelta2 / 2); ([1; 0; 0; 1]%nat, dlambda / 2); ([1; 0; 1; 0]%nat, dlambda / 2);
   ([1; 1; 0; 0]%nat, dlambda / 2); ([1; 1; 1; 1]%nat, 3 / 2 * dlambda); ([1; 1; 2; 2]%nat, dlambda / 2);
   ([1; 1; 3; 3]%nat, dlambda / 2); ([1; 1; 4; 4]%nat, ddelta2 / 2); ([1; 1; 5; 5]%nat, ddelta2 / 2);
   ([1; 2; 1; 2]%nat, dlambda / 2); ([1; 2; 2; 1]%nat, dlambda / 2); ([1; 3; 1; 3]%nat, dlambda / 2);
   ([1; 3; 3; 1]%nat, dlambda / 2); ([1; 4; 1; 4]%nat, ddelta2 / 2); ([1; 4; 4; 1]%nat, ddelta2 / 2);
   ([1; 5; 1; 5]%nat, ddelta2 / 2); ([1; 5; 5; 1]%nat, ddelta2 / 2); ([2; 0; 0; 2]%nat, dlambda / 2);
   ([2; 0; 2; 0]%nat, dlambda / 2); ([2; 1; 1; 2]%nat, dlambda / 2); ([2; 1; 2; 1]%nat, dlambda / 2);
   ([2; 2; 0; 0]%nat, dlambda / 2); ([2; 2; 1; 1]%nat, dlambda / 2); ([2; 2; 2; 2]%nat, 3 / 2 * dlambda);
   ([2; 2; 3; 3]%nat, dlambda / 2); ([2; 2; 4; 4]%nat, ddelta2 / 2); ([2; 2; 5; 5]%nat, ddelta2 / 2);
   ([2; 3; 2; 3]%nat, dlambda / 2); ([2; 3; 3; 2]%nat, dlambda / 2); ([2; 4; 2; 4]%nat, ddelta2 / 2);
   ([2; 4; 4; 2]%nat, ddelta2 / 2); ([2; 5; 2; 5]%nat, ddelta2 / 2); ([2; 5; 5; 2]%nat, ddelta2 / 2);
   ([3; 0; 0; 3]%nat, dlambda / 2); ([3; 0; 3; 0]%nat, dlambda / 2); ([3; 1; 1; 3]%nat, dlambda / 2);
   ([3; 1; 3; 1]%nat, dlambda / 2); ([3; 2; 2; 3]%nat, dlambda / 2); ([3; 2; 3; 2]%nat, dlambda / 2);
   ([3; 3; 0; 0]%nat, dlambda / 2); ([3; 3; 1; 1]%nat, dlambda / 2); ([3; 3; 2; 2]%nat, dlambda / 2);
   ([3; 3; 3; 3]%nat, 3 / 2 * dlambda); ([3; 3; 4; 4]%nat, ddelta2 / 2); ([3; 3; 5; 5]%nat, ddelta2 / 2);
   ([3; 4; 3; 4]%nat, ddelta2 / 2); ([3; 4; 4; 3]%nat, ddelta2 / 2); ([3; 5; 3; 5]%nat, ddelta2 / 2);
   ([3; 5; 5; 3]%nat, ddelta2 / 2); ([4; 0; 0; 4]%nat, ddelta2 / 2); ([4; 0; 4; 0]%nat, ddelta2 / 2);
   ([4; 1; 1; 4]%nat, ddelta2 / 2); ([4; 1; 4; 1]%nat, ddelta2 / 2); ([4; 2; 2; 4]%nat, ddelta2 / 2);
   ([4; 2; 4; 2]%nat, ddelta2 / 2); ([4; 3; 3; 4]%nat, ddelta2 / 2); ([4; 3; 4; 3]%nat, ddelta2 / 2);
   ([4; 4; 0; 0]%nat, ddelta2 / 2); ([4; 4; 1; 1]%nat, ddelta2 / 2); ([4; 4; 2; 2]%nat, ddelta2 / 2);
   ([4; 4; 3; 3]%nat, ddelta2 / 2); ([4; 4; 4; 4]%nat, 3 / 2 * dd2); ([4; 4; 5; 5]%nat, dd2 / 2);
   ([4; 5; 4; 5]%nat, dd2 / 2); ([4; 5; 5; 4]%nat, dd2 / 2); ([5; 0; 0; 5]%nat, ddelta2 / 2);
   ([5; 0; 5; 0]%nat, ddelta2 / 2); ([5; 1; 1; 5]%nat, ddelta2 / 2); ([5; 1; 5; 1]%nat, ddelta2 / 2);
   ([5; 2; 2; 5]%nat, ddelta2 / 2); ([5; 2; 5; 2]%nat, ddelta2 / 2); ([5; 3; 3; 5]%nat, ddelta2 / 2);
   ([5; 3; 5; 3]%nat, ddelta2 / 2); ([5; 4; 4; 5]%nat, dd2 / 2); ([5; 4; 5; 4]%nat, dd2 / 2);
   ([5; 5; 0; 0]%nat, ddelta2 / 2); ([5; 5; 1; 1]%nat, ddelta2 / 2); ([5; 5; 2; 2]%nat, ddelta2 / 2);
   ([5; 5; 3; 3]%nat, ddelta2 / 2); ([5; 5; 4; 4]%nat, dd2 / 2); ([5; 5; 5; 5]%nat, 3 / 2 * dd2)].

(** set_CT_Pot_Par, from line 280, called on the zeroed tensors *)
Definition set_CT_Pot_Par (par : list R) : outcome tensors :=
  bind (read_CT par) (fun c => Ok (mkT
    (assign (CT_L1 c) zero_tensor)
    (assign (CT_L2 c) zero_tensor)
    zero_tensor
    (assign (CT_L4 c) zero_tensor))).
