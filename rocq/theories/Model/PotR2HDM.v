(** Scalar couplings of src/models/ClassPotentialR2HDM.cpp.  Doubles are real numbers. *)
From Coq Require Import Reals ZArith List.
From Verif.Model Require Import Base Potential Tables.
Import ListNotations.
Open Scope R_scope.

(** number of scalar fields, ClassPotentialR2HDM.cpp constructor *)
Definition N : nat := 8%nat.

(** the members the tree-level couplings are made of, ClassPotentialR2HDM.h *)
Record params := mkP { p_u1 : R; p_u2 : R; p_RealMMix : R; p_L1 : R; p_L2 : R; p_L3 : R; p_L4 : R; p_RL5 : R }.

(** SetCurvatureArrays, 900-963 *)
Definition tree_L2 (p : params) : table :=
  let 'mkP u1 u2 RealMMix L1 L2 L3 L4 RL5 := p in
  [
   ([0; 0]%nat, u1); ([0; 1]%nat, 0); ([0; 2]%nat, - RealMMix); ([0; 3]%nat, 0); ([0; 4]%nat, 0); ([0; 5]%nat, 0);
   ([0; 6]%nat, 0); ([0; 7]%nat, 0); ([1; 0]%nat, 0); ([1; 1]%nat, u1); ([1; 2]%nat, 0); ([1; 3]%nat, - RealMMix);
   ([1; 4]%nat, 0); ([1; 5]%nat, 0); ([1; 6]%nat, 0); ([1; 7]%nat, 0); ([2; 0]%nat, - RealMMix); ([2; 1]%nat, 0);
   ([2; 2]%nat, u2); ([2; 3]%nat, 0); ([2; 4]%nat, 0); ([2; 5]%nat, 0); ([2; 6]%nat, 0); ([2; 7]%nat, 0);
   ([3; 0]%nat, 0); ([3; 1]%nat, - RealMMix); ([3; 2]%nat, 0); ([3; 3]%nat, u2); ([3; 4]%nat, 0); ([3; 5]%nat, 0);
   ([3; 6]%nat, 0); ([3; 7]%nat, 0); ([4; 0]%nat, 0); ([4; 1]%nat, 0); ([4; 2]%nat, 0); ([4; 3]%nat, 0);
   ([4; 4]%nat, u1); ([4; 5]%nat, 0); ([4; 6]%nat, - RealMMix); ([4; 7]%nat, 0); ([5; 0]%nat, 0); ([5; 1]%nat, 0);
   ([5; 2]%nat, 0); ([5; 3]%nat, 0); ([5; 4]%nat, 0); ([5; 5]%nat, u1); ([5; 6]%nat, 0); ([5; 7]%nat, - RealMMix);
   ([6; 0]%nat, 0); ([6; 1]%nat, 0); ([6; 2]%nat, 0); ([6; 3]%nat, 0); ([6; 4]%nat, - RealMMix); ([6; 5]%nat, 0);
   ([6; 6]%nat, u2); ([6; 7]%nat, 0); ([7; 0]%nat, 0); ([7; 1]%nat, 0); ([7; 2]%nat, 0); ([7; 3]%nat, 0);
   ([7; 4]%nat, 0); ([7; 5]%nat, - RealMMix); ([7; 6]%nat, 0); ([7; 7]%nat, u2)].

(** SetCurvatureArrays, 965-1026 *)
Definition tree_L4 (p : params) : table :=
  let 'mkP u1 u2 RealMMix L1 L2 L3 L4 RL5 := p in
  [
   ([0; 0; 0; 0]%nat, 3 * L1); ([0; 0; 1; 1]%nat, L1); ([0; 0; 2; 2]%nat, L3 + L4 + RL5); ([0; 0; 2; 3]%nat, 0);
   ([0; 0; 3; 3]%nat, L3 + L4 - RL5); ([0; 0; 4; 4]%nat, L1); ([0; 0; 5; 5]%nat, L1); ([0; 0; 6; 6]%nat, L3);
   ([0; 0; 7; 7]%nat, L3); ([0; 1; 2; 2]%nat, 0); ([0; 1; 2; 3]%nat, RL5); ([0; 1; 3; 3]%nat, 0);
   ([0; 2; 4; 6]%nat, L4 / 2 + RL5 / 2); ([0; 2; 4; 7]%nat, 0); ([0; 2; 5; 6]%nat, 0);
   ([0; 2; 5; 7]%nat, L4 / 2 + RL5 / 2); ([0; 3; 4; 6]%nat, 0); ([0; 3; 4; 7]%nat, L4 / 2 - RL5 / 2);
   ([0; 3; 5; 6]%nat, - L4 / 2 + RL5 / 2); ([0; 3; 5; 7]%nat, 0); ([1; 1; 1; 1]%nat, 3 * L1);
   ([1; 1; 2; 2]%nat, L3 + L4 - RL5); ([1; 1; 2; 3]%nat, 0); ([1; 1; 3; 3]%nat, L3 + L4 + RL5);
   ([1; 1; 4; 4]%nat, L1); ([1; 1; 5; 5]%nat, L1); ([1; 1; 6; 6]%nat, L3); ([1; 1; 7; 7]%nat, L3);
   ([1; 2; 4; 6]%nat, 0); ([1; 2; 4; 7]%nat, - L4 / 2 + RL5 / 2); ([1; 2; 5; 6]%nat, L4 / 2 - RL5 / 2);
   ([1; 2; 5; 7]%nat, 0); ([1; 3; 4; 6]%nat, L4 / 2 + RL5 / 2); ([1; 3; 4; 7]%nat, 0); ([1; 3; 5; 6]%nat, 0);
   ([1; 3; 5; 7]%nat, L4 / 2 + RL5 / 2); ([2; 2; 2; 2]%nat, 3 * L2); ([2; 2; 3; 3]%nat, L2);
   ([2; 2; 4; 4]%nat, L3); ([2; 2; 5; 5]%nat, L3); ([2; 2; 6; 6]%nat, L2); ([2; 2; 7; 7]%nat, L2);
   ([3; 3; 3; 3]%nat, 3 * L2); ([3; 3; 4; 4]%nat, L3); ([3; 3; 5; 5]%nat, L3); ([3; 3; 6; 6]%nat, L2);
   ([3; 3; 7; 7]%nat, L2); ([4; 4; 4; 4]%nat, 3 * L1); ([4; 4; 5; 5]%nat, L1); ([4; 4; 6; 6]%nat, L3 + L4 + RL5);
   ([4; 4; 6; 7]%nat, 0); ([4; 4; 7; 7]%nat, L3 + L4 - RL5); ([4; 5; 6; 6]%nat, 0); ([4; 5; 6; 7]%nat, RL5);
   ([4; 5; 7; 7]%nat, 0); ([5; 5; 5; 5]%nat, 3 * L1); ([5; 5; 6; 6]%nat, L3 + L4 - RL5); ([5; 5; 6; 7]%nat, 0);
   ([5; 5; 7; 7]%nat, L3 + L4 + RL5); ([6; 6; 6; 6]%nat, 3 * L2); ([6; 6; 7; 7]%nat, L2); ([7; 7; 7; 7]%nat, 3 * L2)].

(** SetCurvatureArrays, from line 883: the scalar tensors it leaves behind (initVectors zeroes them first) *)
Definition SetCurvatureArrays (p : params) : tensors :=
  mkT
    zero_tensor
    (assign (tree_L2 p) zero_tensor)
    zero_tensor
    (doublet_sym4 N (assign (tree_L4 p) zero_tensor)).

(** the counterterm members, ClassPotentialR2HDM.h *)
Record ctparams := mkC { c_Du1CT : R; c_Du2CT : R; c_DRu3CT : R; c_DL1CT : R; c_DL2CT : R; c_DL3CT : R; c_DL4CT : R; c_DRL5CT : R; c_DT1 : R; c_DT2 : R; c_DT3 : R }.

(** set_CT_Pot_Par, 303-314: reads past the end of a shorter vector *)
Definition read_CT (par : list R) : outcome ctparams :=
  match par with
  | Du1CT :: Du2CT :: DRu3CT :: DL1CT :: DL2CT :: DL3CT :: DL4CT :: DRL5CT :: DT1 :: DT2 :: DT3 :: _ =>
      Ok (mkC Du1CT Du2CT DRu3CT DL1CT DL2CT DL3CT DL4CT DRL5CT DT1 DT2 DT3)
  | _ => UB
  end.

(** set_CT_Pot_Par, 319-326 *)
Definition CT_L1 (c : ctparams) : table :=
  let 'mkC Du1CT Du2CT DRu3CT DL1CT DL2CT DL3CT DL4CT DRL5CT DT1 DT2 DT3 := c in
  let DTCharged := 0 in (* ClassPotentialR2HDM.h 85, never set *)
  [
   ([0]%nat, 0); ([1]%nat, 0); ([2]%nat, 0); ([3]%nat, DTCharged); ([4]%nat, DT1); ([5]%nat, 0); ([6]%nat, DT2);
   ([7]%nat, DT3)].

(** set_CT_Pot_Par, 328-391 *)
Definition CT_L2 (c : ctparams) : table :=
  let 'mkC Du1CT Du2CT DRu3CT DL1CT DL2CT DL3CT DL4CT DRL5CT DT1 DT2 DT3 := c in
  let DIu3CT := 0 in (* the local of line 317 *)
  [
   ([0; 0]%nat, Du1CT); ([0; 1]%nat, 0); ([0; 2]%nat, - DRu3CT); ([0; 3]%nat, DIu3CT); ([0; 4]%nat, 0);
   ([0; 5]%nat, 0); ([0; 6]%nat, 0); ([0; 7]%nat, 0); ([1; 0]%nat, 0); ([1; 1]%nat, Du1CT); ([1; 2]%nat, - DIu3CT);
   ([1; 3]%nat, - DRu3CT); ([1; 4]%nat, 0); ([1; 5]%nat, 0); ([1; 6]%nat, 0); ([1; 7]%nat, 0);
   ([2; 0]%nat, - DRu3CT); ([2; 1]%nat, - DIu3CT); ([2; 2]%nat, Du2CT); ([2; 3]%nat, 0); ([2; 4]%nat, 0);
   ([2; 5]%nat, 0); ([2; 6]%nat, 0); ([2; 7]%nat, 0); ([3; 0]%nat, DIu3CT); ([3; 1]%nat, - DRu3CT);
   ([3; 2]%nat, 0); ([3; 3]%nat, Du2CT); ([3; 4]%nat, 0); ([3; 5]%nat, 0); ([3; 6]%nat, 0); ([3; 7]%nat, 0);
   ([4; 0]%nat, 0); ([4; 1]%nat, 0); ([4; 2]%nat, 0); ([4; 3]%nat, 0); ([4; 4]%nat, Du1CT); ([4; 5]%nat, 0);
   ([4; 6]%nat, - DRu3CT); ([4; 7]%nat, DIu3CT); ([5; 0]%nat, 0); ([5; 1]%nat, 0); ([5; 2]%nat, 0);
   ([5; 3]%nat, 0); ([5; 4]%nat, 0); ([5; 5]%nat, Du1CT); ([5; 6]%nat, - DIu3CT); ([5; 7]%nat, - DRu3CT);
   ([6; 0]%nat, 0); ([6; 1]%nat, 0); ([6; 2]%nat, 0); ([6; 3]%nat, 0); ([6; 4]%nat, - DRu3CT);
   ([6; 5]%nat, - DIu3CT); ([6; 6]%nat, Du2CT); ([6; 7]%nat, 0); ([7; 0]%nat, 0); ([7; 1]%nat, 0); ([7; 2]%nat, 0);
   ([7; 3]%nat, 0); ([7; 4]%nat, DIu3CT); ([7; 5]%nat, - DRu3CT); ([7; 6]%nat, 0); ([7; 7]%nat, Du2CT)].

(** set_CT_Pot_Par, 393-454 *)
Definition CT_L4 (c : ctparams) : table :=
  let 'mkC Du1CT Du2CT DRu3CT DL1CT DL2CT DL3CT DL4CT DRL5CT DT1 DT2 DT3 := c in
  let DIL5CT := 0 in (* the local of line 316 *)
  [
   ([0; 0; 0; 0]%nat, 3 * DL1CT); ([0; 0; 1; 1]%nat, DL1CT); ([0; 0; 2; 2]%nat, DL3CT + DL4CT + DRL5CT);
   ([0; 0; 2; 3]%nat, - DIL5CT); ([0; 0; 3; 3]%nat, DL3CT + DL4CT - DRL5CT); ([0; 0; 4; 4]%nat, DL1CT);
   ([0; 0; 5; 5]%nat, DL1CT); ([0; 0; 6; 6]%nat, DL3CT); ([0; 0; 7; 7]%nat, DL3CT); ([0; 1; 2; 2]%nat, DIL5CT);
   ([0; 1; 2; 3]%nat, DRL5CT); ([0; 1; 3; 3]%nat, - DIL5CT); ([0; 2; 4; 6]%nat, DL4CT / 2 + DRL5CT / 2);
   ([0; 2; 4; 7]%nat, - DIL5CT / 2); ([0; 2; 5; 6]%nat, DIL5CT / 2); ([0; 2; 5; 7]%nat, DL4CT / 2 + DRL5CT / 2);
   ([0; 3; 4; 6]%nat, - DIL5CT / 2); ([0; 3; 4; 7]%nat, DL4CT / 2 - DRL5CT / 2);
   ([0; 3; 5; 6]%nat, - DL4CT / 2 + DRL5CT / 2); ([0; 3; 5; 7]%nat, - DIL5CT / 2); ([1; 1; 1; 1]%nat, 3 * DL1CT);
   ([1; 1; 2; 2]%nat, DL3CT + DL4CT - DRL5CT); ([1; 1; 2; 3]%nat, DIL5CT);
   ([1; 1; 3; 3]%nat, DL3CT + DL4CT + DRL5CT); ([1; 1; 4; 4]%nat, DL1CT); ([1; 1; 5; 5]%nat, DL1CT);
   ([1; 1; 6; 6]%nat, DL3CT); ([1; 1; 7; 7]%nat, DL3CT); ([1; 2; 4; 6]%nat, DIL5CT / 2);
   ([1; 2; 4; 7]%nat, - DL4CT / 2 + DRL5CT / 2); ([1; 2; 5; 6]%nat, DL4CT / 2 - DRL5CT / 2);
   ([1; 2; 5; 7]%nat, DIL5CT / 2); ([1; 3; 4; 6]%nat, DL4CT / 2 + DRL5CT / 2); ([1; 3; 4; 7]%nat, - DIL5CT / 2);
   ([1; 3; 5; 6]%nat, DIL5CT / 2); ([1; 3; 5; 7]%nat, DL4CT / 2 + DRL5CT / 2); ([2; 2; 2; 2]%nat, 3 * DL2CT);
   ([2; 2; 3; 3]%nat, DL2CT); ([2; 2; 4; 4]%nat, DL3CT); ([2; 2; 5; 5]%nat, DL3CT); ([2; 2; 6; 6]%nat, DL2CT);
   ([2; 2; 7; 7]%nat, DL2CT); ([3; 3; 3; 3]%nat, 3 * DL2CT); ([3; 3; 4; 4]%nat, DL3CT); ([3; 3; 5; 5]%nat, DL3CT);
   ([3; 3; 6; 6]%nat, DL2CT); ([3; 3; 7; 7]%nat, DL2CT); ([4; 4; 4; 4]%nat, 3 * DL1CT); ([4; 4; 5; 5]%nat, DL1CT);
   ([4; 4; 6; 6]%nat, DL3CT + DL4CT + DRL5CT); ([4; 4; 6; 7]%nat, - DIL5CT);
   ([4; 4; 7; 7]%nat, DL3CT + DL4CT - DRL5CT); ([4; 5; 6; 6]%nat, DIL5CT); ([4; 5; 6; 7]%nat, DRL5CT);
   ([4; 5; 7; 7]%nat, - DIL5CT); ([5; 5; 5; 5]%nat, 3 * DL1CT); ([5; 5; 6; 6]%nat, DL3CT + DL4CT - DRL5CT);
   ([5; 5; 6; 7]%nat, DIL5CT); ([5; 5; 7; 7]%nat, DL3CT + DL4CT + DRL5CT); ([6; 6; 6; 6]%nat, 3 * DL2CT);
   ([6; 6; 7; 7]%nat, DL2CT); ([7; 7; 7; 7]%nat, 3 * DL2CT)].

(** set_CT_Pot_Par, from line 300, called on the zeroed tensors *)
Definition set_CT_Pot_Par (par : list R) : outcome tensors :=
  bind (read_CT par) (fun c => Ok (mkT
    (assign (CT_L1 c) zero_tensor)
    (assign (CT_L2 c) zero_tensor)
    zero_tensor
    (doublet_sym4 N (assign (CT_L4 c) zero_tensor)))).
