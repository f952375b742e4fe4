(** Scalar couplings of src/models/ClassPotentialSM.cpp.  Doubles are real numbers. *)
From Coq Require Import Reals ZArith List.
From Verif.Model Require Import Base Potential Tables.
Import ListNotations.
Open Scope R_scope.

(** number of scalar fields, ClassPotentialSM.cpp constructor *)
Definition N : nat := 4%nat.

(** the members the tree-level couplings are made of, ClassPotentialSM.h *)
Record params := mkP { p_muSq : R; p_lambda : R }.

(** SetCurvatureArrays, 370-373 *)
Definition tree_L2 (p : params) : table :=
  let 'mkP muSq lambda := p in
  [
   ([0; 0]%nat, muSq); ([1; 1]%nat, muSq); ([2; 2]%nat, muSq); ([3; 3]%nat, muSq)].

(** SetCurvatureArrays, 375-384 *)
Definition tree_L4 (p : params) : table :=
  let 'mkP muSq lambda := p in
  [
   ([0; 0; 0; 0]%nat, 6 * lambda); ([0; 0; 1; 1]%nat, 2 * lambda); ([0; 0; 2; 2]%nat, 2 * lambda);
   ([0; 0; 3; 3]%nat, 2 * lambda); ([1; 1; 1; 1]%nat, 6 * lambda); ([1; 1; 2; 2]%nat, 2 * lambda);
   ([1; 1; 3; 3]%nat, 2 * lambda); ([2; 2; 2; 2]%nat, 6 * lambda); ([2; 2; 3; 3]%nat, 2 * lambda);
   ([3; 3; 3; 3]%nat, 6 * lambda)].

(** SetCurvatureArrays, from line 364: the scalar tensors it leaves behind (initVectors zeroes them first) *)
Definition SetCurvatureArrays (p : params) : tensors :=
  mkT
    zero_tensor
    (assign (tree_L2 p) zero_tensor)
    zero_tensor
    (sym4Dim (assign (tree_L4 p) zero_tensor) N N N N).

(** the counterterm members, ClassPotentialSM.h *)
Record ctparams := mkC { c_dmuSq : R; c_dlambda : R; c_dT1 : R; c_dT2 : R; c_dT3 : R; c_dT4 : R }.

(** set_CT_Pot_Par, 162-167: reads past the end of a shorter vector *)
Definition read_CT (par : list R) : outcome ctparams :=
  match par with
  | dmuSq :: dlambda :: dT1 :: dT2 :: dT3 :: dT4 :: _ =>
      Ok (mkC dmuSq dlambda dT1 dT2 dT3 dT4)
  | _ => UB
  end.

(** set_CT_Pot_Par, 169-172 *)
Definition CT_L1 (c : ctparams) : table :=
  let 'mkC dmuSq dlambda dT1 dT2 dT3 dT4 := c in
  [
   ([0]%nat, dT1); ([1]%nat, dT2); ([2]%nat, dT3); ([3]%nat, dT4)].

(** set_CT_Pot_Par, 174-177 *)
Definition CT_L2 (c : ctparams) : table :=
  let 'mkC dmuSq dlambda dT1 dT2 dT3 dT4 := c in
  [
   ([0; 0]%nat, dmuSq); ([1; 1]%nat, dmuSq); ([2; 2]%nat, dmuSq); ([3; 3]%nat, dmuSq)].

(** set_CT_Pot_Par, 179-188 *)
Definition CT_L4 (c : ctparams) : table :=
  let 'mkC dmuSq dlambda dT1 dT2 dT3 dT4 := c in
  [
   ([0; 0; 0; 0]%nat, 6 * dlambda); ([0; 0; 1; 1]%nat, 2 * dlambda); ([0; 0; 2; 2]%nat, 2 * dlambda);
   ([0; 0; 3; 3]%nat, 2 * dlambda); ([1; 1; 1; 1]%nat, 6 * dlambda); ([1; 1; 2; 2]%nat, 2 * dlambda);
   ([1; 1; 3; 3]%nat, 2 * dlambda); ([2; 2; 2; 2]%nat, 6 * dlambda); ([2; 2; 3; 3]%nat, 2 * dlambda);
   ([3; 3; 3; 3]%nat, 6 * dlambda)].

(** set_CT_Pot_Par, from line 161, called on the zeroed tensors *)
Definition set_CT_Pot_Par (par : list R) : outcome tensors :=
  bind (read_CT par) (fun c => Ok (mkT
    (assign (CT_L1 c) zero_tensor)
    (assign (CT_L2 c) zero_tensor)
    zero_tensor
    (sym4Dim (assign (CT_L4 c) zero_tensor) N N N N))).
