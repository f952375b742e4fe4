(** Scalar couplings of src/models/ClassPotentialCPintheDark.cpp.  Doubles are real numbers. *)
From Coq Require Import Reals ZArith List.
From Verif.Model Require Import Base Potential Tables.
Import ListNotations.
Open Scope R_scope.

(** number of scalar fields, ClassPotentialCPintheDark.cpp constructor *)
Definition N : nat := 9%nat.

(** the members the tree-level couplings are made of, ClassPotentialCPintheDark.h *)
Record params := mkP { p_m11s : R; p_m22s : R; p_mSs : R; p_ReA : R; p_ImA : R; p_L1 : R; p_L2 : R; p_L3 : R; p_L4 : R; p_L5 : R; p_L6 : R; p_L7 : R; p_L8 : R }.

(** SetCurvatureArrays, 1469-1477 *)
Definition tree_L2 (p : params) : table :=
  let 'mkP m11s m22s mSs ReA ImA L1 L2 L3 L4 L5 L6 L7 L8 := p in
  [
   ([0; 0]%nat, m11s); ([1; 1]%nat, m11s); ([2; 2]%nat, m22s); ([3; 3]%nat, m22s); ([4; 4]%nat, m11s);
   ([5; 5]%nat, m11s); ([6; 6]%nat, m22s); ([7; 7]%nat, m22s); ([8; 8]%nat, mSs)].

(** SetCurvatureArrays, 1479-1526 *)
Definition tree_L3 (p : params) : table :=
  let 'mkP m11s m22s mSs ReA ImA L1 L2 L3 L4 L5 L6 L7 L8 := p in
  [
   ([0; 2; 8]%nat, ReA); ([0; 3; 8]%nat, - ImA); ([0; 8; 2]%nat, ReA); ([0; 8; 3]%nat, - ImA);
   ([1; 2; 8]%nat, ImA); ([1; 3; 8]%nat, ReA); ([1; 8; 2]%nat, ImA); ([1; 8; 3]%nat, ReA); ([2; 0; 8]%nat, ReA);
   ([2; 1; 8]%nat, ImA); ([2; 8; 0]%nat, ReA); ([2; 8; 1]%nat, ImA); ([3; 0; 8]%nat, - ImA); ([3; 1; 8]%nat, ReA);
   ([3; 8; 0]%nat, - ImA); ([3; 8; 1]%nat, ReA); ([4; 6; 8]%nat, ReA); ([4; 7; 8]%nat, - ImA);
   ([4; 8; 6]%nat, ReA); ([4; 8; 7]%nat, - ImA); ([5; 6; 8]%nat, ImA); ([5; 7; 8]%nat, ReA); ([5; 8; 6]%nat, ImA);
   ([5; 8; 7]%nat, ReA); ([6; 4; 8]%nat, ReA); ([6; 5; 8]%nat, ImA); ([6; 8; 4]%nat, ReA); ([6; 8; 5]%nat, ImA);
   ([7; 4; 8]%nat, - ImA); ([7; 5; 8]%nat, ReA); ([7; 8; 4]%nat, - ImA); ([7; 8; 5]%nat, ReA);
   ([8; 0; 2]%nat, ReA); ([8; 0; 3]%nat, - ImA); ([8; 1; 2]%nat, ImA); ([8; 1; 3]%nat, ReA); ([8; 2; 0]%nat, ReA);
   ([8; 2; 1]%nat, ImA); ([8; 3; 0]%nat, - ImA); ([8; 3; 1]%nat, ReA); ([8; 4; 6]%nat, ReA);
   ([8; 4; 7]%nat, - ImA); ([8; 5; 6]%nat, ImA); ([8; 5; 7]%nat, ReA); ([8; 6; 4]%nat, ReA); ([8; 6; 5]%nat, ImA);
   ([8; 7; 4]%nat, - ImA); ([8; 7; 5]%nat, ReA)].

(** SetCurvatureArrays, 1528-1992 *)
Definition tree_L4 (p : params) : table :=
  let 'mkP m11s m22s mSs ReA ImA L1 L2 L3 L4 L5 L6 L7 L8 := p in
  [
   ([0; 0; 0; 0]%nat, 3 * L1); ([0; 0; 1; 1]%nat, L1); ([0; 0; 2; 2]%nat, L3 + L4 + L5);
   ([0; 0; 3; 3]%nat, L3 + L4 - L5); ([0; 0; 4; 4]%nat, L1); ([0; 0; 5; 5]%nat, L1); ([0; 0; 6; 6]%nat, L3);
   ([0; 0; 7; 7]%nat, L3); ([0; 0; 8; 8]%nat, L7); ([0; 1; 0; 1]%nat, L1); ([0; 1; 1; 0]%nat, L1);
   ([0; 1; 2; 3]%nat, L5); ([0; 1; 3; 2]%nat, L5); ([0; 2; 0; 2]%nat, L3 + L4 + L5); ([0; 2; 1; 3]%nat, L5);
   ([0; 2; 2; 0]%nat, L3 + L4 + L5); ([0; 2; 3; 1]%nat, L5); ([0; 2; 4; 6]%nat, L4 / 2 + L5 / 2);
   ([0; 2; 5; 7]%nat, L4 / 2 + L5 / 2); ([0; 2; 6; 4]%nat, L4 / 2 + L5 / 2); ([0; 2; 7; 5]%nat, L4 / 2 + L5 / 2);
   ([0; 3; 0; 3]%nat, L3 + L4 - L5); ([0; 3; 1; 2]%nat, L5); ([0; 3; 2; 1]%nat, L5);
   ([0; 3; 3; 0]%nat, L3 + L4 - L5); ([0; 3; 4; 7]%nat, L4 / 2 - L5 / 2); ([0; 3; 5; 6]%nat, - L4 / 2 + L5 / 2);
   ([0; 3; 6; 5]%nat, - L4 / 2 + L5 / 2); ([0; 3; 7; 4]%nat, L4 / 2 - L5 / 2); ([0; 4; 0; 4]%nat, L1);
   ([0; 4; 2; 6]%nat, L4 / 2 + L5 / 2); ([0; 4; 3; 7]%nat, L4 / 2 - L5 / 2); ([0; 4; 4; 0]%nat, L1);
   ([0; 4; 6; 2]%nat, L4 / 2 + L5 / 2); ([0; 4; 7; 3]%nat, L4 / 2 - L5 / 2); ([0; 5; 0; 5]%nat, L1);
   ([0; 5; 2; 7]%nat, L4 / 2 + L5 / 2); ([0; 5; 3; 6]%nat, - L4 / 2 + L5 / 2); ([0; 5; 5; 0]%nat, L1);
   ([0; 5; 6; 3]%nat, - L4 / 2 + L5 / 2); ([0; 5; 7; 2]%nat, L4 / 2 + L5 / 2); ([0; 6; 0; 6]%nat, L3);
   ([0; 6; 2; 4]%nat, L4 / 2 + L5 / 2); ([0; 6; 3; 5]%nat, - L4 / 2 + L5 / 2); ([0; 6; 4; 2]%nat, L4 / 2 + L5 / 2);
   ([0; 6; 5; 3]%nat, - L4 / 2 + L5 / 2); ([0; 6; 6; 0]%nat, L3); ([0; 7; 0; 7]%nat, L3);
   ([0; 7; 2; 5]%nat, L4 / 2 + L5 / 2); ([0; 7; 3; 4]%nat, L4 / 2 - L5 / 2); ([0; 7; 4; 3]%nat, L4 / 2 - L5 / 2);
   ([0; 7; 5; 2]%nat, L4 / 2 + L5 / 2); ([0; 7; 7; 0]%nat, L3); ([0; 8; 0; 8]%nat, L7); ([0; 8; 8; 0]%nat, L7);
   ([1; 0; 0; 1]%nat, L1); ([1; 0; 1; 0]%nat, L1); ([1; 0; 2; 3]%nat, L5); ([1; 0; 3; 2]%nat, L5);
   ([1; 1; 0; 0]%nat, L1); ([1; 1; 1; 1]%nat, 3 * L1); ([1; 1; 2; 2]%nat, L3 + L4 - L5);
   ([1; 1; 3; 3]%nat, L3 + L4 + L5); ([1; 1; 4; 4]%nat, L1); ([1; 1; 5; 5]%nat, L1); ([1; 1; 6; 6]%nat, L3);
   ([1; 1; 7; 7]%nat, L3); ([1; 1; 8; 8]%nat, L7); ([1; 2; 0; 3]%nat, L5); ([1; 2; 1; 2]%nat, L3 + L4 - L5);
   ([1; 2; 2; 1]%nat, L3 + L4 - L5); ([1; 2; 3; 0]%nat, L5); ([1; 2; 4; 7]%nat, - L4 / 2 + L5 / 2);
   ([1; 2; 5; 6]%nat, L4 / 2 - L5 / 2); ([1; 2; 6; 5]%nat, L4 / 2 - L5 / 2); ([1; 2; 7; 4]%nat, - L4 / 2 + L5 / 2);
   ([1; 3; 0; 2]%nat, L5); ([1; 3; 1; 3]%nat, L3 + L4 + L5); ([1; 3; 2; 0]%nat, L5);
   ([1; 3; 3; 1]%nat, L3 + L4 + L5); ([1; 3; 4; 6]%nat, L4 / 2 + L5 / 2); ([1; 3; 5; 7]%nat, L4 / 2 + L5 / 2);
   ([1; 3; 6; 4]%nat, L4 / 2 + L5 / 2); ([1; 3; 7; 5]%nat, L4 / 2 + L5 / 2); ([1; 4; 1; 4]%nat, L1);
   ([1; 4; 2; 7]%nat, - L4 / 2 + L5 / 2); ([1; 4; 3; 6]%nat, L4 / 2 + L5 / 2); ([1; 4; 4; 1]%nat, L1);
   ([1; 4; 6; 3]%nat, L4 / 2 + L5 / 2); ([1; 4; 7; 2]%nat, - L4 / 2 + L5 / 2); ([1; 5; 1; 5]%nat, L1);
   ([1; 5; 2; 6]%nat, L4 / 2 - L5 / 2); ([1; 5; 3; 7]%nat, L4 / 2 + L5 / 2); ([1; 5; 5; 1]%nat, L1);
   ([1; 5; 6; 2]%nat, L4 / 2 - L5 / 2); ([1; 5; 7; 3]%nat, L4 / 2 + L5 / 2); ([1; 6; 1; 6]%nat, L3);
   ([1; 6; 2; 5]%nat, L4 / 2 - L5 / 2); ([1; 6; 3; 4]%nat, L4 / 2 + L5 / 2); ([1; 6; 4; 3]%nat, L4 / 2 + L5 / 2);
   ([1; 6; 5; 2]%nat, L4 / 2 - L5 / 2); ([1; 6; 6; 1]%nat, L3); ([1; 7; 1; 7]%nat, L3);
   ([1; 7; 2; 4]%nat, - L4 / 2 + L5 / 2); ([1; 7; 3; 5]%nat, L4 / 2 + L5 / 2);
   ([1; 7; 4; 2]%nat, - L4 / 2 + L5 / 2); ([1; 7; 5; 3]%nat, L4 / 2 + L5 / 2); ([1; 7; 7; 1]%nat, L3);
   ([1; 8; 1; 8]%nat, L7); ([1; 8; 8; 1]%nat, L7); ([2; 0; 0; 2]%nat, L3 + L4 + L5); ([2; 0; 1; 3]%nat, L5);
   ([2; 0; 2; 0]%nat, L3 + L4 + L5); ([2; 0; 3; 1]%nat, L5); ([2; 0; 4; 6]%nat, L4 / 2 + L5 / 2);
   ([2; 0; 5; 7]%nat, L4 / 2 + L5 / 2); ([2; 0; 6; 4]%nat, L4 / 2 + L5 / 2); ([2; 0; 7; 5]%nat, L4 / 2 + L5 / 2);
   ([2; 1; 0; 3]%nat, L5); ([2; 1; 1; 2]%nat, L3 + L4 - L5); ([2; 1; 2; 1]%nat, L3 + L4 - L5);
   ([2; 1; 3; 0]%nat, L5); ([2; 1; 4; 7]%nat, - L4 / 2 + L5 / 2); ([2; 1; 5; 6]%nat, L4 / 2 - L5 / 2);
   ([2; 1; 6; 5]%nat, L4 / 2 - L5 / 2); ([2; 1; 7; 4]%nat, - L4 / 2 + L5 / 2); ([2; 2; 0; 0]%nat, L3 + L4 + L5);
   ([2; 2; 1; 1]%nat, L3 + L4 - L5); ([2; 2; 2; 2]%nat, 3 * L2); ([2; 2; 3; 3]%nat, L2); ([2; 2; 4; 4]%nat, L3);
   ([2; 2; 5; 5]%nat, L3); ([2; 2; 6; 6]%nat, L2); ([2; 2; 7; 7]%nat, L2); ([2; 2; 8; 8]%nat, L8);
   ([2; 3; 0; 1]%nat, L5); ([2; 3; 1; 0]%nat, L5); ([2; 3; 2; 3]%nat, L2); ([2; 3; 3; 2]%nat, L2);
   ([2; 4; 0; 6]%nat, L4 / 2 + L5 / 2); ([2; 4; 1; 7]%nat, - L4 / 2 + L5 / 2); ([2; 4; 2; 4]%nat, L3);
   ([2; 4; 4; 2]%nat, L3); ([2; 4; 6; 0]%nat, L4 / 2 + L5 / 2); ([2; 4; 7; 1]%nat, - L4 / 2 + L5 / 2);
   ([2; 5; 0; 7]%nat, L4 / 2 + L5 / 2); ([2; 5; 1; 6]%nat, L4 / 2 - L5 / 2); ([2; 5; 2; 5]%nat, L3);
   ([2; 5; 5; 2]%nat, L3); ([2; 5; 6; 1]%nat, L4 / 2 - L5 / 2); ([2; 5; 7; 0]%nat, L4 / 2 + L5 / 2);
   ([2; 6; 0; 4]%nat, L4 / 2 + L5 / 2); ([2; 6; 1; 5]%nat, L4 / 2 - L5 / 2); ([2; 6; 2; 6]%nat, L2);
   ([2; 6; 4; 0]%nat, L4 / 2 + L5 / 2); ([2; 6; 5; 1]%nat, L4 / 2 - L5 / 2); ([2; 6; 6; 2]%nat, L2);
   ([2; 7; 0; 5]%nat, L4 / 2 + L5 / 2); ([2; 7; 1; 4]%nat, - L4 / 2 + L5 / 2); ([2; 7; 2; 7]%nat, L2);
   ([2; 7; 4; 1]%nat, - L4 / 2 + L5 / 2); ([2; 7; 5; 0]%nat, L4 / 2 + L5 / 2); ([2; 7; 7; 2]%nat, L2);
   ([2; 8; 2; 8]%nat, L8); ([2; 8; 8; 2]%nat, L8); ([3; 0; 0; 3]%nat, L3 + L4 - L5); ([3; 0; 1; 2]%nat, L5);
   ([3; 0; 2; 1]%nat, L5); ([3; 0; 3; 0]%nat, L3 + L4 - L5); ([3; 0; 4; 7]%nat, L4 / 2 - L5 / 2);
   ([3; 0; 5; 6]%nat, - L4 / 2 + L5 / 2); ([3; 0; 6; 5]%nat, - L4 / 2 + L5 / 2);
   ([3; 0; 7; 4]%nat, L4 / 2 - L5 / 2); ([3; 1; 0; 2]%nat, L5); ([3; 1; 1; 3]%nat, L3 + L4 + L5);
   ([3; 1; 2; 0]%nat, L5); ([3; 1; 3; 1]%nat, L3 + L4 + L5); ([3; 1; 4; 6]%nat, L4 / 2 + L5 / 2);
   ([3; 1; 5; 7]%nat, L4 / 2 + L5 / 2); ([3; 1; 6; 4]%nat, L4 / 2 + L5 / 2); ([3; 1; 7; 5]%nat, L4 / 2 + L5 / 2);
   ([3; 2; 0; 1]%nat, L5); ([3; 2; 1; 0]%nat, L5); ([3; 2; 2; 3]%nat, L2); ([3; 2; 3; 2]%nat, L2);
   ([3; 3; 0; 0]%nat, L3 + L4 - L5); ([3; 3; 1; 1]%nat, L3 + L4 + L5); ([3; 3; 2; 2]%nat, L2);
   ([3; 3; 3; 3]%nat, 3 * L2); ([3; 3; 4; 4]%nat, L3); ([3; 3; 5; 5]%nat, L3); ([3; 3; 6; 6]%nat, L2);
   ([3; 3; 7; 7]%nat, L2); ([3; 3; 8; 8]%nat, L8); ([3; 4; 0; 7]%nat, L4 / 2 - L5 / 2);
   ([3; 4; 1; 6]%nat, L4 / 2 + L5 / 2); ([3; 4; 3; 4]%nat, L3); ([3; 4; 4; 3]%nat, L3);
   ([3; 4; 6; 1]%nat, L4 / 2 + L5 / 2); ([3; 4; 7; 0]%nat, L4 / 2 - L5 / 2); ([3; 5; 0; 6]%nat, - L4 / 2 + L5 / 2);
   ([3; 5; 1; 7]%nat, L4 / 2 + L5 / 2); ([3; 5; 3; 5]%nat, L3); ([3; 5; 5; 3]%nat, L3);
   ([3; 5; 6; 0]%nat, - L4 / 2 + L5 / 2); ([3; 5; 7; 1]%nat, L4 / 2 + L5 / 2);
   ([3; 6; 0; 5]%nat, - L4 / 2 + L5 / 2); ([3; 6; 1; 4]%nat, L4 / 2 + L5 / 2); ([3; 6; 3; 6]%nat, L2);
   ([3; 6; 4; 1]%nat, L4 / 2 + L5 / 2); ([3; 6; 5; 0]%nat, - L4 / 2 + L5 / 2); ([3; 6; 6; 3]%nat, L2);
   ([3; 7; 0; 4]%nat, L4 / 2 - L5 / 2); ([3; 7; 1; 5]%nat, L4 / 2 + L5 / 2); ([3; 7; 3; 7]%nat, L2);
   ([3; 7; 4; 0]%nat, L4 / 2 - L5 / 2); ([3; 7; 5; 1]%nat, L4 / 2 + L5 / 2); ([3; 7; 7; 3]%nat, L2);
   ([3; 8; 3; 8]%nat, L8); ([3; 8; 8; 3]%nat, L8); ([4; 0; 0; 4]%nat, L1); ([4; 0; 2; 6]%nat, L4 / 2 + L5 / 2);
   ([4; 0; 3; 7]%nat, L4 / 2 - L5 / 2); ([4; 0; 4; 0]%nat, L1); ([4; 0; 6; 2]%nat, L4 / 2 + L5 / 2);
   ([4; 0; 7; 3]%nat, L4 / 2 - L5 / 2); ([4; 1; 1; 4]%nat, L1); ([4; 1; 2; 7]%nat, - L4 / 2 + L5 / 2);
   ([4; 1; 3; 6]%nat, L4 / 2 + L5 / 2); ([4; 1; 4; 1]%nat, L1); ([4; 1; 6; 3]%nat, L4 / 2 + L5 / 2);
   ([4; 1; 7; 2]%nat, - L4 / 2 + L5 / 2); ([4; 2; 0; 6]%nat, L4 / 2 + L5 / 2);
   ([4; 2; 1; 7]%nat, - L4 / 2 + L5 / 2); ([4; 2; 2; 4]%nat, L3); ([4; 2; 4; 2]%nat, L3);
   ([4; 2; 6; 0]%nat, L4 / 2 + L5 / 2); ([4; 2; 7; 1]%nat, - L4 / 2 + L5 / 2); ([4; 3; 0; 7]%nat, L4 / 2 - L5 / 2);
   ([4; 3; 1; 6]%nat, L4 / 2 + L5 / 2); ([4; 3; 3; 4]%nat, L3); ([4; 3; 4; 3]%nat, L3);
   ([4; 3; 6; 1]%nat, L4 / 2 + L5 / 2); ([4; 3; 7; 0]%nat, L4 / 2 - L5 / 2); ([4; 4; 0; 0]%nat, L1);
   ([4; 4; 1; 1]%nat, L1); ([4; 4; 2; 2]%nat, L3); ([4; 4; 3; 3]%nat, L3); ([4; 4; 4; 4]%nat, 3 * L1);
   ([4; 4; 5; 5]%nat, L1); ([4; 4; 6; 6]%nat, L3 + L4 + L5); ([4; 4; 7; 7]%nat, L3 + L4 - L5);
   ([4; 4; 8; 8]%nat, L7); ([4; 5; 4; 5]%nat, L1); ([4; 5; 5; 4]%nat, L1); ([4; 5; 6; 7]%nat, L5);
   ([4; 5; 7; 6]%nat, L5); ([4; 6; 0; 2]%nat, L4 / 2 + L5 / 2); ([4; 6; 1; 3]%nat, L4 / 2 + L5 / 2);
   ([4; 6; 2; 0]%nat, L4 / 2 + L5 / 2); ([4; 6; 3; 1]%nat, L4 / 2 + L5 / 2); ([4; 6; 4; 6]%nat, L3 + L4 + L5);
   ([4; 6; 5; 7]%nat, L5); ([4; 6; 6; 4]%nat, L3 + L4 + L5); ([4; 6; 7; 5]%nat, L5);
   ([4; 7; 0; 3]%nat, L4 / 2 - L5 / 2); ([4; 7; 1; 2]%nat, - L4 / 2 + L5 / 2);
   ([4; 7; 2; 1]%nat, - L4 / 2 + L5 / 2); ([4; 7; 3; 0]%nat, L4 / 2 - L5 / 2); ([4; 7; 4; 7]%nat, L3 + L4 - L5);
   ([4; 7; 5; 6]%nat, L5); ([4; 7; 6; 5]%nat, L5); ([4; 7; 7; 4]%nat, L3 + L4 - L5); ([4; 8; 4; 8]%nat, L7);
   ([4; 8; 8; 4]%nat, L7); ([5; 0; 0; 5]%nat, L1); ([5; 0; 2; 7]%nat, L4 / 2 + L5 / 2);
   ([5; 0; 3; 6]%nat, - L4 / 2 + L5 / 2); ([5; 0; 5; 0]%nat, L1); ([5; 0; 6; 3]%nat, - L4 / 2 + L5 / 2);
   ([5; 0; 7; 2]%nat, L4 / 2 + L5 / 2); ([5; 1; 1; 5]%nat, L1); ([5; 1; 2; 6]%nat, L4 / 2 - L5 / 2);
   ([5; 1; 3; 7]%nat, L4 / 2 + L5 / 2); ([5; 1; 5; 1]%nat, L1); ([5; 1; 6; 2]%nat, L4 / 2 - L5 / 2);
   ([5; 1; 7; 3]%nat, L4 / 2 + L5 / 2); ([5; 2; 0; 7]%nat, L4 / 2 + L5 / 2); ([5; 2; 1; 6]%nat, L4 / 2 - L5 / 2);
   ([5; 2; 2; 5]%nat, L3); ([5; 2; 5; 2]%nat, L3); ([5; 2; 6; 1]%nat, L4 / 2 - L5 / 2);
   ([5; 2; 7; 0]%nat, L4 / 2 + L5 / 2); ([5; 3; 0; 6]%nat, - L4 / 2 + L5 / 2); ([5; 3; 1; 7]%nat, L4 / 2 + L5 / 2);
   ([5; 3; 3; 5]%nat, L3); ([5; 3; 5; 3]%nat, L3); ([5; 3; 6; 0]%nat, - L4 / 2 + L5 / 2);
   ([5; 3; 7; 1]%nat, L4 / 2 + L5 / 2); ([5; 4; 4; 5]%nat, L1); ([5; 4; 5; 4]%nat, L1); ([5; 4; 6; 7]%nat, L5);
   ([5; 4; 7; 6]%nat, L5); ([5; 5; 0; 0]%nat, L1); ([5; 5; 1; 1]%nat, L1); ([5; 5; 2; 2]%nat, L3);
   ([5; 5; 3; 3]%nat, L3); ([5; 5; 4; 4]%nat, L1); ([5; 5; 5; 5]%nat, 3 * L1); ([5; 5; 6; 6]%nat, L3 + L4 - L5);
   ([5; 5; 7; 7]%nat, L3 + L4 + L5); ([5; 5; 8; 8]%nat, L7); ([5; 6; 0; 3]%nat, - L4 / 2 + L5 / 2);
   ([5; 6; 1; 2]%nat, L4 / 2 - L5 / 2); ([5; 6; 2; 1]%nat, L4 / 2 - L5 / 2); ([5; 6; 3; 0]%nat, - L4 / 2 + L5 / 2);
   ([5; 6; 4; 7]%nat, L5); ([5; 6; 5; 6]%nat, L3 + L4 - L5); ([5; 6; 6; 5]%nat, L3 + L4 - L5);
   ([5; 6; 7; 4]%nat, L5); ([5; 7; 0; 2]%nat, L4 / 2 + L5 / 2); ([5; 7; 1; 3]%nat, L4 / 2 + L5 / 2);
   ([5; 7; 2; 0]%nat, L4 / 2 + L5 / 2); ([5; 7; 3; 1]%nat, L4 / 2 + L5 / 2); ([5; 7; 4; 6]%nat, L5);
   ([5; 7; 5; 7]%nat, L3 + L4 + L5); ([5; 7; 6; 4]%nat, L5); ([5; 7; 7; 5]%nat, L3 + L4 + L5);
   ([5; 8; 5; 8]%nat, L7); ([5; 8; 8; 5]%nat, L7); ([6; 0; 0; 6]%nat, L3); ([6; 0; 2; 4]%nat, L4 / 2 + L5 / 2);
   ([6; 0; 3; 5]%nat, - L4 / 2 + L5 / 2); ([6; 0; 4; 2]%nat, L4 / 2 + L5 / 2);
   ([6; 0; 5; 3]%nat, - L4 / 2 + L5 / 2); ([6; 0; 6; 0]%nat, L3); ([6; 1; 1; 6]%nat, L3);
   ([6; 1; 2; 5]%nat, L4 / 2 - L5 / 2); ([6; 1; 3; 4]%nat, L4 / 2 + L5 / 2); ([6; 1; 4; 3]%nat, L4 / 2 + L5 / 2);
   ([6; 1; 5; 2]%nat, L4 / 2 - L5 / 2); ([6; 1; 6; 1]%nat, L3); ([6; 2; 0; 4]%nat, L4 / 2 + L5 / 2);
   ([6; 2; 1; 5]%nat, L4 / 2 - L5 / 2); ([6; 2; 2; 6]%nat, L2); ([6; 2; 4; 0]%nat, L4 / 2 + L5 / 2);
   ([6; 2; 5; 1]%nat, L4 / 2 - L5 / 2); ([6; 2; 6; 2]%nat, L2); ([6; 3; 0; 5]%nat, - L4 / 2 + L5 / 2);
   ([6; 3; 1; 4]%nat, L4 / 2 + L5 / 2); ([6; 3; 3; 6]%nat, L2); ([6; 3; 4; 1]%nat, L4 / 2 + L5 / 2);
   ([6; 3; 5; 0]%nat, - L4 / 2 + L5 / 2); ([6; 3; 6; 3]%nat, L2); ([6; 4; 0; 2]%nat, L4 / 2 + L5 / 2);
   ([6; 4; 1; 3]%nat, L4 / 2 + L5 / 2); ([6; 4; 2; 0]%nat, L4 / 2 + L5 / 2); ([6; 4; 3; 1]%nat, L4 / 2 + L5 / 2);
   ([6; 4; 4; 6]%nat, L3 + L4 + L5); ([6; 4; 5; 7]%nat, L5); ([6; 4; 6; 4]%nat, L3 + L4 + L5);
   ([6; 4; 7; 5]%nat, L5); ([6; 5; 0; 3]%nat, - L4 / 2 + L5 / 2); ([6; 5; 1; 2]%nat, L4 / 2 - L5 / 2);
   ([6; 5; 2; 1]%nat, L4 / 2 - L5 / 2); ([6; 5; 3; 0]%nat, - L4 / 2 + L5 / 2); ([6; 5; 4; 7]%nat, L5);
   ([6; 5; 5; 6]%nat, L3 + L4 - L5); ([6; 5; 6; 5]%nat, L3 + L4 - L5); ([6; 5; 7; 4]%nat, L5);
   ([6; 6; 0; 0]%nat, L3); ([6; 6; 1; 1]%nat, L3); ([6; 6; 2; 2]%nat, L2); ([6; 6; 3; 3]%nat, L2);
   ([6; 6; 4; 4]%nat, L3 + L4 + L5); ([6; 6; 5; 5]%nat, L3 + L4 - L5); ([6; 6; 6; 6]%nat, 3 * L2);
   ([6; 6; 7; 7]%nat, L2); ([6; 6; 8; 8]%nat, L8); ([6; 7; 4; 5]%nat, L5); ([6; 7; 5; 4]%nat, L5);
   ([6; 7; 6; 7]%nat, L2); ([6; 7; 7; 6]%nat, L2); ([6; 8; 6; 8]%nat, L8); ([6; 8; 8; 6]%nat, L8);
   ([7; 0; 0; 7]%nat, L3); ([7; 0; 2; 5]%nat, L4 / 2 + L5 / 2); ([7; 0; 3; 4]%nat, L4 / 2 - L5 / 2);
   ([7; 0; 4; 3]%nat, L4 / 2 - L5 / 2); ([7; 0; 5; 2]%nat, L4 / 2 + L5 / 2); ([7; 0; 7; 0]%nat, L3);
   ([7; 1; 1; 7]%nat, L3); ([7; 1; 2; 4]%nat, - L4 / 2 + L5 / 2); ([7; 1; 3; 5]%nat, L4 / 2 + L5 / 2);
   ([7; 1; 4; 2]%nat, - L4 / 2 + L5 / 2); ([7; 1; 5; 3]%nat, L4 / 2 + L5 / 2); ([7; 1; 7; 1]%nat, L3);
   ([7; 2; 0; 5]%nat, L4 / 2 + L5 / 2); ([7; 2; 1; 4]%nat, - L4 / 2 + L5 / 2); ([7; 2; 2; 7]%nat, L2);
   ([7; 2; 4; 1]%nat, - L4 / 2 + L5 / 2); ([7; 2; 5; 0]%nat, L4 / 2 + L5 / 2); ([7; 2; 7; 2]%nat, L2);
   ([7; 3; 0; 4]%nat, L4 / 2 - L5 / 2); ([7; 3; 1; 5]%nat, L4 / 2 + L5 / 2); ([7; 3; 3; 7]%nat, L2);
   ([7; 3; 4; 0]%nat, L4 / 2 - L5 / 2); ([7; 3; 5; 1]%nat, L4 / 2 + L5 / 2); ([7; 3; 7; 3]%nat, L2);
   ([7; 4; 0; 3]%nat, L4 / 2 - L5 / 2); ([7; 4; 1; 2]%nat, - L4 / 2 + L5 / 2);
   ([7; 4; 2; 1]%nat, - L4 / 2 + L5 / 2); ([7; 4; 3; 0]%nat, L4 / 2 - L5 / 2); ([7; 4; 4; 7]%nat, L3 + L4 - L5);
   ([7; 4; 5; 6]%nat, L5); ([7; 4; 6; 5]%nat, L5); ([7; 4; 7; 4]%nat, L3 + L4 - L5);
   ([7; 5; 0; 2]%nat, L4 / 2 + L5 / 2); ([7; 5; 1; 3]%nat, L4 / 2 + L5 / 2); ([7; 5; 2; 0]%nat, L4 / 2 + L5 / 2);
   ([7; 5; 3; 1]%nat, L4 / 2 + L5 / 2); ([7; 5; 4; 6]%nat, L5); ([7; 5; 5; 7]%nat, L3 + L4 + L5);
   ([7; 5; 6; 4]%nat, L5); ([7; 5; 7; 5]%nat, L3 + L4 + L5); ([7; 6; 4; 5]%nat, L5); ([7; 6; 5; 4]%nat, L5);
   ([7; 6; 6; 7]%nat, L2); ([7; 6; 7; 6]%nat, L2); ([7; 7; 0; 0]%nat, L3); ([7; 7; 1; 1]%nat, L3);
   ([7; 7; 2; 2]%nat, L2); ([7; 7; 3; 3]%nat, L2); ([7; 7; 4; 4]%nat, L3 + L4 - L5);
   ([7; 7; 5; 5]%nat, L3 + L4 + L5); ([7; 7; 6; 6]%nat, L2); ([7; 7; 7; 7]%nat, 3 * L2); ([7; 7; 8; 8]%nat, L8);
   ([7; 8; 7; 8]%nat, L8); ([7; 8; 8; 7]%nat, L8); ([8; 0; 0; 8]%nat, L7); ([8; 0; 8; 0]%nat, L7);
   ([8; 1; 1; 8]%nat, L7); ([8; 1; 8; 1]%nat, L7); ([8; 2; 2; 8]%nat, L8); ([8; 2; 8; 2]%nat, L8);
   ([8; 3; 3; 8]%nat, L8); ([8; 3; 8; 3]%nat, L8); ([8; 4; 4; 8]%nat, L7); ([8; 4; 8; 4]%nat, L7);
   ([8; 5; 5; 8]%nat, L7); ([8; 5; 8; 5]%nat, L7); ([8; 6; 6; 8]%nat, L8); ([8; 6; 8; 6]%nat, L8);
   ([8; 7; 7; 8]%nat, L8); ([8; 7; 8; 7]%nat, L8); ([8; 8; 0; 0]%nat, L7); ([8; 8; 1; 1]%nat, L7);
   ([8; 8; 2; 2]%nat, L8); ([8; 8; 3; 3]%nat, L8); ([8; 8; 4; 4]%nat, L7); ([8; 8; 5; 5]%nat, L7);
   ([8; 8; 6; 6]%nat, L8); ([8; 8; 7; 7]%nat, L8); ([8; 8; 8; 8]%nat, 6 * L6)].

(** SetCurvatureArrays, from line 1462: the scalar tensors it leaves behind (initVectors zeroes them first) *)
Definition SetCurvatureArrays (p : params) : tensors :=
  mkT
    zero_tensor
    (assign (tree_L2 p) zero_tensor)
    (assign (tree_L3 p) zero_tensor)
    (assign (tree_L4 p) zero_tensor).

(** the counterterm members, ClassPotentialCPintheDark.h *)
Record ctparams := mkC { c_dm11s : R; c_dm22s : R; c_dmSs : R; c_dReA : R; c_dImA : R; c_dL1 : R; c_dL2 : R; c_dL3 : R; c_dL4 : R; c_dL5 : R; c_dL6 : R; c_dL7 : R; c_dL8 : R; c_dTCB : R; c_dT1 : R; c_dT2 : R; c_dTCP : R; c_dTS : R; c_dImL5 : R }.

(** set_CT_Pot_Par, 286-304: reads past the end of a shorter vector *)
Definition read_CT (par : list R) : outcome ctparams :=
  match par with
  | dm11s :: dm22s :: dmSs :: dReA :: dImA :: dL1 :: dL2 :: dL3 :: dL4 :: dL5 :: dL6 :: dL7 :: dL8 :: dTCB :: dT1 :: dT2 :: dTCP :: dTS :: dImL5 :: _ =>
      Ok (mkC dm11s dm22s dmSs dReA dImA dL1 dL2 dL3 dL4 dL5 dL6 dL7 dL8 dTCB dT1 dT2 dTCP dTS dImL5)
  | _ => UB
  end.

(** set_CT_Pot_Par, 307-311 *)
Definition CT_L1 (c : ctparams) : table :=
  let 'mkC dm11s dm22s dmSs dReA dImA dL1 dL2 dL3 dL4 dL5 dL6 dL7 dL8 dTCB dT1 dT2 dTCP dTS dImL5 := c in
  [
   ([2]%nat, dTCB); ([4]%nat, dT1); ([6]%nat, dT2); ([7]%nat, dTCP); ([8]%nat, dTS)].

(** set_CT_Pot_Par, 313-321 *)
Definition CT_L2 (c : ctparams) : table :=
  let 'mkC dm11s dm22s dmSs dReA dImA dL1 dL2 dL3 dL4 dL5 dL6 dL7 dL8 dTCB dT1 dT2 dTCP dTS dImL5 := c in
  [
   ([0; 0]%nat, dm11s); ([1; 1]%nat, dm11s); ([2; 2]%nat, dm22s); ([3; 3]%nat, dm22s); ([4; 4]%nat, dm11s);
   ([5; 5]%nat, dm11s); ([6; 6]%nat, dm22s); ([7; 7]%nat, dm22s); ([8; 8]%nat, dmSs)].

(** set_CT_Pot_Par, 323-370 *)
Definition CT_L3 (c : ctparams) : table :=
  let 'mkC dm11s dm22s dmSs dReA dImA dL1 dL2 dL3 dL4 dL5 dL6 dL7 dL8 dTCB dT1 dT2 dTCP dTS dImL5 := c in
  [
   ([0; 2; 8]%nat, dReA); ([0; 3; 8]%nat, - dImA); ([0; 8; 2]%nat, dReA); ([0; 8; 3]%nat, - dImA);
   ([1; 2; 8]%nat, dImA); ([1; 3; 8]%nat, dReA); ([1; 8; 2]%nat, dImA); ([1; 8; 3]%nat, dReA);
   ([2; 0; 8]%nat, dReA); ([2; 1; 8]%nat, dImA); ([2; 8; 0]%nat, dReA); ([2; 8; 1]%nat, dImA);
   ([3; 0; 8]%nat, - dImA); ([3; 1; 8]%nat, dReA); ([3; 8; 0]%nat, - dImA); ([3; 8; 1]%nat, dReA);
   ([4; 6; 8]%nat, dReA); ([4; 7; 8]%nat, - dImA); ([4; 8; 6]%nat, dReA); ([4; 8; 7]%nat, - dImA);
   ([5; 6; 8]%nat, dImA); ([5; 7; 8]%nat, dReA); ([5; 8; 6]%nat, dImA); ([5; 8; 7]%nat, dReA);
   ([6; 4; 8]%nat, dReA); ([6; 5; 8]%nat, dImA); ([6; 8; 4]%nat, dReA); ([6; 8; 5]%nat, dImA);
   ([7; 4; 8]%nat, - dImA); ([7; 5; 8]%nat, dReA); ([7; 8; 4]%nat, - dImA); ([7; 8; 5]%nat, dReA);
   ([8; 0; 2]%nat, dReA); ([8; 0; 3]%nat, - dImA); ([8; 1; 2]%nat, dImA); ([8; 1; 3]%nat, dReA);
   ([8; 2; 0]%nat, dReA); ([8; 2; 1]%nat, dImA); ([8; 3; 0]%nat, - dImA); ([8; 3; 1]%nat, dReA);
   ([8; 4; 6]%nat, dReA); ([8; 4; 7]%nat, - dImA); ([8; 5; 6]%nat, dImA); ([8; 5; 7]%nat, dReA);
   ([8; 6; 4]%nat, dReA); ([8; 6; 5]%nat, dImA); ([8; 7; 4]%nat, - dImA); ([8; 7; 5]%nat, dReA)].

(** set_CT_Pot_Par, 372-1124 *)
Definition CT_L4 (c : ctparams) : table :=
  let 'mkC dm11s dm22s dmSs dReA dImA dL1 dL2 dL3 dL4 dL5 dL6 dL7 dL8 dTCB dT1 dT2 dTCP dTS dImL5 := c in
  [
   ([0; 0; 0; 0]%nat, 3 * dL1); ([0; 0; 1; 1]%nat, dL1); ([0; 0; 2; 2]%nat, dL3 + dL4 + dL5);
   ([0; 0; 2; 3]%nat, - dImL5); ([0; 0; 3; 2]%nat, - dImL5); ([0; 0; 3; 3]%nat, dL3 + dL4 - dL5);
   ([0; 0; 4; 4]%nat, dL1); ([0; 0; 5; 5]%nat, dL1); ([0; 0; 6; 6]%nat, dL3); ([0; 0; 7; 7]%nat, dL3);
   ([0; 0; 8; 8]%nat, dL7); ([0; 1; 0; 1]%nat, dL1); ([0; 1; 1; 0]%nat, dL1); ([0; 1; 2; 2]%nat, dImL5);
   ([0; 1; 2; 3]%nat, dL5); ([0; 1; 3; 2]%nat, dL5); ([0; 1; 3; 3]%nat, - dImL5);
   ([0; 2; 0; 2]%nat, dL3 + dL4 + dL5); ([0; 2; 0; 3]%nat, - dImL5); ([0; 2; 1; 2]%nat, dImL5);
   ([0; 2; 1; 3]%nat, dL5); ([0; 2; 2; 0]%nat, dL3 + dL4 + dL5); ([0; 2; 2; 1]%nat, dImL5);
   ([0; 2; 3; 0]%nat, - dImL5); ([0; 2; 3; 1]%nat, dL5); ([0; 2; 4; 6]%nat, dL4 / 2 + dL5 / 2);
   ([0; 2; 4; 7]%nat, - dImL5 / 2); ([0; 2; 5; 6]%nat, dImL5 / 2); ([0; 2; 5; 7]%nat, dL4 / 2 + dL5 / 2);
   ([0; 2; 6; 4]%nat, dL4 / 2 + dL5 / 2); ([0; 2; 6; 5]%nat, dImL5 / 2); ([0; 2; 7; 4]%nat, - dImL5 / 2);
   ([0; 2; 7; 5]%nat, dL4 / 2 + dL5 / 2); ([0; 3; 0; 2]%nat, - dImL5); ([0; 3; 0; 3]%nat, dL3 + dL4 - dL5);
   ([0; 3; 1; 2]%nat, dL5); ([0; 3; 1; 3]%nat, - dImL5); ([0; 3; 2; 0]%nat, - dImL5); ([0; 3; 2; 1]%nat, dL5);
   ([0; 3; 3; 0]%nat, dL3 + dL4 - dL5); ([0; 3; 3; 1]%nat, - dImL5); ([0; 3; 4; 6]%nat, - dImL5 / 2);
   ([0; 3; 4; 7]%nat, dL4 / 2 - dL5 / 2); ([0; 3; 5; 6]%nat, - dL4 / 2 + dL5 / 2); ([0; 3; 5; 7]%nat, - dImL5 / 2);
   ([0; 3; 6; 4]%nat, - dImL5 / 2); ([0; 3; 6; 5]%nat, - dL4 / 2 + dL5 / 2); ([0; 3; 7; 4]%nat, dL4 / 2 - dL5 / 2);
   ([0; 3; 7; 5]%nat, - dImL5 / 2); ([0; 4; 0; 4]%nat, dL1); ([0; 4; 2; 6]%nat, dL4 / 2 + dL5 / 2);
   ([0; 4; 2; 7]%nat, - dImL5 / 2); ([0; 4; 3; 6]%nat, - dImL5 / 2); ([0; 4; 3; 7]%nat, dL4 / 2 - dL5 / 2);
   ([0; 4; 4; 0]%nat, dL1); ([0; 4; 6; 2]%nat, dL4 / 2 + dL5 / 2); ([0; 4; 6; 3]%nat, - dImL5 / 2);
   ([0; 4; 7; 2]%nat, - dImL5 / 2); ([0; 4; 7; 3]%nat, dL4 / 2 - dL5 / 2); ([0; 5; 0; 5]%nat, dL1);
   ([0; 5; 2; 6]%nat, dImL5 / 2); ([0; 5; 2; 7]%nat, dL4 / 2 + dL5 / 2); ([0; 5; 3; 6]%nat, - dL4 / 2 + dL5 / 2);
   ([0; 5; 3; 7]%nat, - dImL5 / 2); ([0; 5; 5; 0]%nat, dL1); ([0; 5; 6; 2]%nat, dImL5 / 2);
   ([0; 5; 6; 3]%nat, - dL4 / 2 + dL5 / 2); ([0; 5; 7; 2]%nat, dL4 / 2 + dL5 / 2); ([0; 5; 7; 3]%nat, - dImL5 / 2);
   ([0; 6; 0; 6]%nat, dL3); ([0; 6; 2; 4]%nat, dL4 / 2 + dL5 / 2); ([0; 6; 2; 5]%nat, dImL5 / 2);
   ([0; 6; 3; 4]%nat, - dImL5 / 2); ([0; 6; 3; 5]%nat, - dL4 / 2 + dL5 / 2); ([0; 6; 4; 2]%nat, dL4 / 2 + dL5 / 2);
   ([0; 6; 4; 3]%nat, - dImL5 / 2); ([0; 6; 5; 2]%nat, dImL5 / 2); ([0; 6; 5; 3]%nat, - dL4 / 2 + dL5 / 2);
   ([0; 6; 6; 0]%nat, dL3); ([0; 7; 0; 7]%nat, dL3); ([0; 7; 2; 4]%nat, - dImL5 / 2);
   ([0; 7; 2; 5]%nat, dL4 / 2 + dL5 / 2); ([0; 7; 3; 4]%nat, dL4 / 2 - dL5 / 2); ([0; 7; 3; 5]%nat, - dImL5 / 2);
   ([0; 7; 4; 2]%nat, - dImL5 / 2); ([0; 7; 4; 3]%nat, dL4 / 2 - dL5 / 2); ([0; 7; 5; 2]%nat, dL4 / 2 + dL5 / 2);
   ([0; 7; 5; 3]%nat, - dImL5 / 2); ([0; 7; 7; 0]%nat, dL3); ([0; 8; 0; 8]%nat, dL7); ([0; 8; 8; 0]%nat, dL7);
   ([1; 0; 0; 1]%nat, dL1); ([1; 0; 1; 0]%nat, dL1); ([1; 0; 2; 2]%nat, dImL5); ([1; 0; 2; 3]%nat, dL5);
   ([1; 0; 3; 2]%nat, dL5); ([1; 0; 3; 3]%nat, - dImL5); ([1; 1; 0; 0]%nat, dL1); ([1; 1; 1; 1]%nat, 3 * dL1);
   ([1; 1; 2; 2]%nat, dL3 + dL4 - dL5); ([1; 1; 2; 3]%nat, dImL5); ([1; 1; 3; 2]%nat, dImL5);
   ([1; 1; 3; 3]%nat, dL3 + dL4 + dL5); ([1; 1; 4; 4]%nat, dL1); ([1; 1; 5; 5]%nat, dL1); ([1; 1; 6; 6]%nat, dL3);
   ([1; 1; 7; 7]%nat, dL3); ([1; 1; 8; 8]%nat, dL7); ([1; 2; 0; 2]%nat, dImL5); ([1; 2; 0; 3]%nat, dL5);
   ([1; 2; 1; 2]%nat, dL3 + dL4 - dL5); ([1; 2; 1; 3]%nat, dImL5); ([1; 2; 2; 0]%nat, dImL5);
   ([1; 2; 2; 1]%nat, dL3 + dL4 - dL5); ([1; 2; 3; 0]%nat, dL5); ([1; 2; 3; 1]%nat, dImL5);
   ([1; 2; 4; 6]%nat, dImL5 / 2); ([1; 2; 4; 7]%nat, - dL4 / 2 + dL5 / 2); ([1; 2; 5; 6]%nat, dL4 / 2 - dL5 / 2);
   ([1; 2; 5; 7]%nat, dImL5 / 2); ([1; 2; 6; 4]%nat, dImL5 / 2); ([1; 2; 6; 5]%nat, dL4 / 2 - dL5 / 2);
   ([1; 2; 7; 4]%nat, - dL4 / 2 + dL5 / 2); ([1; 2; 7; 5]%nat, dImL5 / 2); ([1; 3; 0; 2]%nat, dL5);
   ([1; 3; 0; 3]%nat, - dImL5); ([1; 3; 1; 2]%nat, dImL5); ([1; 3; 1; 3]%nat, dL3 + dL4 + dL5);
   ([1; 3; 2; 0]%nat, dL5); ([1; 3; 2; 1]%nat, dImL5); ([1; 3; 3; 0]%nat, - dImL5);
   ([1; 3; 3; 1]%nat, dL3 + dL4 + dL5); ([1; 3; 4; 6]%nat, dL4 / 2 + dL5 / 2); ([1; 3; 4; 7]%nat, - dImL5 / 2);
   ([1; 3; 5; 6]%nat, dImL5 / 2); ([1; 3; 5; 7]%nat, dL4 / 2 + dL5 / 2); ([1; 3; 6; 4]%nat, dL4 / 2 + dL5 / 2);
   ([1; 3; 6; 5]%nat, dImL5 / 2); ([1; 3; 7; 4]%nat, - dImL5 / 2); ([1; 3; 7; 5]%nat, dL4 / 2 + dL5 / 2);
   ([1; 4; 1; 4]%nat, dL1); ([1; 4; 2; 6]%nat, dImL5 / 2); ([1; 4; 2; 7]%nat, - dL4 / 2 + dL5 / 2);
   ([1; 4; 3; 6]%nat, dL4 / 2 + dL5 / 2); ([1; 4; 3; 7]%nat, - dImL5 / 2); ([1; 4; 4; 1]%nat, dL1);
   ([1; 4; 6; 2]%nat, dImL5 / 2); ([1; 4; 6; 3]%nat, dL4 / 2 + dL5 / 2); ([1; 4; 7; 2]%nat, - dL4 / 2 + dL5 / 2);
   ([1; 4; 7; 3]%nat, - dImL5 / 2); ([1; 5; 1; 5]%nat, dL1); ([1; 5; 2; 6]%nat, dL4 / 2 - dL5 / 2);
   ([1; 5; 2; 7]%nat, dImL5 / 2); ([1; 5; 3; 6]%nat, dImL5 / 2); ([1; 5; 3; 7]%nat, dL4 / 2 + dL5 / 2);
   ([1; 5; 5; 1]%nat, dL1); ([1; 5; 6; 2]%nat, dL4 / 2 - dL5 / 2); ([1; 5; 6; 3]%nat, dImL5 / 2);
   ([1; 5; 7; 2]%nat, dImL5 / 2); ([1; 5; 7; 3]%nat, dL4 / 2 + dL5 / 2); ([1; 6; 1; 6]%nat, dL3);
   ([1; 6; 2; 4]%nat, dImL5 / 2); ([1; 6; 2; 5]%nat, dL4 / 2 - dL5 / 2); ([1; 6; 3; 4]%nat, dL4 / 2 + dL5 / 2);
   ([1; 6; 3; 5]%nat, dImL5 / 2); ([1; 6; 4; 2]%nat, dImL5 / 2); ([1; 6; 4; 3]%nat, dL4 / 2 + dL5 / 2);
   ([1; 6; 5; 2]%nat, dL4 / 2 - dL5 / 2); ([1; 6; 5; 3]%nat, dImL5 / 2); ([1; 6; 6; 1]%nat, dL3);
   ([1; 7; 1; 7]%nat, dL3); ([1; 7; 2; 4]%nat, - dL4 / 2 + dL5 / 2); ([1; 7; 2; 5]%nat, dImL5 / 2);
   ([1; 7; 3; 4]%nat, - dImL5 / 2); ([1; 7; 3; 5]%nat, dL4 / 2 + dL5 / 2); ([1; 7; 4; 2]%nat, - dL4 / 2 + dL5 / 2);
   ([1; 7; 4; 3]%nat, - dImL5 / 2); ([1; 7; 5; 2]%nat, dImL5 / 2); ([1; 7; 5; 3]%nat, dL4 / 2 + dL5 / 2);
   ([1; 7; 7; 1]%nat, dL3); ([1; 8; 1; 8]%nat, dL7); ([1; 8; 8; 1]%nat, dL7); ([2; 0; 0; 2]%nat, dL3 + dL4 + dL5);
   ([2; 0; 0; 3]%nat, - dImL5); ([2; 0; 1; 2]%nat, dImL5); ([2; 0; 1; 3]%nat, dL5);
   ([2; 0; 2; 0]%nat, dL3 + dL4 + dL5); ([2; 0; 2; 1]%nat, dImL5); ([2; 0; 3; 0]%nat, - dImL5);
   ([2; 0; 3; 1]%nat, dL5); ([2; 0; 4; 6]%nat, dL4 / 2 + dL5 / 2); ([2; 0; 4; 7]%nat, - dImL5 / 2);
   ([2; 0; 5; 6]%nat, dImL5 / 2); ([2; 0; 5; 7]%nat, dL4 / 2 + dL5 / 2); ([2; 0; 6; 4]%nat, dL4 / 2 + dL5 / 2);
   ([2; 0; 6; 5]%nat, dImL5 / 2); ([2; 0; 7; 4]%nat, - dImL5 / 2); ([2; 0; 7; 5]%nat, dL4 / 2 + dL5 / 2);
   ([2; 1; 0; 2]%nat, dImL5); ([2; 1; 0; 3]%nat, dL5); ([2; 1; 1; 2]%nat, dL3 + dL4 - dL5);
   ([2; 1; 1; 3]%nat, dImL5); ([2; 1; 2; 0]%nat, dImL5); ([2; 1; 2; 1]%nat, dL3 + dL4 - dL5);
   ([2; 1; 3; 0]%nat, dL5); ([2; 1; 3; 1]%nat, dImL5); ([2; 1; 4; 6]%nat, dImL5 / 2);
   ([2; 1; 4; 7]%nat, - dL4 / 2 + dL5 / 2); ([2; 1; 5; 6]%nat, dL4 / 2 - dL5 / 2); ([2; 1; 5; 7]%nat, dImL5 / 2);
   ([2; 1; 6; 4]%nat, dImL5 / 2); ([2; 1; 6; 5]%nat, dL4 / 2 - dL5 / 2); ([2; 1; 7; 4]%nat, - dL4 / 2 + dL5 / 2);
   ([2; 1; 7; 5]%nat, dImL5 / 2); ([2; 2; 0; 0]%nat, dL3 + dL4 + dL5); ([2; 2; 0; 1]%nat, dImL5);
   ([2; 2; 1; 0]%nat, dImL5); ([2; 2; 1; 1]%nat, dL3 + dL4 - dL5); ([2; 2; 2; 2]%nat, 3 * dL2);
   ([2; 2; 3; 3]%nat, dL2); ([2; 2; 4; 4]%nat, dL3); ([2; 2; 5; 5]%nat, dL3); ([2; 2; 6; 6]%nat, dL2);
   ([2; 2; 7; 7]%nat, dL2); ([2; 2; 8; 8]%nat, dL8); ([2; 3; 0; 0]%nat, - dImL5); ([2; 3; 0; 1]%nat, dL5);
   ([2; 3; 1; 0]%nat, dL5); ([2; 3; 1; 1]%nat, dImL5); ([2; 3; 2; 3]%nat, dL2); ([2; 3; 3; 2]%nat, dL2);
   ([2; 4; 0; 6]%nat, dL4 / 2 + dL5 / 2); ([2; 4; 0; 7]%nat, - dImL5 / 2); ([2; 4; 1; 6]%nat, dImL5 / 2);
   ([2; 4; 1; 7]%nat, - dL4 / 2 + dL5 / 2); ([2; 4; 2; 4]%nat, dL3); ([2; 4; 4; 2]%nat, dL3);
   ([2; 4; 6; 0]%nat, dL4 / 2 + dL5 / 2); ([2; 4; 6; 1]%nat, dImL5 / 2); ([2; 4; 7; 0]%nat, - dImL5 / 2);
   ([2; 4; 7; 1]%nat, - dL4 / 2 + dL5 / 2); ([2; 5; 0; 6]%nat, dImL5 / 2); ([2; 5; 0; 7]%nat, dL4 / 2 + dL5 / 2);
   ([2; 5; 1; 6]%nat, dL4 / 2 - dL5 / 2); ([2; 5; 1; 7]%nat, dImL5 / 2); ([2; 5; 2; 5]%nat, dL3);
   ([2; 5; 5; 2]%nat, dL3); ([2; 5; 6; 0]%nat, dImL5 / 2); ([2; 5; 6; 1]%nat, dL4 / 2 - dL5 / 2);
   ([2; 5; 7; 0]%nat, dL4 / 2 + dL5 / 2); ([2; 5; 7; 1]%nat, dImL5 / 2); ([2; 6; 0; 4]%nat, dL4 / 2 + dL5 / 2);
   ([2; 6; 0; 5]%nat, dImL5 / 2); ([2; 6; 1; 4]%nat, dImL5 / 2); ([2; 6; 1; 5]%nat, dL4 / 2 - dL5 / 2);
   ([2; 6; 2; 6]%nat, dL2); ([2; 6; 4; 0]%nat, dL4 / 2 + dL5 / 2); ([2; 6; 4; 1]%nat, dImL5 / 2);
   ([2; 6; 5; 0]%nat, dImL5 / 2); ([2; 6; 5; 1]%nat, dL4 / 2 - dL5 / 2); ([2; 6; 6; 2]%nat, dL2);
   ([2; 7; 0; 4]%nat, - dImL5 / 2); ([2; 7; 0; 5]%nat, dL4 / 2 + dL5 / 2); ([2; 7; 1; 4]%nat, - dL4 / 2 + dL5 / 2);
   ([2; 7; 1; 5]%nat, dImL5 / 2); ([2; 7; 2; 7]%nat, dL2); ([2; 7; 4; 0]%nat, - dImL5 / 2);
   ([2; 7; 4; 1]%nat, - dL4 / 2 + dL5 / 2); ([2; 7; 5; 0]%nat, dL4 / 2 + dL5 / 2); ([2; 7; 5; 1]%nat, dImL5 / 2);
   ([2; 7; 7; 2]%nat, dL2); ([2; 8; 2; 8]%nat, dL8); ([2; 8; 8; 2]%nat, dL8); ([3; 0; 0; 2]%nat, - dImL5);
   ([3; 0; 0; 3]%nat, dL3 + dL4 - dL5); ([3; 0; 1; 2]%nat, dL5); ([3; 0; 1; 3]%nat, - dImL5);
   ([3; 0; 2; 0]%nat, - dImL5); ([3; 0; 2; 1]%nat, dL5); ([3; 0; 3; 0]%nat, dL3 + dL4 - dL5);
   ([3; 0; 3; 1]%nat, - dImL5); ([3; 0; 4; 6]%nat, - dImL5 / 2); ([3; 0; 4; 7]%nat, dL4 / 2 - dL5 / 2);
   ([3; 0; 5; 6]%nat, - dL4 / 2 + dL5 / 2); ([3; 0; 5; 7]%nat, - dImL5 / 2); ([3; 0; 6; 4]%nat, - dImL5 / 2);
   ([3; 0; 6; 5]%nat, - dL4 / 2 + dL5 / 2); ([3; 0; 7; 4]%nat, dL4 / 2 - dL5 / 2); ([3; 0; 7; 5]%nat, - dImL5 / 2);
   ([3; 1; 0; 2]%nat, dL5); ([3; 1; 0; 3]%nat, - dImL5); ([3; 1; 1; 2]%nat, dImL5);
   ([3; 1; 1; 3]%nat, dL3 + dL4 + dL5); ([3; 1; 2; 0]%nat, dL5); ([3; 1; 2; 1]%nat, dImL5);
   ([3; 1; 3; 0]%nat, - dImL5); ([3; 1; 3; 1]%nat, dL3 + dL4 + dL5); ([3; 1; 4; 6]%nat, dL4 / 2 + dL5 / 2);
   ([3; 1; 4; 7]%nat, - dImL5 / 2); ([3; 1; 5; 6]%nat, dImL5 / 2); ([3; 1; 5; 7]%nat, dL4 / 2 + dL5 / 2);
   ([3; 1; 6; 4]%nat, dL4 / 2 + dL5 / 2); ([3; 1; 6; 5]%nat, dImL5 / 2); ([3; 1; 7; 4]%nat, - dImL5 / 2);
   ([3; 1; 7; 5]%nat, dL4 / 2 + dL5 / 2); ([3; 2; 0; 0]%nat, - dImL5); ([3; 2; 0; 1]%nat, dL5);
   ([3; 2; 1; 0]%nat, dL5); ([3; 2; 1; 1]%nat, dImL5); ([3; 2; 2; 3]%nat, dL2); ([3; 2; 3; 2]%nat, dL2);
   ([3; 3; 0; 0]%nat, dL3 + dL4 - dL5); ([3; 3; 0; 1]%nat, - dImL5); ([3; 3; 1; 0]%nat, - dImL5);
   ([3; 3; 1; 1]%nat, dL3 + dL4 + dL5); ([3; 3; 2; 2]%nat, dL2); ([3; 3; 3; 3]%nat, 3 * dL2);
   ([3; 3; 4; 4]%nat, dL3); ([3; 3; 5; 5]%nat, dL3); ([3; 3; 6; 6]%nat, dL2); ([3; 3; 7; 7]%nat, dL2);
   ([3; 3; 8; 8]%nat, dL8); ([3; 4; 0; 6]%nat, - dImL5 / 2); ([3; 4; 0; 7]%nat, dL4 / 2 - dL5 / 2);
   ([3; 4; 1; 6]%nat, dL4 / 2 + dL5 / 2); ([3; 4; 1; 7]%nat, - dImL5 / 2); ([3; 4; 3; 4]%nat, dL3);
   ([3; 4; 4; 3]%nat, dL3); ([3; 4; 6; 0]%nat, - dImL5 / 2); ([3; 4; 6; 1]%nat, dL4 / 2 + dL5 / 2);
   ([3; 4; 7; 0]%nat, dL4 / 2 - dL5 / 2); ([3; 4; 7; 1]%nat, - dImL5 / 2); ([3; 5; 0; 6]%nat, - dL4 / 2 + dL5 / 2);
   ([3; 5; 0; 7]%nat, - dImL5 / 2); ([3; 5; 1; 6]%nat, dImL5 / 2); ([3; 5; 1; 7]%nat, dL4 / 2 + dL5 / 2);
   ([3; 5; 3; 5]%nat, dL3); ([3; 5; 5; 3]%nat, dL3); ([3; 5; 6; 0]%nat, - dL4 / 2 + dL5 / 2);
   ([3; 5; 6; 1]%nat, dImL5 / 2); ([3; 5; 7; 0]%nat, - dImL5 / 2); ([3; 5; 7; 1]%nat, dL4 / 2 + dL5 / 2);
   ([3; 6; 0; 4]%nat, - dImL5 / 2); ([3; 6; 0; 5]%nat, - dL4 / 2 + dL5 / 2); ([3; 6; 1; 4]%nat, dL4 / 2 + dL5 / 2);
   ([3; 6; 1; 5]%nat, dImL5 / 2); ([3; 6; 3; 6]%nat, dL2); ([3; 6; 4; 0]%nat, - dImL5 / 2);
   ([3; 6; 4; 1]%nat, dL4 / 2 + dL5 / 2); ([3; 6; 5; 0]%nat, - dL4 / 2 + dL5 / 2); ([3; 6; 5; 1]%nat, dImL5 / 2);
   ([3; 6; 6; 3]%nat, dL2); ([3; 7; 0; 4]%nat, dL4 / 2 - dL5 / 2); ([3; 7; 0; 5]%nat, - dImL5 / 2);
   ([3; 7; 1; 4]%nat, - dImL5 / 2); ([3; 7; 1; 5]%nat, dL4 / 2 + dL5 / 2); ([3; 7; 3; 7]%nat, dL2);
   ([3; 7; 4; 0]%nat, dL4 / 2 - dL5 / 2); ([3; 7; 4; 1]%nat, - dImL5 / 2); ([3; 7; 5; 0]%nat, - dImL5 / 2);
   ([3; 7; 5; 1]%nat, dL4 / 2 + dL5 / 2); ([3; 7; 7; 3]%nat, dL2); ([3; 8; 3; 8]%nat, dL8);
   ([3; 8; 8; 3]%nat, dL8); ([4; 0; 0; 4]%nat, dL1); ([4; 0; 2; 6]%nat, dL4 / 2 + dL5 / 2);
   ([4; 0; 2; 7]%nat, - dImL5 / 2); ([4; 0; 3; 6]%nat, - dImL5 / 2); ([4; 0; 3; 7]%nat, dL4 / 2 - dL5 / 2);
   ([4; 0; 4; 0]%nat, dL1); ([4; 0; 6; 2]%nat, dL4 / 2 + dL5 / 2); ([4; 0; 6; 3]%nat, - dImL5 / 2);
   ([4; 0; 7; 2]%nat, - dImL5 / 2); ([4; 0; 7; 3]%nat, dL4 / 2 - dL5 / 2); ([4; 1; 1; 4]%nat, dL1);
   ([4; 1; 2; 6]%nat, dImL5 / 2); ([4; 1; 2; 7]%nat, - dL4 / 2 + dL5 / 2); ([4; 1; 3; 6]%nat, dL4 / 2 + dL5 / 2);
   ([4; 1; 3; 7]%nat, - dImL5 / 2); ([4; 1; 4; 1]%nat, dL1); ([4; 1; 6; 2]%nat, dImL5 / 2);
   ([4; 1; 6; 3]%nat, dL4 / 2 + dL5 / 2); ([4; 1; 7; 2]%nat, - dL4 / 2 + dL5 / 2); ([4; 1; 7; 3]%nat, - dImL5 / 2);
   ([4; 2; 0; 6]%nat, dL4 / 2 + dL5 / 2); ([4; 2; 0; 7]%nat, - dImL5 / 2); ([4; 2; 1; 6]%nat, dImL5 / 2);
   ([4; 2; 1; 7]%nat, - dL4 / 2 + dL5 / 2); ([4; 2; 2; 4]%nat, dL3); ([4; 2; 4; 2]%nat, dL3);
   ([4; 2; 6; 0]%nat, dL4 / 2 + dL5 / 2); ([4; 2; 6; 1]%nat, dImL5 / 2); ([4; 2; 7; 0]%nat, - dImL5 / 2);
   ([4; 2; 7; 1]%nat, - dL4 / 2 + dL5 / 2); ([4; 3; 0; 6]%nat, - dImL5 / 2); ([4; 3; 0; 7]%nat, dL4 / 2 - dL5 / 2);
   ([4; 3; 1; 6]%nat, dL4 / 2 + dL5 / 2); ([4; 3; 1; 7]%nat, - dImL5 / 2); ([4; 3; 3; 4]%nat, dL3);
   ([4; 3; 4; 3]%nat, dL3); ([4; 3; 6; 0]%nat, - dImL5 / 2); ([4; 3; 6; 1]%nat, dL4 / 2 + dL5 / 2);
   ([4; 3; 7; 0]%nat, dL4 / 2 - dL5 / 2); ([4; 3; 7; 1]%nat, - dImL5 / 2); ([4; 4; 0; 0]%nat, dL1);
   ([4; 4; 1; 1]%nat, dL1); ([4; 4; 2; 2]%nat, dL3); ([4; 4; 3; 3]%nat, dL3); ([4; 4; 4; 4]%nat, 3 * dL1);
   ([4; 4; 5; 5]%nat, dL1); ([4; 4; 6; 6]%nat, dL3 + dL4 + dL5); ([4; 4; 6; 7]%nat, - dImL5);
   ([4; 4; 7; 6]%nat, - dImL5); ([4; 4; 7; 7]%nat, dL3 + dL4 - dL5); ([4; 4; 8; 8]%nat, dL7);
   ([4; 5; 4; 5]%nat, dL1); ([4; 5; 5; 4]%nat, dL1); ([4; 5; 6; 6]%nat, dImL5); ([4; 5; 6; 7]%nat, dL5);
   ([4; 5; 7; 6]%nat, dL5); ([4; 5; 7; 7]%nat, - dImL5); ([4; 6; 0; 2]%nat, dL4 / 2 + dL5 / 2);
   ([4; 6; 0; 3]%nat, - dImL5 / 2); ([4; 6; 1; 2]%nat, dImL5 / 2); ([4; 6; 1; 3]%nat, dL4 / 2 + dL5 / 2);
   ([4; 6; 2; 0]%nat, dL4 / 2 + dL5 / 2); ([4; 6; 2; 1]%nat, dImL5 / 2); ([4; 6; 3; 0]%nat, - dImL5 / 2);
   ([4; 6; 3; 1]%nat, dL4 / 2 + dL5 / 2); ([4; 6; 4; 6]%nat, dL3 + dL4 + dL5); ([4; 6; 4; 7]%nat, - dImL5);
   ([4; 6; 5; 6]%nat, dImL5); ([4; 6; 5; 7]%nat, dL5); ([4; 6; 6; 4]%nat, dL3 + dL4 + dL5);
   ([4; 6; 6; 5]%nat, dImL5); ([4; 6; 7; 4]%nat, - dImL5); ([4; 6; 7; 5]%nat, dL5);
   ([4; 7; 0; 2]%nat, - dImL5 / 2); ([4; 7; 0; 3]%nat, dL4 / 2 - dL5 / 2); ([4; 7; 1; 2]%nat, - dL4 / 2 + dL5 / 2);
   ([4; 7; 1; 3]%nat, - dImL5 / 2); ([4; 7; 2; 0]%nat, - dImL5 / 2); ([4; 7; 2; 1]%nat, - dL4 / 2 + dL5 / 2);
   ([4; 7; 3; 0]%nat, dL4 / 2 - dL5 / 2); ([4; 7; 3; 1]%nat, - dImL5 / 2); ([4; 7; 4; 6]%nat, - dImL5);
   ([4; 7; 4; 7]%nat, dL3 + dL4 - dL5); ([4; 7; 5; 6]%nat, dL5); ([4; 7; 5; 7]%nat, - dImL5);
   ([4; 7; 6; 4]%nat, - dImL5); ([4; 7; 6; 5]%nat, dL5); ([4; 7; 7; 4]%nat, dL3 + dL4 - dL5);
   ([4; 7; 7; 5]%nat, - dImL5); ([4; 8; 4; 8]%nat, dL7); ([4; 8; 8; 4]%nat, dL7); ([5; 0; 0; 5]%nat, dL1);
   ([5; 0; 2; 6]%nat, dImL5 / 2); ([5; 0; 2; 7]%nat, dL4 / 2 + dL5 / 2); ([5; 0; 3; 6]%nat, - dL4 / 2 + dL5 / 2);
   ([5; 0; 3; 7]%nat, - dImL5 / 2); ([5; 0; 5; 0]%nat, dL1); ([5; 0; 6; 2]%nat, dImL5 / 2);
   ([5; 0; 6; 3]%nat, - dL4 / 2 + dL5 / 2); ([5; 0; 7; 2]%nat, dL4 / 2 + dL5 / 2); ([5; 0; 7; 3]%nat, - dImL5 / 2);
   ([5; 1; 1; 5]%nat, dL1); ([5; 1; 2; 6]%nat, dL4 / 2 - dL5 / 2); ([5; 1; 2; 7]%nat, dImL5 / 2);
   ([5; 1; 3; 6]%nat, dImL5 / 2); ([5; 1; 3; 7]%nat, dL4 / 2 + dL5 / 2); ([5; 1; 5; 1]%nat, dL1);
   ([5; 1; 6; 2]%nat, dL4 / 2 - dL5 / 2); ([5; 1; 6; 3]%nat, dImL5 / 2); ([5; 1; 7; 2]%nat, dImL5 / 2);
   ([5; 1; 7; 3]%nat, dL4 / 2 + dL5 / 2); ([5; 2; 0; 6]%nat, dImL5 / 2); ([5; 2; 0; 7]%nat, dL4 / 2 + dL5 / 2);
   ([5; 2; 1; 6]%nat, dL4 / 2 - dL5 / 2); ([5; 2; 1; 7]%nat, dImL5 / 2); ([5; 2; 2; 5]%nat, dL3);
   ([5; 2; 5; 2]%nat, dL3); ([5; 2; 6; 0]%nat, dImL5 / 2); ([5; 2; 6; 1]%nat, dL4 / 2 - dL5 / 2);
   ([5; 2; 7; 0]%nat, dL4 / 2 + dL5 / 2); ([5; 2; 7; 1]%nat, dImL5 / 2); ([5; 3; 0; 6]%nat, - dL4 / 2 + dL5 / 2);
   ([5; 3; 0; 7]%nat, - dImL5 / 2); ([5; 3; 1; 6]%nat, dImL5 / 2); ([5; 3; 1; 7]%nat, dL4 / 2 + dL5 / 2);
   ([5; 3; 3; 5]%nat, dL3); ([5; 3; 5; 3]%nat, dL3); ([5; 3; 6; 0]%nat, - dL4 / 2 + dL5 / 2);
   ([5; 3; 6; 1]%nat, dImL5 / 2); ([5; 3; 7; 0]%nat, - dImL5 / 2); ([5; 3; 7; 1]%nat, dL4 / 2 + dL5 / 2);
   ([5; 4; 4; 5]%nat, dL1); ([5; 4; 5; 4]%nat, dL1); ([5; 4; 6; 6]%nat, dImL5); ([5; 4; 6; 7]%nat, dL5);
   ([5; 4; 7; 6]%nat, dL5); ([5; 4; 7; 7]%nat, - dImL5); ([5; 5; 0; 0]%nat, dL1); ([5; 5; 1; 1]%nat, dL1);
   ([5; 5; 2; 2]%nat, dL3); ([5; 5; 3; 3]%nat, dL3); ([5; 5; 4; 4]%nat, dL1); ([5; 5; 5; 5]%nat, 3 * dL1);
   ([5; 5; 6; 6]%nat, dL3 + dL4 - dL5); ([5; 5; 6; 7]%nat, dImL5); ([5; 5; 7; 6]%nat, dImL5);
   ([5; 5; 7; 7]%nat, dL3 + dL4 + dL5); ([5; 5; 8; 8]%nat, dL7); ([5; 6; 0; 2]%nat, dImL5 / 2);
   ([5; 6; 0; 3]%nat, - dL4 / 2 + dL5 / 2); ([5; 6; 1; 2]%nat, dL4 / 2 - dL5 / 2); ([5; 6; 1; 3]%nat, dImL5 / 2);
   ([5; 6; 2; 0]%nat, dImL5 / 2); ([5; 6; 2; 1]%nat, dL4 / 2 - dL5 / 2); ([5; 6; 3; 0]%nat, - dL4 / 2 + dL5 / 2);
   ([5; 6; 3; 1]%nat, dImL5 / 2); ([5; 6; 4; 6]%nat, dImL5); ([5; 6; 4; 7]%nat, dL5);
   ([5; 6; 5; 6]%nat, dL3 + dL4 - dL5); ([5; 6; 5; 7]%nat, dImL5); ([5; 6; 6; 4]%nat, dImL5);
   ([5; 6; 6; 5]%nat, dL3 + dL4 - dL5); ([5; 6; 7; 4]%nat, dL5); ([5; 6; 7; 5]%nat, dImL5);
   ([5; 7; 0; 2]%nat, dL4 / 2 + dL5 / 2); ([5; 7; 0; 3]%nat, - dImL5 / 2); ([5; 7; 1; 2]%nat, dImL5 / 2);
   ([5; 7; 1; 3]%nat, dL4 / 2 + dL5 / 2); ([5; 7; 2; 0]%nat, dL4 / 2 + dL5 / 2); ([5; 7; 2; 1]%nat, dImL5 / 2);
   ([5; 7; 3; 0]%nat, - dImL5 / 2); ([5; 7; 3; 1]%nat, dL4 / 2 + dL5 / 2); ([5; 7; 4; 6]%nat, dL5);
   ([5; 7; 4; 7]%nat, - dImL5); ([5; 7; 5; 6]%nat, dImL5); ([5; 7; 5; 7]%nat, dL3 + dL4 + dL5);
   ([5; 7; 6; 4]%nat, dL5); ([5; 7; 6; 5]%nat, dImL5); ([5; 7; 7; 4]%nat, - dImL5);
   ([5; 7; 7; 5]%nat, dL3 + dL4 + dL5); ([5; 8; 5; 8]%nat, dL7); ([5; 8; 8; 5]%nat, dL7); ([6; 0; 0; 6]%nat, dL3);
   ([6; 0; 2; 4]%nat, dL4 / 2 + dL5 / 2); ([6; 0; 2; 5]%nat, dImL5 / 2); ([6; 0; 3; 4]%nat, - dImL5 / 2);
   ([6; 0; 3; 5]%nat, - dL4 / 2 + dL5 / 2); ([6; 0; 4; 2]%nat, dL4 / 2 + dL5 / 2); ([6; 0; 4; 3]%nat, - dImL5 / 2);
   ([6; 0; 5; 2]%nat, dImL5 / 2); ([6; 0; 5; 3]%nat, - dL4 / 2 + dL5 / 2); ([6; 0; 6; 0]%nat, dL3);
   ([6; 1; 1; 6]%nat, dL3); ([6; 1; 2; 4]%nat, dImL5 / 2); ([6; 1; 2; 5]%nat, dL4 / 2 - dL5 / 2);
   ([6; 1; 3; 4]%nat, dL4 / 2 + dL5 / 2); ([6; 1; 3; 5]%nat, dImL5 / 2); ([6; 1; 4; 2]%nat, dImL5 / 2);
   ([6; 1; 4; 3]%nat, dL4 / 2 + dL5 / 2); ([6; 1; 5; 2]%nat, dL4 / 2 - dL5 / 2); ([6; 1; 5; 3]%nat, dImL5 / 2);
   ([6; 1; 6; 1]%nat, dL3); ([6; 2; 0; 4]%nat, dL4 / 2 + dL5 / 2); ([6; 2; 0; 5]%nat, dImL5 / 2);
   ([6; 2; 1; 4]%nat, dImL5 / 2); ([6; 2; 1; 5]%nat, dL4 / 2 - dL5 / 2); ([6; 2; 2; 6]%nat, dL2);
   ([6; 2; 4; 0]%nat, dL4 / 2 + dL5 / 2); ([6; 2; 4; 1]%nat, dImL5 / 2); ([6; 2; 5; 0]%nat, dImL5 / 2);
   ([6; 2; 5; 1]%nat, dL4 / 2 - dL5 / 2); ([6; 2; 6; 2]%nat, dL2); ([6; 3; 0; 4]%nat, - dImL5 / 2);
   ([6; 3; 0; 5]%nat, - dL4 / 2 + dL5 / 2); ([6; 3; 1; 4]%nat, dL4 / 2 + dL5 / 2); ([6; 3; 1; 5]%nat, dImL5 / 2);
   ([6; 3; 3; 6]%nat, dL2); ([6; 3; 4; 0]%nat, - dImL5 / 2); ([6; 3; 4; 1]%nat, dL4 / 2 + dL5 / 2);
   ([6; 3; 5; 0]%nat, - dL4 / 2 + dL5 / 2); ([6; 3; 5; 1]%nat, dImL5 / 2); ([6; 3; 6; 3]%nat, dL2);
   ([6; 4; 0; 2]%nat, dL4 / 2 + dL5 / 2); ([6; 4; 0; 3]%nat, - dImL5 / 2); ([6; 4; 1; 2]%nat, dImL5 / 2);
   ([6; 4; 1; 3]%nat, dL4 / 2 + dL5 / 2); ([6; 4; 2; 0]%nat, dL4 / 2 + dL5 / 2); ([6; 4; 2; 1]%nat, dImL5 / 2);
   ([6; 4; 3; 0]%nat, - dImL5 / 2); ([6; 4; 3; 1]%nat, dL4 / 2 + dL5 / 2); ([6; 4; 4; 6]%nat, dL3 + dL4 + dL5);
   ([6; 4; 4; 7]%nat, - dImL5); ([6; 4; 5; 6]%nat, dImL5); ([6; 4; 5; 7]%nat, dL5);
   ([6; 4; 6; 4]%nat, dL3 + dL4 + dL5); ([6; 4; 6; 5]%nat, dImL5); ([6; 4; 7; 4]%nat, - dImL5);
   ([6; 4; 7; 5]%nat, dL5); ([6; 5; 0; 2]%nat, dImL5 / 2); ([6; 5; 0; 3]%nat, - dL4 / 2 + dL5 / 2);
   ([6; 5; 1; 2]%nat, dL4 / 2 - dL5 / 2); ([6; 5; 1; 3]%nat, dImL5 / 2); ([6; 5; 2; 0]%nat, dImL5 / 2);
   ([6; 5; 2; 1]%nat, dL4 / 2 - dL5 / 2); ([6; 5; 3; 0]%nat, - dL4 / 2 + dL5 / 2); ([6; 5; 3; 1]%nat, dImL5 / 2);
   ([6; 5; 4; 6]%nat, dImL5); ([6; 5; 4; 7]%nat, dL5); ([6; 5; 5; 6]%nat, dL3 + dL4 - dL5);
   ([6; 5; 5; 7]%nat, dImL5); ([6; 5; 6; 4]%nat, dImL5); ([6; 5; 6; 5]%nat, dL3 + dL4 - dL5);
   ([6; 5; 7; 4]%nat, dL5); ([6; 5; 7; 5]%nat, dImL5); ([6; 6; 0; 0]%nat, dL3); ([6; 6; 1; 1]%nat, dL3);
   ([6; 6; 2; 2]%nat, dL2); ([6; 6; 3; 3]%nat, dL2); ([6; 6; 4; 4]%nat, dL3 + dL4 + dL5);
   ([6; 6; 4; 5]%nat, dImL5); ([6; 6; 5; 4]%nat, dImL5); ([6; 6; 5; 5]%nat, dL3 + dL4 - dL5);
   ([6; 6; 6; 6]%nat, 3 * dL2); ([6; 6; 7; 7]%nat, dL2); ([6; 6; 8; 8]%nat, dL8); ([6; 7; 4; 4]%nat, - dImL5);
   ([6; 7; 4; 5]%nat, dL5); ([6; 7; 5; 4]%nat, dL5); ([6; 7; 5; 5]%nat, dImL5); ([6; 7; 6; 7]%nat, dL2);
   ([6; 7; 7; 6]%nat, dL2); ([6; 8; 6; 8]%nat, dL8); ([6; 8; 8; 6]%nat, dL8); ([7; 0; 0; 7]%nat, dL3);
   ([7; 0; 2; 4]%nat, - dImL5 / 2); ([7; 0; 2; 5]%nat, dL4 / 2 + dL5 / 2); ([7; 0; 3; 4]%nat, dL4 / 2 - dL5 / 2);
   ([7; 0; 3; 5]%nat, - dImL5 / 2); ([7; 0; 4; 2]%nat, - dImL5 / 2); ([7; 0; 4; 3]%nat, dL4 / 2 - dL5 / 2);
   ([7; 0; 5; 2]%nat, dL4 / 2 + dL5 / 2); ([7; 0; 5; 3]%nat, - dImL5 / 2); ([7; 0; 7; 0]%nat, dL3);
   ([7; 1; 1; 7]%nat, dL3); ([7; 1; 2; 4]%nat, - dL4 / 2 + dL5 / 2); ([7; 1; 2; 5]%nat, dImL5 / 2);
   ([7; 1; 3; 4]%nat, - dImL5 / 2); ([7; 1; 3; 5]%nat, dL4 / 2 + dL5 / 2); ([7; 1; 4; 2]%nat, - dL4 / 2 + dL5 / 2);
   ([7; 1; 4; 3]%nat, - dImL5 / 2); ([7; 1; 5; 2]%nat, dImL5 / 2); ([7; 1; 5; 3]%nat, dL4 / 2 + dL5 / 2);
   ([7; 1; 7; 1]%nat, dL3); ([7; 2; 0; 4]%nat, - dImL5 / 2); ([7; 2; 0; 5]%nat, dL4 / 2 + dL5 / 2);
   ([7; 2; 1; 4]%nat, - dL4 / 2 + dL5 / 2); ([7; 2; 1; 5]%nat, dImL5 / 2); ([7; 2; 2; 7]%nat, dL2);
   ([7; 2; 4; 0]%nat, - dImL5 / 2); ([7; 2; 4; 1]%nat, - dL4 / 2 + dL5 / 2); ([7; 2; 5; 0]%nat, dL4 / 2 + dL5 / 2);
   ([7; 2; 5; 1]%nat, dImL5 / 2); ([7; 2; 7; 2]%nat, dL2); ([7; 3; 0; 4]%nat, dL4 / 2 - dL5 / 2);
   ([7; 3; 0; 5]%nat, - dImL5 / 2); ([7; 3; 1; 4]%nat, - dImL5 / 2); ([7; 3; 1; 5]%nat, dL4 / 2 + dL5 / 2);
   ([7; 3; 3; 7]%nat, dL2); ([7; 3; 4; 0]%nat, dL4 / 2 - dL5 / 2); ([7; 3; 4; 1]%nat, - dImL5 / 2);
   ([7; 3; 5; 0]%nat, - dImL5 / 2); ([7; 3; 5; 1]%nat, dL4 / 2 + dL5 / 2); ([7; 3; 7; 3]%nat, dL2);
   ([7; 4; 0; 2]%nat, - dImL5 / 2); ([7; 4; 0; 3]%nat, dL4 / 2 - dL5 / 2); ([7; 4; 1; 2]%nat, - dL4 / 2 + dL5 / 2);
   ([7; 4; 1; 3]%nat, - dImL5 / 2); ([7; 4; 2; 0]%nat, - dImL5 / 2); ([7; 4; 2; 1]%nat, - dL4 / 2 + dL5 / 2);
   ([7; 4; 3; 0]%nat, dL4 / 2 - dL5 / 2); ([7; 4; 3; 1]%nat, - dImL5 / 2); ([7; 4; 4; 6]%nat, - dImL5);
   ([7; 4; 4; 7]%nat, dL3 + dL4 - dL5); ([7; 4; 5; 6]%nat, dL5); ([7; 4; 5; 7]%nat, - dImL5);
   ([7; 4; 6; 4]%nat, - dImL5); ([7; 4; 6; 5]%nat, dL5); ([7; 4; 7; 4]%nat, dL3 + dL4 - dL5);
   ([7; 4; 7; 5]%nat, - dImL5); ([7; 5; 0; 2]%nat, dL4 / 2 + dL5 / 2); ([7; 5; 0; 3]%nat, - dImL5 / 2);
   ([7; 5; 1; 2]%nat, dImL5 / 2); ([7; 5; 1; 3]%nat, dL4 / 2 + dL5 / 2); ([7; 5; 2; 0]%nat, dL4 / 2 + dL5 / 2);
   ([7; 5; 2; 1]%nat, dImL5 / 2); ([7; 5; 3; 0]%nat, - dImL5 / 2); ([7; 5; 3; 1]%nat, dL4 / 2 + dL5 / 2);
   ([7; 5; 4; 6]%nat, dL5); ([7; 5; 4; 7]%nat, - dImL5); ([7; 5; 5; 6]%nat, dImL5);
   ([7; 5; 5; 7]%nat, dL3 + dL4 + dL5); ([7; 5; 6; 4]%nat, dL5); ([7; 5; 6; 5]%nat, dImL5);
   ([7; 5; 7; 4]%nat, - dImL5); ([7; 5; 7; 5]%nat, dL3 + dL4 + dL5); ([7; 6; 4; 4]%nat, - dImL5);
   ([7; 6; 4; 5]%nat, dL5); ([7; 6; 5; 4]%nat, dL5); ([7; 6; 5; 5]%nat, dImL5); ([7; 6; 6; 7]%nat, dL2);
   ([7; 6; 7; 6]%nat, dL2); ([7; 7; 0; 0]%nat, dL3); ([7; 7; 1; 1]%nat, dL3); ([7; 7; 2; 2]%nat, dL2);
   ([7; 7; 3; 3]%nat, dL2); ([7; 7; 4; 4]%nat, dL3 + dL4 - dL5); ([7; 7; 4; 5]%nat, - dImL5);
   ([7; 7; 5; 4]%nat, - dImL5); ([7; 7; 5; 5]%nat, dL3 + dL4 + dL5); ([7; 7; 6; 6]%nat, dL2);
   ([7; 7; 7; 7]%nat, 3 * dL2); ([7; 7; 8; 8]%nat, dL8); ([7; 8; 7; 8]%nat, dL8); ([7; 8; 8; 7]%nat, dL8);
   ([8; 0; 0; 8]%nat, dL7); ([8; 0; 8; 0]%nat, dL7); ([8; 1; 1; 8]%nat, dL7); ([8; 1; 8; 1]%nat, dL7);
   ([8; 2; 2; 8]%nat, dL8); ([8; 2; 8; 2]%nat, dL8); ([8; 3; 3; 8]%nat, dL8); ([8; 3; 8; 3]%nat, dL8);
   ([8; 4; 4; 8]%nat, dL7); ([8; 4; 8; 4]%nat, dL7); ([8; 5; 5; 8]%nat, dL7); ([8; 5; 8; 5]%nat, dL7);
   ([8; 6; 6; 8]%nat, dL8); ([8; 6; 8; 6]%nat, dL8); ([8; 7; 7; 8]%nat, dL8); ([8; 7; 8; 7]%nat, dL8);
   ([8; 8; 0; 0]%nat, dL7); ([8; 8; 1; 1]%nat, dL7); ([8; 8; 2; 2]%nat, dL8); ([8; 8; 3; 3]%nat, dL8);
   ([8; 8; 4; 4]%nat, dL7); ([8; 8; 5; 5]%nat, dL7); ([8; 8; 6; 6]%nat, dL8); ([8; 8; 7; 7]%nat, dL8);
   ([8; 8; 8; 8]%nat, 6 * dL6)].

(** set_CT_Pot_Par, from line 285, called on the zeroed tensors *)
Definition set_CT_Pot_Par (par : list R) : outcome tensors :=
  bind (read_CT par) (fun c => Ok (mkT
    (assign (CT_L1 c) zero_tensor)
    (assign (CT_L2 c) zero_tensor)
    (assign (CT_L3 c) zero_tensor)
    (assign (CT_L4 c) zero_tensor))).
