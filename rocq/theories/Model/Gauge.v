(** The couplings of two gauge bosons to two scalars, Curvature_Gauge_G2H2, of the six models.  The gauge bosons are W1, W2, W3, B; g and gs are
    SMConstants.C_g and SMConstants.C_gs.  Doubles are real numbers. *)
From Coq Require Import Reals ZArith List.
From Verif.Model Require Import Base Potential Tables.
Import ListNotations.
Open Scope R_scope.

(** SetCurvatureArrays, ClassPotentialSM.cpp 388-438 *)
Definition SM_G2H2 (g gs : R) : table :=
  [
   ([0; 0; 0; 0]%nat, g * g / 2); ([0; 0; 1; 1]%nat, g * g / 2); ([0; 0; 2; 2]%nat, g * g / 2); ([0; 0; 3; 3]%nat, g * g / 2); ([0; 3; 0; 2]%nat, gs * g / 2);
([0; 3; 1; 3]%nat, gs * g / 2);
   ([0; 3; 2; 0]%nat, gs * g / 2); ([0; 3; 3; 1]%nat, gs * g / 2); ([1; 1; 0; 0]%nat, g * g / 2); ([1; 1; 1; 1]%nat, g * g / 2); ([1; 1; 2; 2]%nat, g * g / 2);
([1; 1; 3; 3]%nat, g * g / 2);
   ([1; 3; 0; 3]%nat, gs * g / 2); ([1; 3; 1; 2]%nat, - gs * g / 2); ([1; 3; 2; 1]%nat, - gs * g / 2); ([1; 3; 3; 0]%nat, gs * g / 2); ([2; 2; 0; 0]%nat, g * g
/ 2); ([2; 2; 1; 1]%nat, g * g / 2);
   ([2; 2; 2; 2]%nat, g * g / 2); ([2; 2; 3; 3]%nat, g * g / 2); ([2; 3; 0; 0]%nat, gs * g / 2); ([2; 3; 1; 1]%nat, gs * g / 2); ([2; 3; 2; 2]%nat, - gs * g /
2); ([2; 3; 3; 3]%nat, - gs * g / 2);
   ([3; 0; 0; 2]%nat, gs * g / 2); ([3; 0; 1; 3]%nat, gs * g / 2); ([3; 0; 2; 0]%nat, gs * g / 2); ([3; 0; 3; 1]%nat, gs * g / 2); ([3; 1; 0; 3]%nat, gs * g /
2); ([3; 1; 1; 2]%nat, - gs * g / 2);
   ([3; 1; 2; 1]%nat, - gs * g / 2); ([3; 1; 3; 0]%nat, gs * g / 2); ([3; 2; 0; 0]%nat, gs * g / 2); ([3; 2; 1; 1]%nat, gs * g / 2); ([3; 2; 2; 2]%nat, - gs *
g / 2); ([3; 2; 3; 3]%nat, - gs * g / 2);
   ([3; 3; 0; 0]%nat, gs * gs / 2); ([3; 3; 1; 1]%nat, gs * gs / 2); ([3; 3; 2; 2]%nat, gs * gs / 2); ([3; 3; 3; 3]%nat, gs * gs / 2)].

(** SetCurvatureArrays, ClassPotentialCxSM.cpp 1027-1077 *)
Definition CxSM_G2H2 (g gs : R) : table :=
  [
   ([0; 0; 0; 0]%nat, g * g / 2); ([0; 0; 1; 1]%nat, g * g / 2); ([0; 0; 2; 2]%nat, g * g / 2); ([0; 0; 3; 3]%nat, g * g / 2); ([0; 3; 0; 3]%nat, gs * g / 2);
([0; 3; 1; 2]%nat, gs * g / 2);
   ([0; 3; 2; 1]%nat, gs * g / 2); ([0; 3; 3; 0]%nat, gs * g / 2); ([1; 1; 0; 0]%nat, g * g / 2); ([1; 1; 1; 1]%nat, g * g / 2); ([1; 1; 2; 2]%nat, g * g / 2);
([1; 1; 3; 3]%nat, g * g / 2);
   ([1; 3; 0; 2]%nat, gs * g / 2); ([1; 3; 1; 3]%nat, - gs * g / 2); ([1; 3; 2; 0]%nat, gs * g / 2); ([1; 3; 3; 1]%nat, - gs * g / 2); ([2; 2; 0; 0]%nat, g * g
/ 2); ([2; 2; 1; 1]%nat, g * g / 2);
   ([2; 2; 2; 2]%nat, g * g / 2); ([2; 2; 3; 3]%nat, g * g / 2); ([2; 3; 0; 0]%nat, gs * g / 2); ([2; 3; 1; 1]%nat, gs * g / 2); ([2; 3; 2; 2]%nat, - gs * g /
2); ([2; 3; 3; 3]%nat, - gs * g / 2);
   ([3; 0; 0; 3]%nat, gs * g / 2); ([3; 0; 1; 2]%nat, gs * g / 2); ([3; 0; 2; 1]%nat, gs * g / 2); ([3; 0; 3; 0]%nat, gs * g / 2); ([3; 1; 0; 2]%nat, gs * g /
2); ([3; 1; 1; 3]%nat, - gs * g / 2);
   ([3; 1; 2; 0]%nat, gs * g / 2); ([3; 1; 3; 1]%nat, - gs * g / 2); ([3; 2; 0; 0]%nat, gs * g / 2); ([3; 2; 1; 1]%nat, gs * g / 2); ([3; 2; 2; 2]%nat, - gs *
g / 2); ([3; 2; 3; 3]%nat, - gs * g / 2);
   ([3; 3; 0; 0]%nat, gs * gs / 2); ([3; 3; 1; 1]%nat, gs * gs / 2); ([3; 3; 2; 2]%nat, gs * gs / 2); ([3; 3; 3; 3]%nat, gs * gs / 2)].

(** SetCurvatureArrays, ClassPotentialR2HDM.cpp 1099-1206 *)
Definition R2HDM_G2H2 (g gs : R) : table :=
  [
   ([0; 0; 0; 0]%nat, g * g / 2); ([0; 0; 1; 1]%nat, g * g / 2); ([0; 0; 2; 2]%nat, g * g / 2); ([0; 0; 3; 3]%nat, g * g / 2); ([0; 0; 4; 4]%nat, g * g / 2);
([0; 0; 5; 5]%nat, g * g / 2);
   ([0; 0; 6; 6]%nat, g * g / 2); ([0; 0; 7; 7]%nat, g * g / 2); ([0; 3; 0; 4]%nat, g * gs / 2); ([0; 3; 1; 5]%nat, g * gs / 2); ([0; 3; 2; 6]%nat, g * gs /
2); ([0; 3; 3; 7]%nat, g * gs / 2);
   ([0; 3; 4; 0]%nat, g * gs / 2); ([0; 3; 5; 1]%nat, g * gs / 2); ([0; 3; 6; 2]%nat, g * gs / 2); ([0; 3; 7; 3]%nat, g * gs / 2); ([1; 1; 0; 0]%nat, g * g /
2); ([1; 1; 1; 1]%nat, g * g / 2);
   ([1; 1; 2; 2]%nat, g * g / 2); ([1; 1; 3; 3]%nat, g * g / 2); ([1; 1; 4; 4]%nat, g * g / 2); ([1; 1; 5; 5]%nat, g * g / 2); ([1; 1; 6; 6]%nat, g * g / 2);
([1; 1; 7; 7]%nat, g * g / 2);
   ([1; 3; 0; 5]%nat, g * gs / 2); ([1; 3; 1; 4]%nat, - g * gs / 2); ([1; 3; 2; 7]%nat, g * gs / 2); ([1; 3; 3; 6]%nat, - g * gs / 2); ([1; 3; 4; 1]%nat, - g *
gs / 2); ([1; 3; 5; 0]%nat, g * gs / 2);
   ([1; 3; 6; 3]%nat, - g * gs / 2); ([1; 3; 7; 2]%nat, g * gs / 2); ([2; 2; 0; 0]%nat, g * g / 2); ([2; 2; 1; 1]%nat, g * g / 2); ([2; 2; 2; 2]%nat, g * g /
2); ([2; 2; 3; 3]%nat, g * g / 2);
   ([2; 2; 4; 4]%nat, g * g / 2); ([2; 2; 5; 5]%nat, g * g / 2); ([2; 2; 6; 6]%nat, g * g / 2); ([2; 2; 7; 7]%nat, g * g / 2); ([2; 3; 0; 0]%nat, g * gs / 2);
([2; 3; 1; 1]%nat, g * gs / 2);
   ([2; 3; 2; 2]%nat, g * gs / 2); ([2; 3; 3; 3]%nat, g * gs / 2); ([2; 3; 4; 4]%nat, - g * gs / 2); ([2; 3; 5; 5]%nat, - g * gs / 2); ([2; 3; 6; 6]%nat, - g *
gs / 2); ([2; 3; 7; 7]%nat, - g * gs / 2);
   ([3; 0; 0; 4]%nat, g * gs / 2); ([3; 0; 1; 5]%nat, g * gs / 2); ([3; 0; 2; 6]%nat, g * gs / 2); ([3; 0; 3; 7]%nat, g * gs / 2); ([3; 0; 4; 0]%nat, g * gs /
2); ([3; 0; 5; 1]%nat, g * gs / 2);
   ([3; 0; 6; 2]%nat, g * gs / 2); ([3; 0; 7; 3]%nat, g * gs / 2); ([3; 1; 0; 5]%nat, g * gs / 2); ([3; 1; 1; 4]%nat, - g * gs / 2); ([3; 1; 2; 7]%nat, g * gs
/ 2); ([3; 1; 3; 6]%nat, - g * gs / 2);
   ([3; 1; 4; 1]%nat, - g * gs / 2); ([3; 1; 5; 0]%nat, g * gs / 2); ([3; 1; 6; 3]%nat, - g * gs / 2); ([3; 1; 7; 2]%nat, g * gs / 2); ([3; 2; 0; 0]%nat, g *
gs / 2); ([3; 2; 1; 1]%nat, g * gs / 2);
   ([3; 2; 2; 2]%nat, g * gs / 2); ([3; 2; 3; 3]%nat, g * gs / 2); ([3; 2; 4; 4]%nat, - g * gs / 2); ([3; 2; 5; 5]%nat, - g * gs / 2); ([3; 2; 6; 6]%nat, - g *
gs / 2); ([3; 2; 7; 7]%nat, - g * gs / 2);
   ([3; 3; 0; 0]%nat, gs * gs / 2); ([3; 3; 1; 1]%nat, gs * gs / 2); ([3; 3; 2; 2]%nat, gs * gs / 2); ([3; 3; 3; 3]%nat, gs * gs / 2); ([3; 3; 4; 4]%nat, gs *
gs / 2); ([3; 3; 5; 5]%nat, gs * gs / 2);
   ([3; 3; 6; 6]%nat, gs * gs / 2); ([3; 3; 7; 7]%nat, gs * gs / 2)].

(** SetCurvatureArrays, ClassPotentialC2HDM.cpp 2793-2901 *)
Definition C2HDM_G2H2 (g gs : R) : table :=
  [
   ([0; 0; 0; 0]%nat, g * g / 2); ([0; 0; 1; 1]%nat, g * g / 2); ([0; 0; 2; 2]%nat, g * g / 2); ([0; 0; 3; 3]%nat, g * g / 2); ([0; 0; 4; 4]%nat, g * g / 2);
([0; 0; 5; 5]%nat, g * g / 2);
   ([0; 0; 6; 6]%nat, g * g / 2); ([0; 0; 7; 7]%nat, g * g / 2); ([0; 3; 0; 4]%nat, g * gs / 2); ([0; 3; 1; 5]%nat, g * gs / 2); ([0; 3; 2; 6]%nat, g * gs /
2); ([0; 3; 3; 7]%nat, g * gs / 2);
   ([0; 3; 4; 0]%nat, g * gs / 2); ([0; 3; 5; 1]%nat, g * gs / 2); ([0; 3; 6; 2]%nat, g * gs / 2); ([0; 3; 7; 3]%nat, g * gs / 2); ([1; 1; 0; 0]%nat, g * g /
2); ([1; 1; 1; 1]%nat, g * g / 2);
   ([1; 1; 2; 2]%nat, g * g / 2); ([1; 1; 3; 3]%nat, g * g / 2); ([1; 1; 4; 4]%nat, g * g / 2); ([1; 1; 5; 5]%nat, g * g / 2); ([1; 1; 6; 6]%nat, g * g / 2);
([1; 1; 7; 7]%nat, g * g / 2);
   ([1; 3; 0; 5]%nat, g * gs / 2); ([1; 3; 1; 4]%nat, - g * gs / 2); ([1; 3; 2; 7]%nat, g * gs / 2); ([1; 3; 3; 6]%nat, - g * gs / 2); ([1; 3; 4; 1]%nat, - g *
gs / 2); ([1; 3; 5; 0]%nat, g * gs / 2);
   ([1; 3; 6; 3]%nat, - g * gs / 2); ([1; 3; 7; 2]%nat, g * gs / 2); ([2; 2; 0; 0]%nat, g * g / 2); ([2; 2; 1; 1]%nat, g * g / 2); ([2; 2; 2; 2]%nat, g * g /
2); ([2; 2; 3; 3]%nat, g * g / 2);
   ([2; 2; 4; 4]%nat, g * g / 2); ([2; 2; 5; 5]%nat, g * g / 2); ([2; 2; 6; 6]%nat, g * g / 2); ([2; 2; 7; 7]%nat, g * g / 2); ([2; 3; 0; 0]%nat, g * gs / 2);
([2; 3; 1; 1]%nat, g * gs / 2);
   ([2; 3; 2; 2]%nat, g * gs / 2); ([2; 3; 3; 3]%nat, g * gs / 2); ([2; 3; 4; 4]%nat, - g * gs / 2); ([2; 3; 5; 5]%nat, - g * gs / 2); ([2; 3; 6; 6]%nat, - g *
gs / 2); ([2; 3; 7; 7]%nat, - g * gs / 2);
   ([3; 0; 0; 4]%nat, g * gs / 2); ([3; 0; 1; 5]%nat, g * gs / 2); ([3; 0; 2; 6]%nat, g * gs / 2); ([3; 0; 3; 7]%nat, g * gs / 2); ([3; 0; 4; 0]%nat, g * gs /
2); ([3; 0; 5; 1]%nat, g * gs / 2);
   ([3; 0; 6; 2]%nat, g * gs / 2); ([3; 0; 7; 3]%nat, g * gs / 2); ([3; 1; 0; 5]%nat, g * gs / 2); ([3; 1; 1; 4]%nat, - g * gs / 2); ([3; 1; 2; 7]%nat, g * gs
/ 2); ([3; 1; 3; 6]%nat, - g * gs / 2);
   ([3; 1; 4; 1]%nat, - g * gs / 2); ([3; 1; 5; 0]%nat, g * gs / 2); ([3; 1; 6; 3]%nat, - g * gs / 2); ([3; 1; 7; 2]%nat, g * gs / 2); ([3; 2; 0; 0]%nat, g *
gs / 2); ([3; 2; 1; 1]%nat, g * gs / 2);
   ([3; 2; 2; 2]%nat, g * gs / 2); ([3; 2; 3; 3]%nat, g * gs / 2); ([3; 2; 4; 4]%nat, - g * gs / 2); ([3; 2; 5; 5]%nat, - g * gs / 2); ([3; 2; 6; 6]%nat, - g *
gs / 2); ([3; 2; 7; 7]%nat, - g * gs / 2);
   ([3; 3; 0; 0]%nat, gs * gs / 2); ([3; 3; 1; 1]%nat, gs * gs / 2); ([3; 3; 2; 2]%nat, gs * gs / 2); ([3; 3; 3; 3]%nat, gs * gs / 2); ([3; 3; 4; 4]%nat, gs *
gs / 2); ([3; 3; 5; 5]%nat, gs * gs / 2);
   ([3; 3; 6; 6]%nat, gs * gs / 2); ([3; 3; 7; 7]%nat, gs * gs / 2)].

(** SetCurvatureArrays, ClassPotentialN2HDM.cpp 1609-2928 *)
Definition N2HDM_G2H2 (g gs : R) : table :=
  [
   ([0; 0; 0; 0]%nat, g * g / 2); ([0; 0; 0; 1]%nat, 0); ([0; 0; 0; 2]%nat, 0); ([0; 0; 0; 3]%nat, 0); ([0; 0; 0; 4]%nat, 0); ([0; 0; 0; 5]%nat, 0);
   ([0; 0; 0; 6]%nat, 0); ([0; 0; 0; 7]%nat, 0); ([0; 0; 0; 8]%nat, 0); ([0; 0; 1; 0]%nat, 0); ([0; 0; 1; 1]%nat, g * g / 2); ([0; 0; 1; 2]%nat, 0);
   ([0; 0; 1; 3]%nat, 0); ([0; 0; 1; 4]%nat, 0); ([0; 0; 1; 5]%nat, 0); ([0; 0; 1; 6]%nat, 0); ([0; 0; 1; 7]%nat, 0); ([0; 0; 1; 8]%nat, 0);
   ([0; 0; 2; 0]%nat, 0); ([0; 0; 2; 1]%nat, 0); ([0; 0; 2; 2]%nat, g * g / 2); ([0; 0; 2; 3]%nat, 0); ([0; 0; 2; 4]%nat, 0); ([0; 0; 2; 5]%nat, 0);
   ([0; 0; 2; 6]%nat, 0); ([0; 0; 2; 7]%nat, 0); ([0; 0; 2; 8]%nat, 0); ([0; 0; 3; 0]%nat, 0); ([0; 0; 3; 1]%nat, 0); ([0; 0; 3; 2]%nat, 0);
   ([0; 0; 3; 3]%nat, g * g / 2); ([0; 0; 3; 4]%nat, 0); ([0; 0; 3; 5]%nat, 0); ([0; 0; 3; 6]%nat, 0); ([0; 0; 3; 7]%nat, 0); ([0; 0; 3; 8]%nat, 0);
   ([0; 0; 4; 0]%nat, 0); ([0; 0; 4; 1]%nat, 0); ([0; 0; 4; 2]%nat, 0); ([0; 0; 4; 3]%nat, 0); ([0; 0; 4; 4]%nat, g * g / 2); ([0; 0; 4; 5]%nat, 0);
   ([0; 0; 4; 6]%nat, 0); ([0; 0; 4; 7]%nat, 0); ([0; 0; 4; 8]%nat, 0); ([0; 0; 5; 0]%nat, 0); ([0; 0; 5; 1]%nat, 0); ([0; 0; 5; 2]%nat, 0);
   ([0; 0; 5; 3]%nat, 0); ([0; 0; 5; 4]%nat, 0); ([0; 0; 5; 5]%nat, g * g / 2); ([0; 0; 5; 6]%nat, 0); ([0; 0; 5; 7]%nat, 0); ([0; 0; 5; 8]%nat, 0);
   ([0; 0; 6; 0]%nat, 0); ([0; 0; 6; 1]%nat, 0); ([0; 0; 6; 2]%nat, 0); ([0; 0; 6; 3]%nat, 0); ([0; 0; 6; 4]%nat, 0); ([0; 0; 6; 5]%nat, 0);
   ([0; 0; 6; 6]%nat, g * g / 2); ([0; 0; 6; 7]%nat, 0); ([0; 0; 6; 8]%nat, 0); ([0; 0; 7; 0]%nat, 0); ([0; 0; 7; 1]%nat, 0); ([0; 0; 7; 2]%nat, 0);
   ([0; 0; 7; 3]%nat, 0); ([0; 0; 7; 4]%nat, 0); ([0; 0; 7; 5]%nat, 0); ([0; 0; 7; 6]%nat, 0); ([0; 0; 7; 7]%nat, g * g / 2); ([0; 0; 7; 8]%nat, 0);
   ([0; 0; 8; 0]%nat, 0); ([0; 0; 8; 1]%nat, 0); ([0; 0; 8; 2]%nat, 0); ([0; 0; 8; 3]%nat, 0); ([0; 0; 8; 4]%nat, 0); ([0; 0; 8; 5]%nat, 0);
   ([0; 0; 8; 6]%nat, 0); ([0; 0; 8; 7]%nat, 0); ([0; 0; 8; 8]%nat, 0); ([0; 1; 0; 0]%nat, 0); ([0; 1; 0; 1]%nat, 0); ([0; 1; 0; 2]%nat, 0);
   ([0; 1; 0; 3]%nat, 0); ([0; 1; 0; 4]%nat, 0); ([0; 1; 0; 5]%nat, 0); ([0; 1; 0; 6]%nat, 0); ([0; 1; 0; 7]%nat, 0); ([0; 1; 0; 8]%nat, 0);
   ([0; 1; 1; 0]%nat, 0); ([0; 1; 1; 1]%nat, 0); ([0; 1; 1; 2]%nat, 0); ([0; 1; 1; 3]%nat, 0); ([0; 1; 1; 4]%nat, 0); ([0; 1; 1; 5]%nat, 0);
   ([0; 1; 1; 6]%nat, 0); ([0; 1; 1; 7]%nat, 0); ([0; 1; 1; 8]%nat, 0); ([0; 1; 2; 0]%nat, 0); ([0; 1; 2; 1]%nat, 0); ([0; 1; 2; 2]%nat, 0);
   ([0; 1; 2; 3]%nat, 0); ([0; 1; 2; 4]%nat, 0); ([0; 1; 2; 5]%nat, 0); ([0; 1; 2; 6]%nat, 0); ([0; 1; 2; 7]%nat, 0); ([0; 1; 2; 8]%nat, 0);
   ([0; 1; 3; 0]%nat, 0); ([0; 1; 3; 1]%nat, 0); ([0; 1; 3; 2]%nat, 0); ([0; 1; 3; 3]%nat, 0); ([0; 1; 3; 4]%nat, 0); ([0; 1; 3; 5]%nat, 0);
   ([0; 1; 3; 6]%nat, 0); ([0; 1; 3; 7]%nat, 0); ([0; 1; 3; 8]%nat, 0); ([0; 1; 4; 0]%nat, 0); ([0; 1; 4; 1]%nat, 0); ([0; 1; 4; 2]%nat, 0);
   ([0; 1; 4; 3]%nat, 0); ([0; 1; 4; 4]%nat, 0); ([0; 1; 4; 5]%nat, 0); ([0; 1; 4; 6]%nat, 0); ([0; 1; 4; 7]%nat, 0); ([0; 1; 4; 8]%nat, 0);
   ([0; 1; 5; 0]%nat, 0); ([0; 1; 5; 1]%nat, 0); ([0; 1; 5; 2]%nat, 0); ([0; 1; 5; 3]%nat, 0); ([0; 1; 5; 4]%nat, 0); ([0; 1; 5; 5]%nat, 0);
   ([0; 1; 5; 6]%nat, 0); ([0; 1; 5; 7]%nat, 0); ([0; 1; 5; 8]%nat, 0); ([0; 1; 6; 0]%nat, 0); ([0; 1; 6; 1]%nat, 0); ([0; 1; 6; 2]%nat, 0);
   ([0; 1; 6; 3]%nat, 0); ([0; 1; 6; 4]%nat, 0); ([0; 1; 6; 5]%nat, 0); ([0; 1; 6; 6]%nat, 0); ([0; 1; 6; 7]%nat, 0); ([0; 1; 6; 8]%nat, 0);
   ([0; 1; 7; 0]%nat, 0); ([0; 1; 7; 1]%nat, 0); ([0; 1; 7; 2]%nat, 0); ([0; 1; 7; 3]%nat, 0); ([0; 1; 7; 4]%nat, 0); ([0; 1; 7; 5]%nat, 0);
   ([0; 1; 7; 6]%nat, 0); ([0; 1; 7; 7]%nat, 0); ([0; 1; 7; 8]%nat, 0); ([0; 1; 8; 0]%nat, 0); ([0; 1; 8; 1]%nat, 0); ([0; 1; 8; 2]%nat, 0);
   ([0; 1; 8; 3]%nat, 0); ([0; 1; 8; 4]%nat, 0); ([0; 1; 8; 5]%nat, 0); ([0; 1; 8; 6]%nat, 0); ([0; 1; 8; 7]%nat, 0); ([0; 1; 8; 8]%nat, 0);
   ([0; 2; 0; 0]%nat, 0); ([0; 2; 0; 1]%nat, 0); ([0; 2; 0; 2]%nat, 0); ([0; 2; 0; 3]%nat, 0); ([0; 2; 0; 4]%nat, 0); ([0; 2; 0; 5]%nat, 0);
   ([0; 2; 0; 6]%nat, 0); ([0; 2; 0; 7]%nat, 0); ([0; 2; 0; 8]%nat, 0); ([0; 2; 1; 0]%nat, 0); ([0; 2; 1; 1]%nat, 0); ([0; 2; 1; 2]%nat, 0);
   ([0; 2; 1; 3]%nat, 0); ([0; 2; 1; 4]%nat, 0); ([0; 2; 1; 5]%nat, 0); ([0; 2; 1; 6]%nat, 0); ([0; 2; 1; 7]%nat, 0); ([0; 2; 1; 8]%nat, 0);
   ([0; 2; 2; 0]%nat, 0); ([0; 2; 2; 1]%nat, 0); ([0; 2; 2; 2]%nat, 0); ([0; 2; 2; 3]%nat, 0); ([0; 2; 2; 4]%nat, 0); ([0; 2; 2; 5]%nat, 0);
   ([0; 2; 2; 6]%nat, 0); ([0; 2; 2; 7]%nat, 0); ([0; 2; 2; 8]%nat, 0); ([0; 2; 3; 0]%nat, 0); ([0; 2; 3; 1]%nat, 0); ([0; 2; 3; 2]%nat, 0);
   ([0; 2; 3; 3]%nat, 0); ([0; 2; 3; 4]%nat, 0); ([0; 2; 3; 5]%nat, 0); ([0; 2; 3; 6]%nat, 0); ([0; 2; 3; 7]%nat, 0); ([0; 2; 3; 8]%nat, 0);
   ([0; 2; 4; 0]%nat, 0); ([0; 2; 4; 1]%nat, 0); ([0; 2; 4; 2]%nat, 0); ([0; 2; 4; 3]%nat, 0); ([0; 2; 4; 4]%nat, 0); ([0; 2; 4; 5]%nat, 0);
   ([0; 2; 4; 6]%nat, 0); ([0; 2; 4; 7]%nat, 0); ([0; 2; 4; 8]%nat, 0); ([0; 2; 5; 0]%nat, 0); ([0; 2; 5; 1]%nat, 0); ([0; 2; 5; 2]%nat, 0);
   ([0; 2; 5; 3]%nat, 0); ([0; 2; 5; 4]%nat, 0); ([0; 2; 5; 5]%nat, 0); ([0; 2; 5; 6]%nat, 0); ([0; 2; 5; 7]%nat, 0); ([0; 2; 5; 8]%nat, 0);
   ([0; 2; 6; 0]%nat, 0); ([0; 2; 6; 1]%nat, 0); ([0; 2; 6; 2]%nat, 0); ([0; 2; 6; 3]%nat, 0); ([0; 2; 6; 4]%nat, 0); ([0; 2; 6; 5]%nat, 0);
   ([0; 2; 6; 6]%nat, 0); ([0; 2; 6; 7]%nat, 0); ([0; 2; 6; 8]%nat, 0); ([0; 2; 7; 0]%nat, 0); ([0; 2; 7; 1]%nat, 0); ([0; 2; 7; 2]%nat, 0);
   ([0; 2; 7; 3]%nat, 0); ([0; 2; 7; 4]%nat, 0); ([0; 2; 7; 5]%nat, 0); ([0; 2; 7; 6]%nat, 0); ([0; 2; 7; 7]%nat, 0); ([0; 2; 7; 8]%nat, 0);
   ([0; 2; 8; 0]%nat, 0); ([0; 2; 8; 1]%nat, 0); ([0; 2; 8; 2]%nat, 0); ([0; 2; 8; 3]%nat, 0); ([0; 2; 8; 4]%nat, 0); ([0; 2; 8; 5]%nat, 0);
   ([0; 2; 8; 6]%nat, 0); ([0; 2; 8; 7]%nat, 0); ([0; 2; 8; 8]%nat, 0); ([0; 3; 0; 0]%nat, 0); ([0; 3; 0; 1]%nat, 0); ([0; 3; 0; 2]%nat, 0);
   ([0; 3; 0; 3]%nat, 0); ([0; 3; 0; 4]%nat, 0); ([0; 3; 0; 5]%nat, 0); ([0; 3; 0; 6]%nat, gs * g / 2); ([0; 3; 0; 7]%nat, 0); ([0; 3; 0; 8]%nat, 0);
   ([0; 3; 1; 0]%nat, 0); ([0; 3; 1; 1]%nat, 0); ([0; 3; 1; 2]%nat, 0); ([0; 3; 1; 3]%nat, 0); ([0; 3; 1; 4]%nat, 0); ([0; 3; 1; 5]%nat, 0);
   ([0; 3; 1; 6]%nat, 0); ([0; 3; 1; 7]%nat, gs * g / 2); ([0; 3; 1; 8]%nat, 0); ([0; 3; 2; 0]%nat, 0); ([0; 3; 2; 1]%nat, 0); ([0; 3; 2; 2]%nat, 0);
   ([0; 3; 2; 3]%nat, 0); ([0; 3; 2; 4]%nat, gs * g / 2); ([0; 3; 2; 5]%nat, 0); ([0; 3; 2; 6]%nat, 0); ([0; 3; 2; 7]%nat, 0); ([0; 3; 2; 8]%nat, 0);
   ([0; 3; 3; 0]%nat, 0); ([0; 3; 3; 1]%nat, 0); ([0; 3; 3; 2]%nat, 0); ([0; 3; 3; 3]%nat, 0); ([0; 3; 3; 4]%nat, 0); ([0; 3; 3; 5]%nat, gs * g / 2);
   ([0; 3; 3; 6]%nat, 0); ([0; 3; 3; 7]%nat, 0); ([0; 3; 3; 8]%nat, 0); ([0; 3; 4; 0]%nat, 0); ([0; 3; 4; 1]%nat, 0); ([0; 3; 4; 2]%nat, gs * g / 2);
   ([0; 3; 4; 3]%nat, 0); ([0; 3; 4; 4]%nat, 0); ([0; 3; 4; 5]%nat, 0); ([0; 3; 4; 6]%nat, 0); ([0; 3; 4; 7]%nat, 0); ([0; 3; 4; 8]%nat, 0);
   ([0; 3; 5; 0]%nat, 0); ([0; 3; 5; 1]%nat, 0); ([0; 3; 5; 2]%nat, 0); ([0; 3; 5; 3]%nat, gs * g / 2); ([0; 3; 5; 4]%nat, 0); ([0; 3; 5; 5]%nat, 0);
   ([0; 3; 5; 6]%nat, 0); ([0; 3; 5; 7]%nat, 0); ([0; 3; 5; 8]%nat, 0); ([0; 3; 6; 0]%nat, gs * g / 2); ([0; 3; 6; 1]%nat, 0); ([0; 3; 6; 2]%nat, 0);
   ([0; 3; 6; 3]%nat, 0); ([0; 3; 6; 4]%nat, 0); ([0; 3; 6; 5]%nat, 0); ([0; 3; 6; 6]%nat, 0); ([0; 3; 6; 7]%nat, 0); ([0; 3; 6; 8]%nat, 0);
   ([0; 3; 7; 0]%nat, 0); ([0; 3; 7; 1]%nat, gs * g / 2); ([0; 3; 7; 2]%nat, 0); ([0; 3; 7; 3]%nat, 0); ([0; 3; 7; 4]%nat, 0); ([0; 3; 7; 5]%nat, 0);
   ([0; 3; 7; 6]%nat, 0); ([0; 3; 7; 7]%nat, 0); ([0; 3; 7; 8]%nat, 0); ([0; 3; 8; 0]%nat, 0); ([0; 3; 8; 1]%nat, 0); ([0; 3; 8; 2]%nat, 0);
   ([0; 3; 8; 3]%nat, 0); ([0; 3; 8; 4]%nat, 0); ([0; 3; 8; 5]%nat, 0); ([0; 3; 8; 6]%nat, 0); ([0; 3; 8; 7]%nat, 0); ([0; 3; 8; 8]%nat, 0);
   ([1; 0; 0; 0]%nat, 0); ([1; 0; 0; 1]%nat, 0); ([1; 0; 0; 2]%nat, 0); ([1; 0; 0; 3]%nat, 0); ([1; 0; 0; 4]%nat, 0); ([1; 0; 0; 5]%nat, 0);
   ([1; 0; 0; 6]%nat, 0); ([1; 0; 0; 7]%nat, 0); ([1; 0; 0; 8]%nat, 0); ([1; 0; 1; 0]%nat, 0); ([1; 0; 1; 1]%nat, 0); ([1; 0; 1; 2]%nat, 0);
   ([1; 0; 1; 3]%nat, 0); ([1; 0; 1; 4]%nat, 0); ([1; 0; 1; 5]%nat, 0); ([1; 0; 1; 6]%nat, 0); ([1; 0; 1; 7]%nat, 0); ([1; 0; 1; 8]%nat, 0);
   ([1; 0; 2; 0]%nat, 0); ([1; 0; 2; 1]%nat, 0); ([1; 0; 2; 2]%nat, 0); ([1; 0; 2; 3]%nat, 0); ([1; 0; 2; 4]%nat, 0); ([1; 0; 2; 5]%nat, 0);
   ([1; 0; 2; 6]%nat, 0); ([1; 0; 2; 7]%nat, 0); ([1; 0; 2; 8]%nat, 0); ([1; 0; 3; 0]%nat, 0); ([1; 0; 3; 1]%nat, 0); ([1; 0; 3; 2]%nat, 0);
   ([1; 0; 3; 3]%nat, 0); ([1; 0; 3; 4]%nat, 0); ([1; 0; 3; 5]%nat, 0); ([1; 0; 3; 6]%nat, 0); ([1; 0; 3; 7]%nat, 0); ([1; 0; 3; 8]%nat, 0);
   ([1; 0; 4; 0]%nat, 0); ([1; 0; 4; 1]%nat, 0); ([1; 0; 4; 2]%nat, 0); ([1; 0; 4; 3]%nat, 0); ([1; 0; 4; 4]%nat, 0); ([1; 0; 4; 5]%nat, 0);
   ([1; 0; 4; 6]%nat, 0); ([1; 0; 4; 7]%nat, 0); ([1; 0; 4; 8]%nat, 0); ([1; 0; 5; 0]%nat, 0); ([1; 0; 5; 1]%nat, 0); ([1; 0; 5; 2]%nat, 0);
   ([1; 0; 5; 3]%nat, 0); ([1; 0; 5; 4]%nat, 0); ([1; 0; 5; 5]%nat, 0); ([1; 0; 5; 6]%nat, 0); ([1; 0; 5; 7]%nat, 0); ([1; 0; 5; 8]%nat, 0);
   ([1; 0; 6; 0]%nat, 0); ([1; 0; 6; 1]%nat, 0); ([1; 0; 6; 2]%nat, 0); ([1; 0; 6; 3]%nat, 0); ([1; 0; 6; 4]%nat, 0); ([1; 0; 6; 5]%nat, 0);
   ([1; 0; 6; 6]%nat, 0); ([1; 0; 6; 7]%nat, 0); ([1; 0; 6; 8]%nat, 0); ([1; 0; 7; 0]%nat, 0); ([1; 0; 7; 1]%nat, 0); ([1; 0; 7; 2]%nat, 0);
   ([1; 0; 7; 3]%nat, 0); ([1; 0; 7; 4]%nat, 0); ([1; 0; 7; 5]%nat, 0); ([1; 0; 7; 6]%nat, 0); ([1; 0; 7; 7]%nat, 0); ([1; 0; 7; 8]%nat, 0);
   ([1; 0; 8; 0]%nat, 0); ([1; 0; 8; 1]%nat, 0); ([1; 0; 8; 2]%nat, 0); ([1; 0; 8; 3]%nat, 0); ([1; 0; 8; 4]%nat, 0); ([1; 0; 8; 5]%nat, 0);
   ([1; 0; 8; 6]%nat, 0); ([1; 0; 8; 7]%nat, 0); ([1; 0; 8; 8]%nat, 0); ([1; 1; 0; 0]%nat, g * g / 2); ([1; 1; 0; 1]%nat, 0); ([1; 1; 0; 2]%nat, 0);
   ([1; 1; 0; 3]%nat, 0); ([1; 1; 0; 4]%nat, 0); ([1; 1; 0; 5]%nat, 0); ([1; 1; 0; 6]%nat, 0); ([1; 1; 0; 7]%nat, 0); ([1; 1; 0; 8]%nat, 0);
   ([1; 1; 1; 0]%nat, 0); ([1; 1; 1; 1]%nat, g * g / 2); ([1; 1; 1; 2]%nat, 0); ([1; 1; 1; 3]%nat, 0); ([1; 1; 1; 4]%nat, 0); ([1; 1; 1; 5]%nat, 0);
   ([1; 1; 1; 6]%nat, 0); ([1; 1; 1; 7]%nat, 0); ([1; 1; 1; 8]%nat, 0); ([1; 1; 2; 0]%nat, 0); ([1; 1; 2; 1]%nat, 0); ([1; 1; 2; 2]%nat, g * g / 2);
   ([1; 1; 2; 3]%nat, 0); ([1; 1; 2; 4]%nat, 0); ([1; 1; 2; 5]%nat, 0); ([1; 1; 2; 6]%nat, 0); ([1; 1; 2; 7]%nat, 0); ([1; 1; 2; 8]%nat, 0);
   ([1; 1; 3; 0]%nat, 0); ([1; 1; 3; 1]%nat, 0); ([1; 1; 3; 2]%nat, 0); ([1; 1; 3; 3]%nat, g * g / 2); ([1; 1; 3; 4]%nat, 0); ([1; 1; 3; 5]%nat, 0);
   ([1; 1; 3; 6]%nat, 0); ([1; 1; 3; 7]%nat, 0); ([1; 1; 3; 8]%nat, 0); ([1; 1; 4; 0]%nat, 0); ([1; 1; 4; 1]%nat, 0); ([1; 1; 4; 2]%nat, 0);
   ([1; 1; 4; 3]%nat, 0); ([1; 1; 4; 4]%nat, g * g / 2); ([1; 1; 4; 5]%nat, 0); ([1; 1; 4; 6]%nat, 0); ([1; 1; 4; 7]%nat, 0); ([1; 1; 4; 8]%nat, 0);
   ([1; 1; 5; 0]%nat, 0); ([1; 1; 5; 1]%nat, 0); ([1; 1; 5; 2]%nat, 0); ([1; 1; 5; 3]%nat, 0); ([1; 1; 5; 4]%nat, 0); ([1; 1; 5; 5]%nat, g * g / 2);
   ([1; 1; 5; 6]%nat, 0); ([1; 1; 5; 7]%nat, 0); ([1; 1; 5; 8]%nat, 0); ([1; 1; 6; 0]%nat, 0); ([1; 1; 6; 1]%nat, 0); ([1; 1; 6; 2]%nat, 0);
   ([1; 1; 6; 3]%nat, 0); ([1; 1; 6; 4]%nat, 0); ([1; 1; 6; 5]%nat, 0); ([1; 1; 6; 6]%nat, g * g / 2); ([1; 1; 6; 7]%nat, 0); ([1; 1; 6; 8]%nat, 0);
   ([1; 1; 7; 0]%nat, 0); ([1; 1; 7; 1]%nat, 0); ([1; 1; 7; 2]%nat, 0); ([1; 1; 7; 3]%nat, 0); ([1; 1; 7; 4]%nat, 0); ([1; 1; 7; 5]%nat, 0);
   ([1; 1; 7; 6]%nat, 0); ([1; 1; 7; 7]%nat, g * g / 2); ([1; 1; 7; 8]%nat, 0); ([1; 1; 8; 0]%nat, 0); ([1; 1; 8; 1]%nat, 0); ([1; 1; 8; 2]%nat, 0);
   ([1; 1; 8; 3]%nat, 0); ([1; 1; 8; 4]%nat, 0); ([1; 1; 8; 5]%nat, 0); ([1; 1; 8; 6]%nat, 0); ([1; 1; 8; 7]%nat, 0); ([1; 1; 8; 8]%nat, 0);
   ([1; 2; 0; 0]%nat, 0); ([1; 2; 0; 1]%nat, 0); ([1; 2; 0; 2]%nat, 0); ([1; 2; 0; 3]%nat, 0); ([1; 2; 0; 4]%nat, 0); ([1; 2; 0; 5]%nat, 0);
   ([1; 2; 0; 6]%nat, 0); ([1; 2; 0; 7]%nat, 0); ([1; 2; 0; 8]%nat, 0); ([1; 2; 1; 0]%nat, 0); ([1; 2; 1; 1]%nat, 0); ([1; 2; 1; 2]%nat, 0);
   ([1; 2; 1; 3]%nat, 0); ([1; 2; 1; 4]%nat, 0); ([1; 2; 1; 5]%nat, 0); ([1; 2; 1; 6]%nat, 0); ([1; 2; 1; 7]%nat, 0); ([1; 2; 1; 8]%nat, 0);
   ([1; 2; 2; 0]%nat, 0); ([1; 2; 2; 1]%nat, 0); ([1; 2; 2; 2]%nat, 0); ([1; 2; 2; 3]%nat, 0); ([1; 2; 2; 4]%nat, 0); ([1; 2; 2; 5]%nat, 0);
   ([1; 2; 2; 6]%nat, 0); ([1; 2; 2; 7]%nat, 0); ([1; 2; 2; 8]%nat, 0); ([1; 2; 3; 0]%nat, 0); ([1; 2; 3; 1]%nat, 0); ([1; 2; 3; 2]%nat, 0);
   ([1; 2; 3; 3]%nat, 0); ([1; 2; 3; 4]%nat, 0); ([1; 2; 3; 5]%nat, 0); ([1; 2; 3; 6]%nat, 0); ([1; 2; 3; 7]%nat, 0); ([1; 2; 3; 8]%nat, 0);
   ([1; 2; 4; 0]%nat, 0); ([1; 2; 4; 1]%nat, 0); ([1; 2; 4; 2]%nat, 0); ([1; 2; 4; 3]%nat, 0); ([1; 2; 4; 4]%nat, 0); ([1; 2; 4; 5]%nat, 0);
   ([1; 2; 4; 6]%nat, 0); ([1; 2; 4; 7]%nat, 0); ([1; 2; 4; 8]%nat, 0); ([1; 2; 5; 0]%nat, 0); ([1; 2; 5; 1]%nat, 0); ([1; 2; 5; 2]%nat, 0);
   ([1; 2; 5; 3]%nat, 0); ([1; 2; 5; 4]%nat, 0); ([1; 2; 5; 5]%nat, 0); ([1; 2; 5; 6]%nat, 0); ([1; 2; 5; 7]%nat, 0); ([1; 2; 5; 8]%nat, 0);
   ([1; 2; 6; 0]%nat, 0); ([1; 2; 6; 1]%nat, 0); ([1; 2; 6; 2]%nat, 0); ([1; 2; 6; 3]%nat, 0); ([1; 2; 6; 4]%nat, 0); ([1; 2; 6; 5]%nat, 0);
   ([1; 2; 6; 6]%nat, 0); ([1; 2; 6; 7]%nat, 0); ([1; 2; 6; 8]%nat, 0); ([1; 2; 7; 0]%nat, 0); ([1; 2; 7; 1]%nat, 0); ([1; 2; 7; 2]%nat, 0);
   ([1; 2; 7; 3]%nat, 0); ([1; 2; 7; 4]%nat, 0); ([1; 2; 7; 5]%nat, 0); ([1; 2; 7; 6]%nat, 0); ([1; 2; 7; 7]%nat, 0); ([1; 2; 7; 8]%nat, 0);
   ([1; 2; 8; 0]%nat, 0); ([1; 2; 8; 1]%nat, 0); ([1; 2; 8; 2]%nat, 0); ([1; 2; 8; 3]%nat, 0); ([1; 2; 8; 4]%nat, 0); ([1; 2; 8; 5]%nat, 0);
   ([1; 2; 8; 6]%nat, 0); ([1; 2; 8; 7]%nat, 0); ([1; 2; 8; 8]%nat, 0); ([1; 3; 0; 0]%nat, 0); ([1; 3; 0; 1]%nat, 0); ([1; 3; 0; 2]%nat, 0);
   ([1; 3; 0; 3]%nat, 0); ([1; 3; 0; 4]%nat, gs * g / 2); ([1; 3; 0; 5]%nat, 0); ([1; 3; 0; 6]%nat, 0); ([1; 3; 0; 7]%nat, 0); ([1; 3; 0; 8]%nat, 0);
   ([1; 3; 1; 0]%nat, 0); ([1; 3; 1; 1]%nat, 0); ([1; 3; 1; 2]%nat, 0); ([1; 3; 1; 3]%nat, 0); ([1; 3; 1; 4]%nat, 0); ([1; 3; 1; 5]%nat, gs * g / 2);
   ([1; 3; 1; 6]%nat, 0); ([1; 3; 1; 7]%nat, 0); ([1; 3; 1; 8]%nat, 0); ([1; 3; 2; 0]%nat, 0); ([1; 3; 2; 1]%nat, 0); ([1; 3; 2; 2]%nat, 0);
   ([1; 3; 2; 3]%nat, 0); ([1; 3; 2; 4]%nat, 0); ([1; 3; 2; 5]%nat, 0); ([1; 3; 2; 6]%nat, - gs * g / 2); ([1; 3; 2; 7]%nat, 0); ([1; 3; 2; 8]%nat, 0);
   ([1; 3; 3; 0]%nat, 0); ([1; 3; 3; 1]%nat, 0); ([1; 3; 3; 2]%nat, 0); ([1; 3; 3; 3]%nat, 0); ([1; 3; 3; 4]%nat, 0); ([1; 3; 3; 5]%nat, 0);
   ([1; 3; 3; 6]%nat, 0); ([1; 3; 3; 7]%nat, - gs * g / 2); ([1; 3; 3; 8]%nat, 0); ([1; 3; 4; 0]%nat, gs * g / 2); ([1; 3; 4; 1]%nat, 0); ([1; 3; 4; 2]%nat, 0);
   ([1; 3; 4; 3]%nat, 0); ([1; 3; 4; 4]%nat, 0); ([1; 3; 4; 5]%nat, 0); ([1; 3; 4; 6]%nat, 0); ([1; 3; 4; 7]%nat, 0); ([1; 3; 4; 8]%nat, 0);
   ([1; 3; 5; 0]%nat, 0); ([1; 3; 5; 1]%nat, gs * g / 2); ([1; 3; 5; 2]%nat, 0); ([1; 3; 5; 3]%nat, 0); ([1; 3; 5; 4]%nat, 0); ([1; 3; 5; 5]%nat, 0);
   ([1; 3; 5; 6]%nat, 0); ([1; 3; 5; 7]%nat, 0); ([1; 3; 5; 8]%nat, 0); ([1; 3; 6; 0]%nat, 0); ([1; 3; 6; 1]%nat, 0); ([1; 3; 6; 2]%nat, - gs * g / 2);
   ([1; 3; 6; 3]%nat, 0); ([1; 3; 6; 4]%nat, 0); ([1; 3; 6; 5]%nat, 0); ([1; 3; 6; 6]%nat, 0); ([1; 3; 6; 7]%nat, 0); ([1; 3; 6; 8]%nat, 0);
   ([1; 3; 7; 0]%nat, 0); ([1; 3; 7; 1]%nat, 0); ([1; 3; 7; 2]%nat, 0); ([1; 3; 7; 3]%nat, - gs * g / 2); ([1; 3; 7; 4]%nat, 0); ([1; 3; 7; 5]%nat, 0);
   ([1; 3; 7; 6]%nat, 0); ([1; 3; 7; 7]%nat, 0); ([1; 3; 7; 8]%nat, 0); ([1; 3; 8; 0]%nat, 0); ([1; 3; 8; 1]%nat, 0); ([1; 3; 8; 2]%nat, 0);
   ([1; 3; 8; 3]%nat, 0); ([1; 3; 8; 4]%nat, 0); ([1; 3; 8; 5]%nat, 0); ([1; 3; 8; 6]%nat, 0); ([1; 3; 8; 7]%nat, 0); ([1; 3; 8; 8]%nat, 0);
   ([2; 0; 0; 0]%nat, 0); ([2; 0; 0; 1]%nat, 0); ([2; 0; 0; 2]%nat, 0); ([2; 0; 0; 3]%nat, 0); ([2; 0; 0; 4]%nat, 0); ([2; 0; 0; 5]%nat, 0);
   ([2; 0; 0; 6]%nat, 0); ([2; 0; 0; 7]%nat, 0); ([2; 0; 0; 8]%nat, 0); ([2; 0; 1; 0]%nat, 0); ([2; 0; 1; 1]%nat, 0); ([2; 0; 1; 2]%nat, 0);
   ([2; 0; 1; 3]%nat, 0); ([2; 0; 1; 4]%nat, 0); ([2; 0; 1; 5]%nat, 0); ([2; 0; 1; 6]%nat, 0); ([2; 0; 1; 7]%nat, 0); ([2; 0; 1; 8]%nat, 0);
   ([2; 0; 2; 0]%nat, 0); ([2; 0; 2; 1]%nat, 0); ([2; 0; 2; 2]%nat, 0); ([2; 0; 2; 3]%nat, 0); ([2; 0; 2; 4]%nat, 0); ([2; 0; 2; 5]%nat, 0);
   ([2; 0; 2; 6]%nat, 0); ([2; 0; 2; 7]%nat, 0); ([2; 0; 2; 8]%nat, 0); ([2; 0; 3; 0]%nat, 0); ([2; 0; 3; 1]%nat, 0); ([2; 0; 3; 2]%nat, 0);
   ([2; 0; 3; 3]%nat, 0); ([2; 0; 3; 4]%nat, 0); ([2; 0; 3; 5]%nat, 0); ([2; 0; 3; 6]%nat, 0); ([2; 0; 3; 7]%nat, 0); ([2; 0; 3; 8]%nat, 0);
   ([2; 0; 4; 0]%nat, 0); ([2; 0; 4; 1]%nat, 0); ([2; 0; 4; 2]%nat, 0); ([2; 0; 4; 3]%nat, 0); ([2; 0; 4; 4]%nat, 0); ([2; 0; 4; 5]%nat, 0);
   ([2; 0; 4; 6]%nat, 0); ([2; 0; 4; 7]%nat, 0); ([2; 0; 4; 8]%nat, 0); ([2; 0; 5; 0]%nat, 0); ([2; 0; 5; 1]%nat, 0); ([2; 0; 5; 2]%nat, 0);
   ([2; 0; 5; 3]%nat, 0); ([2; 0; 5; 4]%nat, 0); ([2; 0; 5; 5]%nat, 0); ([2; 0; 5; 6]%nat, 0); ([2; 0; 5; 7]%nat, 0); ([2; 0; 5; 8]%nat, 0);
   ([2; 0; 6; 0]%nat, 0); ([2; 0; 6; 1]%nat, 0); ([2; 0; 6; 2]%nat, 0); ([2; 0; 6; 3]%nat, 0); ([2; 0; 6; 4]%nat, 0); ([2; 0; 6; 5]%nat, 0);
   ([2; 0; 6; 6]%nat, 0); ([2; 0; 6; 7]%nat, 0); ([2; 0; 6; 8]%nat, 0); ([2; 0; 7; 0]%nat, 0); ([2; 0; 7; 1]%nat, 0); ([2; 0; 7; 2]%nat, 0);
   ([2; 0; 7; 3]%nat, 0); ([2; 0; 7; 4]%nat, 0); ([2; 0; 7; 5]%nat, 0); ([2; 0; 7; 6]%nat, 0); ([2; 0; 7; 7]%nat, 0); ([2; 0; 7; 8]%nat, 0);
   ([2; 0; 8; 0]%nat, 0); ([2; 0; 8; 1]%nat, 0); ([2; 0; 8; 2]%nat, 0); ([2; 0; 8; 3]%nat, 0); ([2; 0; 8; 4]%nat, 0); ([2; 0; 8; 5]%nat, 0);
   ([2; 0; 8; 6]%nat, 0); ([2; 0; 8; 7]%nat, 0); ([2; 0; 8; 8]%nat, 0); ([2; 1; 0; 0]%nat, 0); ([2; 1; 0; 1]%nat, 0); ([2; 1; 0; 2]%nat, 0);
   ([2; 1; 0; 3]%nat, 0); ([2; 1; 0; 4]%nat, 0); ([2; 1; 0; 5]%nat, 0); ([2; 1; 0; 6]%nat, 0); ([2; 1; 0; 7]%nat, 0); ([2; 1; 0; 8]%nat, 0);
   ([2; 1; 1; 0]%nat, 0); ([2; 1; 1; 1]%nat, 0); ([2; 1; 1; 2]%nat, 0); ([2; 1; 1; 3]%nat, 0); ([2; 1; 1; 4]%nat, 0); ([2; 1; 1; 5]%nat, 0);
   ([2; 1; 1; 6]%nat, 0); ([2; 1; 1; 7]%nat, 0); ([2; 1; 1; 8]%nat, 0); ([2; 1; 2; 0]%nat, 0); ([2; 1; 2; 1]%nat, 0); ([2; 1; 2; 2]%nat, 0);
   ([2; 1; 2; 3]%nat, 0); ([2; 1; 2; 4]%nat, 0); ([2; 1; 2; 5]%nat, 0); ([2; 1; 2; 6]%nat, 0); ([2; 1; 2; 7]%nat, 0); ([2; 1; 2; 8]%nat, 0);
   ([2; 1; 3; 0]%nat, 0); ([2; 1; 3; 1]%nat, 0); ([2; 1; 3; 2]%nat, 0); ([2; 1; 3; 3]%nat, 0); ([2; 1; 3; 4]%nat, 0); ([2; 1; 3; 5]%nat, 0);
   ([2; 1; 3; 6]%nat, 0); ([2; 1; 3; 7]%nat, 0); ([2; 1; 3; 8]%nat, 0); ([2; 1; 4; 0]%nat, 0); ([2; 1; 4; 1]%nat, 0); ([2; 1; 4; 2]%nat, 0);
   ([2; 1; 4; 3]%nat, 0); ([2; 1; 4; 4]%nat, 0); ([2; 1; 4; 5]%nat, 0); ([2; 1; 4; 6]%nat, 0); ([2; 1; 4; 7]%nat, 0); ([2; 1; 4; 8]%nat, 0);
   ([2; 1; 5; 0]%nat, 0); ([2; 1; 5; 1]%nat, 0); ([2; 1; 5; 2]%nat, 0); ([2; 1; 5; 3]%nat, 0); ([2; 1; 5; 4]%nat, 0); ([2; 1; 5; 5]%nat, 0);
   ([2; 1; 5; 6]%nat, 0); ([2; 1; 5; 7]%nat, 0); ([2; 1; 5; 8]%nat, 0); ([2; 1; 6; 0]%nat, 0); ([2; 1; 6; 1]%nat, 0); ([2; 1; 6; 2]%nat, 0);
   ([2; 1; 6; 3]%nat, 0); ([2; 1; 6; 4]%nat, 0); ([2; 1; 6; 5]%nat, 0); ([2; 1; 6; 6]%nat, 0); ([2; 1; 6; 7]%nat, 0); ([2; 1; 6; 8]%nat, 0);
   ([2; 1; 7; 0]%nat, 0); ([2; 1; 7; 1]%nat, 0); ([2; 1; 7; 2]%nat, 0); ([2; 1; 7; 3]%nat, 0); ([2; 1; 7; 4]%nat, 0); ([2; 1; 7; 5]%nat, 0);
   ([2; 1; 7; 6]%nat, 0); ([2; 1; 7; 7]%nat, 0); ([2; 1; 7; 8]%nat, 0); ([2; 1; 8; 0]%nat, 0); ([2; 1; 8; 1]%nat, 0); ([2; 1; 8; 2]%nat, 0);
   ([2; 1; 8; 3]%nat, 0); ([2; 1; 8; 4]%nat, 0); ([2; 1; 8; 5]%nat, 0); ([2; 1; 8; 6]%nat, 0); ([2; 1; 8; 7]%nat, 0); ([2; 1; 8; 8]%nat, 0);
   ([2; 2; 0; 0]%nat, g * g / 2); ([2; 2; 0; 1]%nat, 0); ([2; 2; 0; 2]%nat, 0); ([2; 2; 0; 3]%nat, 0); ([2; 2; 0; 4]%nat, 0); ([2; 2; 0; 5]%nat, 0);
   ([2; 2; 0; 6]%nat, 0); ([2; 2; 0; 7]%nat, 0); ([2; 2; 0; 8]%nat, 0); ([2; 2; 1; 0]%nat, 0); ([2; 2; 1; 1]%nat, g * g / 2); ([2; 2; 1; 2]%nat, 0);
   ([2; 2; 1; 3]%nat, 0); ([2; 2; 1; 4]%nat, 0); ([2; 2; 1; 5]%nat, 0); ([2; 2; 1; 6]%nat, 0); ([2; 2; 1; 7]%nat, 0); ([2; 2; 1; 8]%nat, 0);
   ([2; 2; 2; 0]%nat, 0); ([2; 2; 2; 1]%nat, 0); ([2; 2; 2; 2]%nat, g * g / 2); ([2; 2; 2; 3]%nat, 0); ([2; 2; 2; 4]%nat, 0); ([2; 2; 2; 5]%nat, 0);
   ([2; 2; 2; 6]%nat, 0); ([2; 2; 2; 7]%nat, 0); ([2; 2; 2; 8]%nat, 0); ([2; 2; 3; 0]%nat, 0); ([2; 2; 3; 1]%nat, 0); ([2; 2; 3; 2]%nat, 0);
   ([2; 2; 3; 3]%nat, g * g / 2); ([2; 2; 3; 4]%nat, 0); ([2; 2; 3; 5]%nat, 0); ([2; 2; 3; 6]%nat, 0); ([2; 2; 3; 7]%nat, 0); ([2; 2; 3; 8]%nat, 0);
   ([2; 2; 4; 0]%nat, 0); ([2; 2; 4; 1]%nat, 0); ([2; 2; 4; 2]%nat, 0); ([2; 2; 4; 3]%nat, 0); ([2; 2; 4; 4]%nat, g * g / 2); ([2; 2; 4; 5]%nat, 0);
   ([2; 2; 4; 6]%nat, 0); ([2; 2; 4; 7]%nat, 0); ([2; 2; 4; 8]%nat, 0); ([2; 2; 5; 0]%nat, 0); ([2; 2; 5; 1]%nat, 0); ([2; 2; 5; 2]%nat, 0);
   ([2; 2; 5; 3]%nat, 0); ([2; 2; 5; 4]%nat, 0); ([2; 2; 5; 5]%nat, g * g / 2); ([2; 2; 5; 6]%nat, 0); ([2; 2; 5; 7]%nat, 0); ([2; 2; 5; 8]%nat, 0);
   ([2; 2; 6; 0]%nat, 0); ([2; 2; 6; 1]%nat, 0); ([2; 2; 6; 2]%nat, 0); ([2; 2; 6; 3]%nat, 0); ([2; 2; 6; 4]%nat, 0); ([2; 2; 6; 5]%nat, 0);
   ([2; 2; 6; 6]%nat, g * g / 2); ([2; 2; 6; 7]%nat, 0); ([2; 2; 6; 8]%nat, 0); ([2; 2; 7; 0]%nat, 0); ([2; 2; 7; 1]%nat, 0); ([2; 2; 7; 2]%nat, 0);
   ([2; 2; 7; 3]%nat, 0); ([2; 2; 7; 4]%nat, 0); ([2; 2; 7; 5]%nat, 0); ([2; 2; 7; 6]%nat, 0); ([2; 2; 7; 7]%nat, g * g / 2); ([2; 2; 7; 8]%nat, 0);
   ([2; 2; 8; 0]%nat, 0); ([2; 2; 8; 1]%nat, 0); ([2; 2; 8; 2]%nat, 0); ([2; 2; 8; 3]%nat, 0); ([2; 2; 8; 4]%nat, 0); ([2; 2; 8; 5]%nat, 0);
   ([2; 2; 8; 6]%nat, 0); ([2; 2; 8; 7]%nat, 0); ([2; 2; 8; 8]%nat, 0); ([2; 3; 0; 0]%nat, g * gs / 2); ([2; 3; 0; 1]%nat, 0); ([2; 3; 0; 2]%nat, 0);
   ([2; 3; 0; 3]%nat, 0); ([2; 3; 0; 4]%nat, 0); ([2; 3; 0; 5]%nat, 0); ([2; 3; 0; 6]%nat, 0); ([2; 3; 0; 7]%nat, 0); ([2; 3; 0; 8]%nat, 0);
   ([2; 3; 1; 0]%nat, 0); ([2; 3; 1; 1]%nat, g * gs / 2); ([2; 3; 1; 2]%nat, 0); ([2; 3; 1; 3]%nat, 0); ([2; 3; 1; 4]%nat, 0); ([2; 3; 1; 5]%nat, 0);
   ([2; 3; 1; 6]%nat, 0); ([2; 3; 1; 7]%nat, 0); ([2; 3; 1; 8]%nat, 0); ([2; 3; 2; 0]%nat, 0); ([2; 3; 2; 1]%nat, 0); ([2; 3; 2; 2]%nat, g * gs / 2);
   ([2; 3; 2; 3]%nat, 0); ([2; 3; 2; 4]%nat, 0); ([2; 3; 2; 5]%nat, 0); ([2; 3; 2; 6]%nat, 0); ([2; 3; 2; 7]%nat, 0); ([2; 3; 2; 8]%nat, 0);
   ([2; 3; 3; 0]%nat, 0); ([2; 3; 3; 1]%nat, 0); ([2; 3; 3; 2]%nat, 0); ([2; 3; 3; 3]%nat, g * gs / 2); ([2; 3; 3; 4]%nat, 0); ([2; 3; 3; 5]%nat, 0);
   ([2; 3; 3; 6]%nat, 0); ([2; 3; 3; 7]%nat, 0); ([2; 3; 3; 8]%nat, 0); ([2; 3; 4; 0]%nat, 0); ([2; 3; 4; 1]%nat, 0); ([2; 3; 4; 2]%nat, 0);
   ([2; 3; 4; 3]%nat, 0); ([2; 3; 4; 4]%nat, - g * gs / 2); ([2; 3; 4; 5]%nat, 0); ([2; 3; 4; 6]%nat, 0); ([2; 3; 4; 7]%nat, 0); ([2; 3; 4; 8]%nat, 0);
   ([2; 3; 5; 0]%nat, 0); ([2; 3; 5; 1]%nat, 0); ([2; 3; 5; 2]%nat, 0); ([2; 3; 5; 3]%nat, 0); ([2; 3; 5; 4]%nat, 0); ([2; 3; 5; 5]%nat, - g * gs / 2);
   ([2; 3; 5; 6]%nat, 0); ([2; 3; 5; 7]%nat, 0); ([2; 3; 5; 8]%nat, 0); ([2; 3; 6; 0]%nat, 0); ([2; 3; 6; 1]%nat, 0); ([2; 3; 6; 2]%nat, 0);
   ([2; 3; 6; 3]%nat, 0); ([2; 3; 6; 4]%nat, 0); ([2; 3; 6; 5]%nat, 0); ([2; 3; 6; 6]%nat, - g * gs / 2); ([2; 3; 6; 7]%nat, 0); ([2; 3; 6; 8]%nat, 0);
   ([2; 3; 7; 0]%nat, 0); ([2; 3; 7; 1]%nat, 0); ([2; 3; 7; 2]%nat, 0); ([2; 3; 7; 3]%nat, 0); ([2; 3; 7; 4]%nat, 0); ([2; 3; 7; 5]%nat, 0);
   ([2; 3; 7; 6]%nat, 0); ([2; 3; 7; 7]%nat, - g * gs / 2); ([2; 3; 7; 8]%nat, 0); ([2; 3; 8; 0]%nat, 0); ([2; 3; 8; 1]%nat, 0); ([2; 3; 8; 2]%nat, 0);
   ([2; 3; 8; 3]%nat, 0); ([2; 3; 8; 4]%nat, 0); ([2; 3; 8; 5]%nat, 0); ([2; 3; 8; 6]%nat, 0); ([2; 3; 8; 7]%nat, 0); ([2; 3; 8; 8]%nat, 0);
   ([3; 0; 0; 0]%nat, 0); ([3; 0; 0; 1]%nat, 0); ([3; 0; 0; 2]%nat, 0); ([3; 0; 0; 3]%nat, 0); ([3; 0; 0; 4]%nat, 0); ([3; 0; 0; 5]%nat, 0);
   ([3; 0; 0; 6]%nat, gs * g / 2); ([3; 0; 0; 7]%nat, 0); ([3; 0; 0; 8]%nat, 0); ([3; 0; 1; 0]%nat, 0); ([3; 0; 1; 1]%nat, 0); ([3; 0; 1; 2]%nat, 0);
   ([3; 0; 1; 3]%nat, 0); ([3; 0; 1; 4]%nat, 0); ([3; 0; 1; 5]%nat, 0); ([3; 0; 1; 6]%nat, 0); ([3; 0; 1; 7]%nat, gs * g / 2); ([3; 0; 1; 8]%nat, 0);
   ([3; 0; 2; 0]%nat, 0); ([3; 0; 2; 1]%nat, 0); ([3; 0; 2; 2]%nat, 0); ([3; 0; 2; 3]%nat, 0); ([3; 0; 2; 4]%nat, gs * g / 2); ([3; 0; 2; 5]%nat, 0);
   ([3; 0; 2; 6]%nat, 0); ([3; 0; 2; 7]%nat, 0); ([3; 0; 2; 8]%nat, 0); ([3; 0; 3; 0]%nat, 0); ([3; 0; 3; 1]%nat, 0); ([3; 0; 3; 2]%nat, 0);
   ([3; 0; 3; 3]%nat, 0); ([3; 0; 3; 4]%nat, 0); ([3; 0; 3; 5]%nat, gs * g / 2); ([3; 0; 3; 6]%nat, 0); ([3; 0; 3; 7]%nat, 0); ([3; 0; 3; 8]%nat, 0);
   ([3; 0; 4; 0]%nat, 0); ([3; 0; 4; 1]%nat, 0); ([3; 0; 4; 2]%nat, gs * g / 2); ([3; 0; 4; 3]%nat, 0); ([3; 0; 4; 4]%nat, 0); ([3; 0; 4; 5]%nat, 0);
   ([3; 0; 4; 6]%nat, 0); ([3; 0; 4; 7]%nat, 0); ([3; 0; 4; 8]%nat, 0); ([3; 0; 5; 0]%nat, 0); ([3; 0; 5; 1]%nat, 0); ([3; 0; 5; 2]%nat, 0);
   ([3; 0; 5; 3]%nat, gs * g / 2); ([3; 0; 5; 4]%nat, 0); ([3; 0; 5; 5]%nat, 0); ([3; 0; 5; 6]%nat, 0); ([3; 0; 5; 7]%nat, 0); ([3; 0; 5; 8]%nat, 0);
   ([3; 0; 6; 0]%nat, gs * g / 2); ([3; 0; 6; 1]%nat, 0); ([3; 0; 6; 2]%nat, 0); ([3; 0; 6; 3]%nat, 0); ([3; 0; 6; 4]%nat, 0); ([3; 0; 6; 5]%nat, 0);
   ([3; 0; 6; 6]%nat, 0); ([3; 0; 6; 7]%nat, 0); ([3; 0; 6; 8]%nat, 0); ([3; 0; 7; 0]%nat, 0); ([3; 0; 7; 1]%nat, gs * g / 2); ([3; 0; 7; 2]%nat, 0);
   ([3; 0; 7; 3]%nat, 0); ([3; 0; 7; 4]%nat, 0); ([3; 0; 7; 5]%nat, 0); ([3; 0; 7; 6]%nat, 0); ([3; 0; 7; 7]%nat, 0); ([3; 0; 7; 8]%nat, 0);
   ([3; 0; 8; 0]%nat, 0); ([3; 0; 8; 1]%nat, 0); ([3; 0; 8; 2]%nat, 0); ([3; 0; 8; 3]%nat, 0); ([3; 0; 8; 4]%nat, 0); ([3; 0; 8; 5]%nat, 0);
   ([3; 0; 8; 6]%nat, 0); ([3; 0; 8; 7]%nat, 0); ([3; 0; 8; 8]%nat, 0); ([3; 1; 0; 0]%nat, 0); ([3; 1; 0; 1]%nat, 0); ([3; 1; 0; 2]%nat, 0);
   ([3; 1; 0; 3]%nat, 0); ([3; 1; 0; 4]%nat, gs * g / 2); ([3; 1; 0; 5]%nat, 0); ([3; 1; 0; 6]%nat, 0); ([3; 1; 0; 7]%nat, 0); ([3; 1; 0; 8]%nat, 0);
   ([3; 1; 1; 0]%nat, 0); ([3; 1; 1; 1]%nat, 0); ([3; 1; 1; 2]%nat, 0); ([3; 1; 1; 3]%nat, 0); ([3; 1; 1; 4]%nat, 0); ([3; 1; 1; 5]%nat, gs * g / 2);
   ([3; 1; 1; 6]%nat, 0); ([3; 1; 1; 7]%nat, 0); ([3; 1; 1; 8]%nat, 0); ([3; 1; 2; 0]%nat, 0); ([3; 1; 2; 1]%nat, 0); ([3; 1; 2; 2]%nat, 0);
   ([3; 1; 2; 3]%nat, 0); ([3; 1; 2; 4]%nat, 0); ([3; 1; 2; 5]%nat, 0); ([3; 1; 2; 6]%nat, - gs * g / 2); ([3; 1; 2; 7]%nat, 0); ([3; 1; 2; 8]%nat, 0);
   ([3; 1; 3; 0]%nat, 0); ([3; 1; 3; 1]%nat, 0); ([3; 1; 3; 2]%nat, 0); ([3; 1; 3; 3]%nat, 0); ([3; 1; 3; 4]%nat, 0); ([3; 1; 3; 5]%nat, 0);
   ([3; 1; 3; 6]%nat, 0); ([3; 1; 3; 7]%nat, - gs * g / 2); ([3; 1; 3; 8]%nat, 0); ([3; 1; 4; 0]%nat, gs * g / 2); ([3; 1; 4; 1]%nat, 0); ([3; 1; 4; 2]%nat, 0);
   ([3; 1; 4; 3]%nat, 0); ([3; 1; 4; 4]%nat, 0); ([3; 1; 4; 5]%nat, 0); ([3; 1; 4; 6]%nat, 0); ([3; 1; 4; 7]%nat, 0); ([3; 1; 4; 8]%nat, 0);
   ([3; 1; 5; 0]%nat, 0); ([3; 1; 5; 1]%nat, gs * g / 2); ([3; 1; 5; 2]%nat, 0); ([3; 1; 5; 3]%nat, 0); ([3; 1; 5; 4]%nat, 0); ([3; 1; 5; 5]%nat, 0);
   ([3; 1; 5; 6]%nat, 0); ([3; 1; 5; 7]%nat, 0); ([3; 1; 5; 8]%nat, 0); ([3; 1; 6; 0]%nat, 0); ([3; 1; 6; 1]%nat, 0); ([3; 1; 6; 2]%nat, - gs * g / 2);
   ([3; 1; 6; 3]%nat, 0); ([3; 1; 6; 4]%nat, 0); ([3; 1; 6; 5]%nat, 0); ([3; 1; 6; 6]%nat, 0); ([3; 1; 6; 7]%nat, 0); ([3; 1; 6; 8]%nat, 0);
   ([3; 1; 7; 0]%nat, 0); ([3; 1; 7; 1]%nat, 0); ([3; 1; 7; 2]%nat, 0); ([3; 1; 7; 3]%nat, - gs * g / 2); ([3; 1; 7; 4]%nat, 0); ([3; 1; 7; 5]%nat, 0);
   ([3; 1; 7; 6]%nat, 0); ([3; 1; 7; 7]%nat, 0); ([3; 1; 7; 8]%nat, 0); ([3; 1; 8; 0]%nat, 0); ([3; 1; 8; 1]%nat, 0); ([3; 1; 8; 2]%nat, 0);
   ([3; 1; 8; 3]%nat, 0); ([3; 1; 8; 4]%nat, 0); ([3; 1; 8; 5]%nat, 0); ([3; 1; 8; 6]%nat, 0); ([3; 1; 8; 7]%nat, 0); ([3; 1; 8; 8]%nat, 0);
   ([3; 2; 0; 0]%nat, g * gs / 2); ([3; 2; 0; 1]%nat, 0); ([3; 2; 0; 2]%nat, 0); ([3; 2; 0; 3]%nat, 0); ([3; 2; 0; 4]%nat, 0); ([3; 2; 0; 5]%nat, 0);
   ([3; 2; 0; 6]%nat, 0); ([3; 2; 0; 7]%nat, 0); ([3; 2; 0; 8]%nat, 0); ([3; 2; 1; 0]%nat, 0); ([3; 2; 1; 1]%nat, g * gs / 2); ([3; 2; 1; 2]%nat, 0);
   ([3; 2; 1; 3]%nat, 0); ([3; 2; 1; 4]%nat, 0); ([3; 2; 1; 5]%nat, 0); ([3; 2; 1; 6]%nat, 0); ([3; 2; 1; 7]%nat, 0); ([3; 2; 1; 8]%nat, 0);
   ([3; 2; 2; 0]%nat, 0); ([3; 2; 2; 1]%nat, 0); ([3; 2; 2; 2]%nat, g * gs / 2); ([3; 2; 2; 3]%nat, 0); ([3; 2; 2; 4]%nat, 0); ([3; 2; 2; 5]%nat, 0);
   ([3; 2; 2; 6]%nat, 0); ([3; 2; 2; 7]%nat, 0); ([3; 2; 2; 8]%nat, 0); ([3; 2; 3; 0]%nat, 0); ([3; 2; 3; 1]%nat, 0); ([3; 2; 3; 2]%nat, 0);
   ([3; 2; 3; 3]%nat, g * gs / 2); ([3; 2; 3; 4]%nat, 0); ([3; 2; 3; 5]%nat, 0); ([3; 2; 3; 6]%nat, 0); ([3; 2; 3; 7]%nat, 0); ([3; 2; 3; 8]%nat, 0);
   ([3; 2; 4; 0]%nat, 0); ([3; 2; 4; 1]%nat, 0); ([3; 2; 4; 2]%nat, 0); ([3; 2; 4; 3]%nat, 0); ([3; 2; 4; 4]%nat, - g * gs / 2); ([3; 2; 4; 5]%nat, 0);
   ([3; 2; 4; 6]%nat, 0); ([3; 2; 4; 7]%nat, 0); ([3; 2; 4; 8]%nat, 0); ([3; 2; 5; 0]%nat, 0); ([3; 2; 5; 1]%nat, 0); ([3; 2; 5; 2]%nat, 0);
   ([3; 2; 5; 3]%nat, 0); ([3; 2; 5; 4]%nat, 0); ([3; 2; 5; 5]%nat, - g * gs / 2); ([3; 2; 5; 6]%nat, 0); ([3; 2; 5; 7]%nat, 0); ([3; 2; 5; 8]%nat, 0);
   ([3; 2; 6; 0]%nat, 0); ([3; 2; 6; 1]%nat, 0); ([3; 2; 6; 2]%nat, 0); ([3; 2; 6; 3]%nat, 0); ([3; 2; 6; 4]%nat, 0); ([3; 2; 6; 5]%nat, 0);
   ([3; 2; 6; 6]%nat, - g * gs / 2); ([3; 2; 6; 7]%nat, 0); ([3; 2; 6; 8]%nat, 0); ([3; 2; 7; 0]%nat, 0); ([3; 2; 7; 1]%nat, 0); ([3; 2; 7; 2]%nat, 0);
   ([3; 2; 7; 3]%nat, 0); ([3; 2; 7; 4]%nat, 0); ([3; 2; 7; 5]%nat, 0); ([3; 2; 7; 6]%nat, 0); ([3; 2; 7; 7]%nat, - g * gs / 2); ([3; 2; 7; 8]%nat, 0);
   ([3; 2; 8; 0]%nat, 0); ([3; 2; 8; 1]%nat, 0); ([3; 2; 8; 2]%nat, 0); ([3; 2; 8; 3]%nat, 0); ([3; 2; 8; 4]%nat, 0); ([3; 2; 8; 5]%nat, 0);
   ([3; 2; 8; 6]%nat, 0); ([3; 2; 8; 7]%nat, 0); ([3; 2; 8; 8]%nat, 0); ([3; 3; 0; 0]%nat, gs * gs / 2); ([3; 3; 0; 1]%nat, 0); ([3; 3; 0; 2]%nat, 0);
   ([3; 3; 0; 3]%nat, 0); ([3; 3; 0; 4]%nat, 0); ([3; 3; 0; 5]%nat, 0); ([3; 3; 0; 6]%nat, 0); ([3; 3; 0; 7]%nat, 0); ([3; 3; 0; 8]%nat, 0);
   ([3; 3; 1; 0]%nat, 0); ([3; 3; 1; 1]%nat, gs * gs / 2); ([3; 3; 1; 2]%nat, 0); ([3; 3; 1; 3]%nat, 0); ([3; 3; 1; 4]%nat, 0); ([3; 3; 1; 5]%nat, 0);
   ([3; 3; 1; 6]%nat, 0); ([3; 3; 1; 7]%nat, 0); ([3; 3; 1; 8]%nat, 0); ([3; 3; 2; 0]%nat, 0); ([3; 3; 2; 1]%nat, 0); ([3; 3; 2; 2]%nat, gs * gs / 2);
   ([3; 3; 2; 3]%nat, 0); ([3; 3; 2; 4]%nat, 0); ([3; 3; 2; 5]%nat, 0); ([3; 3; 2; 6]%nat, 0); ([3; 3; 2; 7]%nat, 0); ([3; 3; 2; 8]%nat, 0);
   ([3; 3; 3; 0]%nat, 0); ([3; 3; 3; 1]%nat, 0); ([3; 3; 3; 2]%nat, 0); ([3; 3; 3; 3]%nat, gs * gs / 2); ([3; 3; 3; 4]%nat, 0); ([3; 3; 3; 5]%nat, 0);
   ([3; 3; 3; 6]%nat, 0); ([3; 3; 3; 7]%nat, 0); ([3; 3; 3; 8]%nat, 0); ([3; 3; 4; 0]%nat, 0); ([3; 3; 4; 1]%nat, 0); ([3; 3; 4; 2]%nat, 0);
   ([3; 3; 4; 3]%nat, 0); ([3; 3; 4; 4]%nat, gs * gs / 2); ([3; 3; 4; 5]%nat, 0); ([3; 3; 4; 6]%nat, 0); ([3; 3; 4; 7]%nat, 0); ([3; 3; 4; 8]%nat, 0);
   ([3; 3; 5; 0]%nat, 0); ([3; 3; 5; 1]%nat, 0); ([3; 3; 5; 2]%nat, 0); ([3; 3; 5; 3]%nat, 0); ([3; 3; 5; 4]%nat, 0); ([3; 3; 5; 5]%nat, gs * gs / 2);
   ([3; 3; 5; 6]%nat, 0); ([3; 3; 5; 7]%nat, 0); ([3; 3; 5; 8]%nat, 0); ([3; 3; 6; 0]%nat, 0); ([3; 3; 6; 1]%nat, 0); ([3; 3; 6; 2]%nat, 0);
   ([3; 3; 6; 3]%nat, 0); ([3; 3; 6; 4]%nat, 0); ([3; 3; 6; 5]%nat, 0); ([3; 3; 6; 6]%nat, gs * gs / 2); ([3; 3; 6; 7]%nat, 0); ([3; 3; 6; 8]%nat, 0);
   ([3; 3; 7; 0]%nat, 0); ([3; 3; 7; 1]%nat, 0); ([3; 3; 7; 2]%nat, 0); ([3; 3; 7; 3]%nat, 0); ([3; 3; 7; 4]%nat, 0); ([3; 3; 7; 5]%nat, 0);
   ([3; 3; 7; 6]%nat, 0); ([3; 3; 7; 7]%nat, gs * gs / 2); ([3; 3; 7; 8]%nat, 0); ([3; 3; 8; 0]%nat, 0); ([3; 3; 8; 1]%nat, 0); ([3; 3; 8; 2]%nat, 0);
   ([3; 3; 8; 3]%nat, 0); ([3; 3; 8; 4]%nat, 0); ([3; 3; 8; 5]%nat, 0); ([3; 3; 8; 6]%nat, 0); ([3; 3; 8; 7]%nat, 0); ([3; 3; 8; 8]%nat, 0)].

(** SetCurvatureArrays, ClassPotentialCPintheDark.cpp 1994-2096 *)
Definition CPintheDark_G2H2 (g gs : R) : table :=
  [
   ([0; 0; 0; 0]%nat, g * g / 2); ([0; 0; 1; 1]%nat, g * g / 2); ([0; 0; 2; 2]%nat, g * g / 2); ([0; 0; 3; 3]%nat, g * g / 2); ([0; 0; 4; 4]%nat, g * g / 2);
([0; 0; 5; 5]%nat, g * g / 2);
   ([0; 0; 6; 6]%nat, g * g / 2); ([0; 0; 7; 7]%nat, g * g / 2); ([0; 3; 0; 4]%nat, gs * g / 2); ([0; 3; 1; 5]%nat, gs * g / 2); ([0; 3; 2; 6]%nat, gs * g /
2); ([0; 3; 3; 7]%nat, gs * g / 2);
   ([0; 3; 4; 0]%nat, gs * g / 2); ([0; 3; 5; 1]%nat, gs * g / 2); ([0; 3; 6; 2]%nat, gs * g / 2); ([0; 3; 7; 3]%nat, gs * g / 2); ([1; 1; 0; 0]%nat, g * g /
2); ([1; 1; 1; 1]%nat, g * g / 2);
   ([1; 1; 2; 2]%nat, g * g / 2); ([1; 1; 3; 3]%nat, g * g / 2); ([1; 1; 4; 4]%nat, g * g / 2); ([1; 1; 5; 5]%nat, g * g / 2); ([1; 1; 6; 6]%nat, g * g / 2);
([1; 1; 7; 7]%nat, g * g / 2);
   ([1; 3; 0; 5]%nat, gs * g / 2); ([1; 3; 1; 4]%nat, - gs * g / 2); ([1; 3; 2; 7]%nat, gs * g / 2); ([1; 3; 3; 6]%nat, - gs * g / 2); ([1; 3; 4; 1]%nat, - gs
* g / 2); ([1; 3; 5; 0]%nat, gs * g / 2);
   ([1; 3; 6; 3]%nat, - gs * g / 2); ([1; 3; 7; 2]%nat, gs * g / 2); ([2; 2; 0; 0]%nat, g * g / 2); ([2; 2; 1; 1]%nat, g * g / 2); ([2; 2; 2; 2]%nat, g * g /
2); ([2; 2; 3; 3]%nat, g * g / 2);
   ([2; 2; 4; 4]%nat, g * g / 2); ([2; 2; 5; 5]%nat, g * g / 2); ([2; 2; 6; 6]%nat, g * g / 2); ([2; 2; 7; 7]%nat, g * g / 2); ([2; 3; 0; 0]%nat, gs * g / 2);
([2; 3; 1; 1]%nat, gs * g / 2);
   ([2; 3; 2; 2]%nat, gs * g / 2); ([2; 3; 3; 3]%nat, gs * g / 2); ([2; 3; 4; 4]%nat, - gs * g / 2); ([2; 3; 5; 5]%nat, - gs * g / 2); ([2; 3; 6; 6]%nat, - gs
* g / 2); ([2; 3; 7; 7]%nat, - gs * g / 2);
   ([3; 0; 0; 4]%nat, gs * g / 2); ([3; 0; 1; 5]%nat, gs * g / 2); ([3; 0; 2; 6]%nat, gs * g / 2); ([3; 0; 3; 7]%nat, gs * g / 2); ([3; 0; 4; 0]%nat, gs * g /
2); ([3; 0; 5; 1]%nat, gs * g / 2);
   ([3; 0; 6; 2]%nat, gs * g / 2); ([3; 0; 7; 3]%nat, gs * g / 2); ([3; 1; 0; 5]%nat, gs * g / 2); ([3; 1; 1; 4]%nat, - gs * g / 2); ([3; 1; 2; 7]%nat, gs * g
/ 2); ([3; 1; 3; 6]%nat, - gs * g / 2);
   ([3; 1; 4; 1]%nat, - gs * g / 2); ([3; 1; 5; 0]%nat, gs * g / 2); ([3; 1; 6; 3]%nat, - gs * g / 2); ([3; 1; 7; 2]%nat, gs * g / 2); ([3; 2; 0; 0]%nat, gs *
g / 2); ([3; 2; 1; 1]%nat, gs * g / 2);
   ([3; 2; 2; 2]%nat, gs * g / 2); ([3; 2; 3; 3]%nat, gs * g / 2); ([3; 2; 4; 4]%nat, - gs * g / 2); ([3; 2; 5; 5]%nat, - gs * g / 2); ([3; 2; 6; 6]%nat, - gs
* g / 2); ([3; 2; 7; 7]%nat, - gs * g / 2);
   ([3; 3; 0; 0]%nat, gs * gs / 2); ([3; 3; 1; 1]%nat, gs * gs / 2); ([3; 3; 2; 2]%nat, gs * gs / 2); ([3; 3; 3; 3]%nat, gs * gs / 2); ([3; 3; 4; 4]%nat, gs *
gs / 2); ([3; 3; 5; 5]%nat, gs * gs / 2);
   ([3; 3; 6; 6]%nat, gs * gs / 2); ([3; 3; 7; 7]%nat, gs * gs / 2)].

(** GaugeMassesSquared, ClassPotentialOrigin.cpp 2548-2574, before the eigenvalues: the mass matrix for v with NHiggs entries; the lower
    triangle is copied from the upper one *)
Definition gauge_mass (n : nat) (G : tensor R) (DebyeGauge : nat -> nat -> R) (v : list R) (Temp : R) (a b : nat) : R :=
  let m a b := accum n (fun i r => accum n (fun j r => r + 1 / 2 * G [a; b; i; j] * nth i v 0 * nth j v 0) r) 0
               + (if Req_EM_T Temp 0 then 0 else DebyeGauge a b * Temp ^ 2) in
  if Nat.ltb b a then m b a else m a b.
