(** The couplings of two fermions to a scalar, Curvature_Quark_F2H1 and Curvature_Lepton_F2H1, of the six models, and the fermion mass matrices.
    Doubles are real numbers, std::complex<double> is [C]. *)
From Coq Require Import Reals ZArith List.
From Coquelicot Require Import Complex.
From Verif.Model Require Import Base Potential Tables SMConst.
Import ListNotations.
Open Scope R_scope.

(** the mixing matrix C_Vud, C_Vus, .. C_Vtb, SMParam.cpp 17-37; V11 .. V33 in ClassPotentialSM.cpp 446-455 and the other models *)
Definition CKM (K : constants) (i j : nat) : C :=
  match i, j with
  | 0, 0 => V11 K | 0, 1 => V12 K | 0, _ => V13 K
  | 1, 0 => V21 K | 1, 1 => V22 K | 1, _ => V23 K
  | _, 0 => V31 K | _, 1 => V32 K | _, _ => V33 K
  end%nat.

(** a sequence of assignments [Curvature_Quark_F2H1[i][j][k] = x;] in program order *)
Definition ctable : Type := list (list nat * C).
(** allocated with zeros: initVectors, ClassPotentialOrigin.cpp 3371-3384 *)
Definition czero : tensor C := fun _ => RtoC 0.
Definition cassign (tab : ctable) : tensor C := fold_left (fun T e => upd T (fst e) (snd e)) tab czero.

(** SetCurvatureArrays, ClassPotentialSM.cpp 493-610 *)
Definition SM_quarks (K : constants) (v : R) : ctable :=
  [
   ([0; 6; 2]%nat, (RtoC 1 / RtoC v * RtoC (MassUp K))%C); ([0; 6; 3]%nat, (-Ci / RtoC v * RtoC (MassUp K))%C); ([0; 9; 0]%nat, (-RtoC 1 / RtoC v * RtoC (MassUp K) * Cconj (V11 K))%C);
   ([0; 9; 1]%nat, (Ci / RtoC v * RtoC (MassUp K) * Cconj (V11 K))%C); ([0; 10; 0]%nat, (-RtoC 1 / RtoC v * RtoC (MassUp K) * Cconj (V12 K))%C); ([0; 10; 1]%nat, (Ci / RtoC v * RtoC (MassUp K) * Cconj (V12 K))%C);
   ([0; 11; 0]%nat, (-RtoC 1 / RtoC v * RtoC (MassUp K) * Cconj (V13 K))%C); ([0; 11; 1]%nat, (Ci / RtoC v * RtoC (MassUp K) * Cconj (V13 K))%C); ([1; 7; 2]%nat, (RtoC 1 / RtoC v * RtoC (MassCharm K))%C);
   ([1; 7; 3]%nat, (-Ci / RtoC v * RtoC (MassCharm K))%C); ([1; 9; 0]%nat, (-RtoC 1 / RtoC v * RtoC (MassCharm K) * Cconj (V21 K))%C); ([1; 9; 1]%nat, (Ci / RtoC v * RtoC (MassCharm K) * Cconj (V21 K))%C);
   ([1; 10; 0]%nat, (-RtoC 1 / RtoC v * RtoC (MassCharm K) * Cconj (V22 K))%C); ([1; 10; 1]%nat, (Ci / RtoC v * RtoC (MassCharm K) * Cconj (V22 K))%C); ([1; 11; 0]%nat, (-RtoC 1 / RtoC v * RtoC (MassCharm K) * Cconj (V23 K))%C);
   ([1; 11; 1]%nat, (Ci / RtoC v * RtoC (MassCharm K) * Cconj (V23 K))%C); ([2; 8; 2]%nat, (RtoC 1 / RtoC v * RtoC (MassTop K))%C); ([2; 8; 3]%nat, (-Ci / RtoC v * RtoC (MassTop K))%C);
   ([2; 9; 0]%nat, (-RtoC 1 / RtoC v * RtoC (MassTop K) * Cconj (V31 K))%C); ([2; 9; 1]%nat, (Ci / RtoC v * RtoC (MassTop K) * Cconj (V31 K))%C); ([2; 10; 0]%nat, (-RtoC 1 / RtoC v * RtoC (MassTop K) * Cconj (V32 K))%C);
   ([2; 10; 1]%nat, (Ci / RtoC v * RtoC (MassTop K) * Cconj (V32 K))%C); ([2; 11; 0]%nat, (-RtoC 1 / RtoC v * RtoC (MassTop K) * Cconj (V33 K))%C); ([2; 11; 1]%nat, (Ci / RtoC v * RtoC (MassTop K) * Cconj (V33 K))%C);
   ([3; 6; 0]%nat, (RtoC 1 / RtoC v * RtoC (MassDown K) * V11 K)%C); ([3; 6; 1]%nat, (Ci / RtoC v * RtoC (MassDown K) * V11 K)%C); ([3; 7; 0]%nat, (V21 K / RtoC v * RtoC (MassDown K))%C);
   ([3; 7; 1]%nat, (Ci * V21 K / RtoC v * RtoC (MassDown K))%C); ([3; 8; 0]%nat, (RtoC 1 / RtoC v * RtoC (MassDown K) * V31 K)%C); ([3; 8; 1]%nat, (Ci / RtoC v * RtoC (MassDown K) * V31 K)%C);
   ([3; 9; 2]%nat, (RtoC 1 / RtoC v * RtoC (MassDown K))%C); ([3; 9; 3]%nat, (Ci / RtoC v * RtoC (MassDown K))%C); ([4; 6; 0]%nat, (RtoC 1 / RtoC v * RtoC (MassStrange K) * V12 K)%C);
   ([4; 6; 1]%nat, (Ci / RtoC v * RtoC (MassStrange K) * V12 K)%C); ([4; 7; 0]%nat, (V22 K / RtoC v * RtoC (MassStrange K))%C); ([4; 7; 1]%nat, (Ci * V22 K / RtoC v * RtoC (MassStrange K))%C);
   ([4; 8; 0]%nat, (RtoC 1 / RtoC v * RtoC (MassStrange K) * V32 K)%C); ([4; 8; 1]%nat, (Ci / RtoC v * RtoC (MassStrange K) * V32 K)%C); ([4; 10; 2]%nat, (RtoC 1 / RtoC v * RtoC (MassStrange K))%C);
   ([4; 10; 3]%nat, (Ci / RtoC v * RtoC (MassStrange K))%C); ([5; 6; 0]%nat, (V13 K / RtoC v * RtoC (MassBottom K))%C); ([5; 6; 1]%nat, (Ci / RtoC v * RtoC (MassBottom K) * V13 K)%C);
   ([5; 7; 0]%nat, (V23 K / RtoC v * RtoC (MassBottom K))%C); ([5; 7; 1]%nat, (Ci / RtoC v * RtoC (MassBottom K) * V23 K)%C); ([5; 8; 0]%nat, (V33 K / RtoC v * RtoC (MassBottom K))%C);
   ([5; 8; 1]%nat, (Ci / RtoC v * RtoC (MassBottom K) * V33 K)%C); ([5; 11; 2]%nat, (RtoC 1 / RtoC v * RtoC (MassBottom K))%C); ([5; 11; 3]%nat, (Ci / RtoC v * RtoC (MassBottom K))%C);
   ([6; 0; 2]%nat, (RtoC 1 / RtoC v * RtoC (MassUp K))%C); ([6; 0; 3]%nat, (-Ci / RtoC v * RtoC (MassUp K))%C); ([6; 3; 0]%nat, (RtoC 1 / RtoC v * RtoC (MassDown K) * V11 K)%C);
   ([6; 3; 1]%nat, (Ci / RtoC v * RtoC (MassDown K) * V11 K)%C); ([6; 4; 0]%nat, (RtoC 1 / RtoC v * RtoC (MassStrange K) * V12 K)%C); ([6; 4; 1]%nat, (Ci / RtoC v * RtoC (MassStrange K) * V12 K)%C);
   ([6; 5; 0]%nat, (V13 K / RtoC v * RtoC (MassBottom K))%C); ([6; 5; 1]%nat, (Ci / RtoC v * RtoC (MassBottom K) * V13 K)%C); ([7; 1; 2]%nat, (RtoC 1 / RtoC v * RtoC (MassCharm K))%C);
   ([7; 1; 3]%nat, (-Ci / RtoC v * RtoC (MassCharm K))%C); ([7; 3; 0]%nat, (V21 K / RtoC v * RtoC (MassDown K))%C); ([7; 3; 1]%nat, (Ci * V21 K / RtoC v * RtoC (MassDown K))%C);
   ([7; 4; 0]%nat, (V22 K / RtoC v * RtoC (MassStrange K))%C); ([7; 4; 1]%nat, (Ci * V22 K / RtoC v * RtoC (MassStrange K))%C); ([7; 5; 0]%nat, (V23 K / RtoC v * RtoC (MassBottom K))%C);
   ([7; 5; 1]%nat, (Ci / RtoC v * RtoC (MassBottom K) * V23 K)%C); ([8; 2; 2]%nat, (RtoC 1 / RtoC v * RtoC (MassTop K))%C); ([8; 2; 3]%nat, (-Ci / RtoC v * RtoC (MassTop K))%C);
   ([8; 3; 0]%nat, (RtoC 1 / RtoC v * RtoC (MassDown K) * V31 K)%C); ([8; 3; 1]%nat, (Ci / RtoC v * RtoC (MassDown K) * V31 K)%C); ([8; 4; 0]%nat, (RtoC 1 / RtoC v * RtoC (MassStrange K) * V32 K)%C);
   ([8; 4; 1]%nat, (Ci / RtoC v * RtoC (MassStrange K) * V32 K)%C); ([8; 5; 0]%nat, (V33 K / RtoC v * RtoC (MassBottom K))%C); ([8; 5; 1]%nat, (Ci / RtoC v * RtoC (MassBottom K) * V33 K)%C);
   ([9; 0; 0]%nat, (-RtoC 1 / RtoC v * RtoC (MassUp K) * Cconj (V11 K))%C); ([9; 0; 1]%nat, (Ci / RtoC v * RtoC (MassUp K) * Cconj (V11 K))%C); ([9; 1; 0]%nat, (-RtoC 1 / RtoC v * RtoC (MassCharm K) * Cconj (V21 K))%C);
   ([9; 1; 1]%nat, (Ci / RtoC v * RtoC (MassCharm K) * Cconj (V21 K))%C); ([9; 2; 0]%nat, (-RtoC 1 / RtoC v * RtoC (MassTop K) * Cconj (V31 K))%C); ([9; 2; 1]%nat, (Ci / RtoC v * RtoC (MassTop K) * Cconj (V31 K))%C);
   ([9; 3; 2]%nat, (RtoC 1 / RtoC v * RtoC (MassDown K))%C); ([9; 3; 3]%nat, (Ci / RtoC v * RtoC (MassDown K))%C); ([10; 0; 0]%nat, (-RtoC 1 / RtoC v * RtoC (MassUp K) * Cconj (V12 K))%C);
   ([10; 0; 1]%nat, (Ci / RtoC v * RtoC (MassUp K) * Cconj (V12 K))%C); ([10; 1; 0]%nat, (-RtoC 1 / RtoC v * RtoC (MassCharm K) * Cconj (V22 K))%C); ([10; 1; 1]%nat, (Ci / RtoC v * RtoC (MassCharm K) * Cconj (V22 K))%C);
   ([10; 2; 0]%nat, (-RtoC 1 / RtoC v * RtoC (MassTop K) * Cconj (V32 K))%C); ([10; 2; 1]%nat, (Ci / RtoC v * RtoC (MassTop K) * Cconj (V32 K))%C); ([10; 4; 2]%nat, (RtoC 1 / RtoC v * RtoC (MassStrange K))%C);
   ([10; 4; 3]%nat, (Ci / RtoC v * RtoC (MassStrange K))%C); ([11; 0; 0]%nat, (-RtoC 1 / RtoC v * RtoC (MassUp K) * Cconj (V13 K))%C); ([11; 0; 1]%nat, (Ci / RtoC v * RtoC (MassUp K) * Cconj (V13 K))%C);
   ([11; 1; 0]%nat, (-RtoC 1 / RtoC v * RtoC (MassCharm K) * Cconj (V23 K))%C); ([11; 1; 1]%nat, (Ci / RtoC v * RtoC (MassCharm K) * Cconj (V23 K))%C); ([11; 2; 0]%nat, (-RtoC 1 / RtoC v * RtoC (MassTop K) * Cconj (V33 K))%C);
   ([11; 2; 1]%nat, (Ci / RtoC v * RtoC (MassTop K) * Cconj (V33 K))%C); ([11; 5; 2]%nat, (RtoC 1 / RtoC v * RtoC (MassBottom K))%C); ([11; 5; 3]%nat, (Ci / RtoC v * RtoC (MassBottom K))%C)].

(** SetCurvatureArrays, ClassPotentialSM.cpp 468-491 *)
Definition SM_leptons (K : constants) (v : R) : ctable :=
  [
   ([0; 1; 2]%nat, (RtoC 1 / RtoC v * RtoC (MassElectron K))%C); ([0; 1; 3]%nat, (Ci / RtoC v * RtoC (MassElectron K))%C); ([1; 0; 2]%nat, (RtoC 1 / RtoC v * RtoC (MassElectron K))%C);
   ([1; 0; 3]%nat, (Ci / RtoC v * RtoC (MassElectron K))%C); ([1; 6; 0]%nat, (RtoC 1 / RtoC v * RtoC (MassElectron K))%C); ([1; 6; 1]%nat, (Ci / RtoC v * RtoC (MassElectron K))%C);
   ([2; 3; 2]%nat, (RtoC 1 / RtoC v * RtoC (MassMu K))%C); ([2; 3; 3]%nat, (Ci / RtoC v * RtoC (MassMu K))%C); ([3; 2; 2]%nat, (RtoC 1 / RtoC v * RtoC (MassMu K))%C);
   ([3; 2; 3]%nat, (Ci / RtoC v * RtoC (MassMu K))%C); ([3; 7; 0]%nat, (RtoC 1 / RtoC v * RtoC (MassMu K))%C); ([3; 7; 1]%nat, (Ci / RtoC v * RtoC (MassMu K))%C);
   ([4; 5; 2]%nat, (RtoC 1 / RtoC v * RtoC (MassTau K))%C); ([4; 5; 3]%nat, (Ci / RtoC v * RtoC (MassTau K))%C); ([5; 4; 2]%nat, (RtoC 1 / RtoC v * RtoC (MassTau K))%C);
   ([5; 4; 3]%nat, (Ci / RtoC v * RtoC (MassTau K))%C); ([5; 8; 0]%nat, (RtoC 1 / RtoC v * RtoC (MassTau K))%C); ([5; 8; 1]%nat, (Ci / RtoC v * RtoC (MassTau K))%C);
   ([6; 1; 0]%nat, (RtoC 1 / RtoC v * RtoC (MassElectron K))%C); ([6; 1; 1]%nat, (Ci / RtoC v * RtoC (MassElectron K))%C); ([7; 3; 0]%nat, (RtoC 1 / RtoC v * RtoC (MassMu K))%C);
   ([7; 3; 1]%nat, (Ci / RtoC v * RtoC (MassMu K))%C); ([8; 5; 0]%nat, (RtoC 1 / RtoC v * RtoC (MassTau K))%C); ([8; 5; 1]%nat, (Ci / RtoC v * RtoC (MassTau K))%C)].

(** SetCurvatureArrays, ClassPotentialCxSM.cpp 1132-1249 *)
Definition CxSM_quarks (K : constants) (v : R) : ctable :=
  [
   ([0; 6; 2]%nat, (-Ci / RtoC v * RtoC (MassUp K))%C); ([0; 6; 3]%nat, (RtoC 1 / RtoC v * RtoC (MassUp K))%C); ([0; 9; 0]%nat, (-RtoC 1 / RtoC v * RtoC (MassUp K) * Cconj (V11 K))%C);
   ([0; 9; 1]%nat, (Ci / RtoC v * RtoC (MassUp K) * Cconj (V11 K))%C); ([0; 10; 0]%nat, (-RtoC 1 / RtoC v * RtoC (MassUp K) * Cconj (V12 K))%C); ([0; 10; 1]%nat, (Ci / RtoC v * RtoC (MassUp K) * Cconj (V12 K))%C);
   ([0; 11; 0]%nat, (-RtoC 1 / RtoC v * RtoC (MassUp K) * Cconj (V13 K))%C); ([0; 11; 1]%nat, (Ci / RtoC v * RtoC (MassUp K) * Cconj (V13 K))%C); ([1; 7; 2]%nat, (-Ci / RtoC v * RtoC (MassCharm K))%C);
   ([1; 7; 3]%nat, (RtoC 1 / RtoC v * RtoC (MassCharm K))%C); ([1; 9; 0]%nat, (-RtoC 1 / RtoC v * RtoC (MassCharm K) * Cconj (V21 K))%C); ([1; 9; 1]%nat, (Ci / RtoC v * RtoC (MassCharm K) * Cconj (V21 K))%C);
   ([1; 10; 0]%nat, (-RtoC 1 / RtoC v * RtoC (MassCharm K) * Cconj (V22 K))%C); ([1; 10; 1]%nat, (Ci / RtoC v * RtoC (MassCharm K) * Cconj (V22 K))%C); ([1; 11; 0]%nat, (-RtoC 1 / RtoC v * RtoC (MassCharm K) * Cconj (V23 K))%C);
   ([1; 11; 1]%nat, (Ci / RtoC v * RtoC (MassCharm K) * Cconj (V23 K))%C); ([2; 8; 2]%nat, (-Ci / RtoC v * RtoC (MassTop K))%C); ([2; 8; 3]%nat, (RtoC 1 / RtoC v * RtoC (MassTop K))%C);
   ([2; 9; 0]%nat, (-RtoC 1 / RtoC v * RtoC (MassTop K) * Cconj (V31 K))%C); ([2; 9; 1]%nat, (Ci / RtoC v * RtoC (MassTop K) * Cconj (V31 K))%C); ([2; 10; 0]%nat, (-RtoC 1 / RtoC v * RtoC (MassTop K) * Cconj (V32 K))%C);
   ([2; 10; 1]%nat, (Ci / RtoC v * RtoC (MassTop K) * Cconj (V32 K))%C); ([2; 11; 0]%nat, (-RtoC 1 / RtoC v * RtoC (MassTop K) * Cconj (V33 K))%C); ([2; 11; 1]%nat, (Ci / RtoC v * RtoC (MassTop K) * Cconj (V33 K))%C);
   ([3; 6; 0]%nat, (RtoC 1 / RtoC v * RtoC (MassDown K) * V11 K)%C); ([3; 6; 1]%nat, (Ci / RtoC v * RtoC (MassDown K) * V11 K)%C); ([3; 7; 0]%nat, (V21 K / RtoC v * RtoC (MassDown K))%C);
   ([3; 7; 1]%nat, (Ci * V21 K / RtoC v * RtoC (MassDown K))%C); ([3; 8; 0]%nat, (RtoC 1 / RtoC v * RtoC (MassDown K) * V31 K)%C); ([3; 8; 1]%nat, (Ci / RtoC v * RtoC (MassDown K) * V31 K)%C);
   ([3; 9; 2]%nat, (Ci / RtoC v * RtoC (MassDown K))%C); ([3; 9; 3]%nat, (RtoC 1 / RtoC v * RtoC (MassDown K))%C); ([4; 6; 0]%nat, (RtoC 1 / RtoC v * RtoC (MassStrange K) * V12 K)%C);
   ([4; 6; 1]%nat, (Ci / RtoC v * RtoC (MassStrange K) * V12 K)%C); ([4; 7; 0]%nat, (V22 K / RtoC v * RtoC (MassStrange K))%C); ([4; 7; 1]%nat, (Ci * V22 K / RtoC v * RtoC (MassStrange K))%C);
   ([4; 8; 0]%nat, (RtoC 1 / RtoC v * RtoC (MassStrange K) * V32 K)%C); ([4; 8; 1]%nat, (Ci / RtoC v * RtoC (MassStrange K) * V32 K)%C); ([4; 10; 2]%nat, (Ci / RtoC v * RtoC (MassStrange K))%C);
   ([4; 10; 3]%nat, (RtoC 1 / RtoC v * RtoC (MassStrange K))%C); ([5; 6; 0]%nat, (V13 K / RtoC v * RtoC (MassBottom K))%C); ([5; 6; 1]%nat, (Ci / RtoC v * RtoC (MassBottom K) * V13 K)%C);
   ([5; 7; 0]%nat, (V23 K / RtoC v * RtoC (MassBottom K))%C); ([5; 7; 1]%nat, (Ci / RtoC v * RtoC (MassBottom K) * V23 K)%C); ([5; 8; 0]%nat, (V33 K / RtoC v * RtoC (MassBottom K))%C);
   ([5; 8; 1]%nat, (Ci / RtoC v * RtoC (MassBottom K) * V33 K)%C); ([5; 11; 2]%nat, (Ci / RtoC v * RtoC (MassBottom K))%C); ([5; 11; 3]%nat, (RtoC 1 / RtoC v * RtoC (MassBottom K))%C);
   ([6; 0; 2]%nat, (-Ci / RtoC v * RtoC (MassUp K))%C); ([6; 0; 3]%nat, (RtoC 1 / RtoC v * RtoC (MassUp K))%C); ([6; 3; 0]%nat, (RtoC 1 / RtoC v * RtoC (MassDown K) * V11 K)%C);
   ([6; 3; 1]%nat, (Ci / RtoC v * RtoC (MassDown K) * V11 K)%C); ([6; 4; 0]%nat, (RtoC 1 / RtoC v * RtoC (MassStrange K) * V12 K)%C); ([6; 4; 1]%nat, (Ci / RtoC v * RtoC (MassStrange K) * V12 K)%C);
   ([6; 5; 0]%nat, (V13 K / RtoC v * RtoC (MassBottom K))%C); ([6; 5; 1]%nat, (Ci / RtoC v * RtoC (MassBottom K) * V13 K)%C); ([7; 1; 2]%nat, (-Ci / RtoC v * RtoC (MassCharm K))%C);
   ([7; 1; 3]%nat, (RtoC 1 / RtoC v * RtoC (MassCharm K))%C); ([7; 3; 0]%nat, (V21 K / RtoC v * RtoC (MassDown K))%C); ([7; 3; 1]%nat, (Ci * V21 K / RtoC v * RtoC (MassDown K))%C);
   ([7; 4; 0]%nat, (V22 K / RtoC v * RtoC (MassStrange K))%C); ([7; 4; 1]%nat, (Ci * V22 K / RtoC v * RtoC (MassStrange K))%C); ([7; 5; 0]%nat, (V23 K / RtoC v * RtoC (MassBottom K))%C);
   ([7; 5; 1]%nat, (Ci / RtoC v * RtoC (MassBottom K) * V23 K)%C); ([8; 2; 2]%nat, (-Ci / RtoC v * RtoC (MassTop K))%C); ([8; 2; 3]%nat, (RtoC 1 / RtoC v * RtoC (MassTop K))%C);
   ([8; 3; 0]%nat, (RtoC 1 / RtoC v * RtoC (MassDown K) * V31 K)%C); ([8; 3; 1]%nat, (Ci / RtoC v * RtoC (MassDown K) * V31 K)%C); ([8; 4; 0]%nat, (RtoC 1 / RtoC v * RtoC (MassStrange K) * V32 K)%C);
   ([8; 4; 1]%nat, (Ci / RtoC v * RtoC (MassStrange K) * V32 K)%C); ([8; 5; 0]%nat, (V33 K / RtoC v * RtoC (MassBottom K))%C); ([8; 5; 1]%nat, (Ci / RtoC v * RtoC (MassBottom K) * V33 K)%C);
   ([9; 0; 0]%nat, (-RtoC 1 / RtoC v * RtoC (MassUp K) * Cconj (V11 K))%C); ([9; 0; 1]%nat, (Ci / RtoC v * RtoC (MassUp K) * Cconj (V11 K))%C); ([9; 1; 0]%nat, (-RtoC 1 / RtoC v * RtoC (MassCharm K) * Cconj (V21 K))%C);
   ([9; 1; 1]%nat, (Ci / RtoC v * RtoC (MassCharm K) * Cconj (V21 K))%C); ([9; 2; 0]%nat, (-RtoC 1 / RtoC v * RtoC (MassTop K) * Cconj (V31 K))%C); ([9; 2; 1]%nat, (Ci / RtoC v * RtoC (MassTop K) * Cconj (V31 K))%C);
   ([9; 3; 2]%nat, (Ci / RtoC v * RtoC (MassDown K))%C); ([9; 3; 3]%nat, (RtoC 1 / RtoC v * RtoC (MassDown K))%C); ([10; 0; 0]%nat, (-RtoC 1 / RtoC v * RtoC (MassUp K) * Cconj (V12 K))%C);
   ([10; 0; 1]%nat, (Ci / RtoC v * RtoC (MassUp K) * Cconj (V12 K))%C); ([10; 1; 0]%nat, (-RtoC 1 / RtoC v * RtoC (MassCharm K) * Cconj (V22 K))%C); ([10; 1; 1]%nat, (Ci / RtoC v * RtoC (MassCharm K) * Cconj (V22 K))%C);
   ([10; 2; 0]%nat, (-RtoC 1 / RtoC v * RtoC (MassTop K) * Cconj (V32 K))%C); ([10; 2; 1]%nat, (Ci / RtoC v * RtoC (MassTop K) * Cconj (V32 K))%C); ([10; 4; 2]%nat, (Ci / RtoC v * RtoC (MassStrange K))%C);
   ([10; 4; 3]%nat, (RtoC 1 / RtoC v * RtoC (MassStrange K))%C); ([11; 0; 0]%nat, (-RtoC 1 / RtoC v * RtoC (MassUp K) * Cconj (V13 K))%C); ([11; 0; 1]%nat, (Ci / RtoC v * RtoC (MassUp K) * Cconj (V13 K))%C);
   ([11; 1; 0]%nat, (-RtoC 1 / RtoC v * RtoC (MassCharm K) * Cconj (V23 K))%C); ([11; 1; 1]%nat, (Ci / RtoC v * RtoC (MassCharm K) * Cconj (V23 K))%C); ([11; 2; 0]%nat, (-RtoC 1 / RtoC v * RtoC (MassTop K) * Cconj (V33 K))%C);
   ([11; 2; 1]%nat, (Ci / RtoC v * RtoC (MassTop K) * Cconj (V33 K))%C); ([11; 5; 2]%nat, (Ci / RtoC v * RtoC (MassBottom K))%C); ([11; 5; 3]%nat, (RtoC 1 / RtoC v * RtoC (MassBottom K))%C)].

(** SetCurvatureArrays, ClassPotentialCxSM.cpp 1107-1130 *)
Definition CxSM_leptons (K : constants) (v : R) : ctable :=
  [
   ([0; 1; 2]%nat, (Ci / RtoC v * RtoC (MassElectron K))%C); ([0; 1; 3]%nat, (RtoC 1 / RtoC v * RtoC (MassElectron K))%C); ([1; 0; 2]%nat, (Ci / RtoC v * RtoC (MassElectron K))%C);
   ([1; 0; 3]%nat, (RtoC 1 / RtoC v * RtoC (MassElectron K))%C); ([1; 6; 0]%nat, (RtoC 1 / RtoC v * RtoC (MassElectron K))%C); ([1; 6; 1]%nat, (Ci / RtoC v * RtoC (MassElectron K))%C);
   ([2; 3; 2]%nat, (Ci / RtoC v * RtoC (MassMu K))%C); ([2; 3; 3]%nat, (RtoC 1 / RtoC v * RtoC (MassMu K))%C); ([3; 2; 2]%nat, (Ci / RtoC v * RtoC (MassMu K))%C);
   ([3; 2; 3]%nat, (RtoC 1 / RtoC v * RtoC (MassMu K))%C); ([3; 7; 0]%nat, (RtoC 1 / RtoC v * RtoC (MassMu K))%C); ([3; 7; 1]%nat, (Ci / RtoC v * RtoC (MassMu K))%C);
   ([4; 5; 2]%nat, (Ci / RtoC v * RtoC (MassTau K))%C); ([4; 5; 3]%nat, (RtoC 1 / RtoC v * RtoC (MassTau K))%C); ([5; 4; 2]%nat, (Ci / RtoC v * RtoC (MassTau K))%C);
   ([5; 4; 3]%nat, (RtoC 1 / RtoC v * RtoC (MassTau K))%C); ([5; 8; 0]%nat, (RtoC 1 / RtoC v * RtoC (MassTau K))%C); ([5; 8; 1]%nat, (Ci / RtoC v * RtoC (MassTau K))%C);
   ([6; 1; 0]%nat, (RtoC 1 / RtoC v * RtoC (MassElectron K))%C); ([6; 1; 1]%nat, (Ci / RtoC v * RtoC (MassElectron K))%C); ([7; 3; 0]%nat, (RtoC 1 / RtoC v * RtoC (MassMu K))%C);
   ([7; 3; 1]%nat, (Ci / RtoC v * RtoC (MassMu K))%C); ([8; 5; 0]%nat, (RtoC 1 / RtoC v * RtoC (MassTau K))%C); ([8; 5; 1]%nat, (Ci / RtoC v * RtoC (MassTau K))%C)].

(** SetCurvatureArrays, ClassPotentialCPintheDark.cpp 2110-2241 *)
Definition CPintheDark_quarks (K : constants) (v : R) : ctable :=
  [
   ([0; 1; 4]%nat, (RtoC 1 / RtoC v * RtoC (MassUp K))%C); ([0; 1; 5]%nat, (-Ci / RtoC v * RtoC (MassUp K))%C); ([0; 3; 0]%nat, (RtoC 1 / RtoC v * RtoC (MassDown K) * V11 K)%C);
   ([0; 3; 1]%nat, (Ci / RtoC v * RtoC (MassDown K) * V11 K)%C); ([0; 7; 0]%nat, (V12 K / RtoC v * RtoC (MassStrange K))%C); ([0; 7; 1]%nat, (Ci * V12 K / RtoC v * RtoC (MassStrange K))%C);
   ([0; 11; 0]%nat, (V13 K / RtoC v * RtoC (MassBottom K))%C); ([0; 11; 1]%nat, (Ci * V13 K / RtoC v * RtoC (MassBottom K))%C); ([1; 0; 4]%nat, (RtoC 1 / RtoC v * RtoC (MassUp K))%C);
   ([1; 0; 5]%nat, (-Ci / RtoC v * RtoC (MassUp K))%C); ([1; 2; 0]%nat, (-RtoC 1 / RtoC v * RtoC (MassUp K) * Cconj (V11 K))%C); ([1; 2; 1]%nat, (Ci / RtoC v * RtoC (MassUp K) * Cconj (V11 K))%C);
   ([1; 6; 0]%nat, (-RtoC 1 / RtoC v * RtoC (MassUp K) * Cconj (V12 K))%C); ([1; 6; 1]%nat, (Ci / RtoC v * RtoC (MassUp K) * Cconj (V12 K))%C); ([1; 10; 0]%nat, (-RtoC 1 / RtoC v * RtoC (MassUp K) * Cconj (V13 K))%C);
   ([1; 10; 1]%nat, (Ci / RtoC v * RtoC (MassUp K) * Cconj (V13 K))%C); ([2; 1; 0]%nat, (-RtoC 1 / RtoC v * RtoC (MassUp K) * Cconj (V11 K))%C); ([2; 1; 1]%nat, (Ci / RtoC v * RtoC (MassUp K) * Cconj (V11 K))%C);
   ([2; 3; 4]%nat, (RtoC 1 / RtoC v * RtoC (MassDown K))%C); ([2; 3; 5]%nat, (Ci / RtoC v * RtoC (MassDown K))%C); ([2; 5; 0]%nat, (-RtoC 1 / RtoC v * RtoC (MassCharm K) * Cconj (V21 K))%C);
   ([2; 5; 1]%nat, (Ci / RtoC v * RtoC (MassCharm K) * Cconj (V21 K))%C); ([2; 9; 0]%nat, (-RtoC 1 / RtoC v * RtoC (MassTop K) * Cconj (V31 K))%C); ([2; 9; 1]%nat, (Ci / RtoC v * RtoC (MassTop K) * Cconj (V31 K))%C);
   ([3; 0; 0]%nat, (RtoC 1 / RtoC v * RtoC (MassDown K) * V11 K)%C); ([3; 0; 1]%nat, (Ci / RtoC v * RtoC (MassDown K) * V11 K)%C); ([3; 2; 4]%nat, (RtoC 1 / RtoC v * RtoC (MassDown K))%C);
   ([3; 2; 5]%nat, (Ci / RtoC v * RtoC (MassDown K))%C); ([3; 4; 0]%nat, (V21 K / RtoC v * RtoC (MassDown K))%C); ([3; 4; 1]%nat, (Ci * V21 K / RtoC v * RtoC (MassDown K))%C);
   ([3; 8; 0]%nat, (RtoC 1 / RtoC v * RtoC (MassDown K) * V31 K)%C); ([3; 8; 1]%nat, (Ci / RtoC v * RtoC (MassDown K) * V31 K)%C); ([4; 3; 0]%nat, (V21 K / RtoC v * RtoC (MassDown K))%C);
   ([4; 3; 1]%nat, (Ci * V21 K / RtoC v * RtoC (MassDown K))%C); ([4; 5; 4]%nat, (RtoC 1 / RtoC v * RtoC (MassCharm K))%C); ([4; 5; 5]%nat, (-Ci / RtoC v * RtoC (MassCharm K))%C);
   ([4; 7; 0]%nat, (V22 K / RtoC v * RtoC (MassStrange K))%C); ([4; 7; 1]%nat, (Ci * V22 K / RtoC v * RtoC (MassStrange K))%C); ([4; 11; 0]%nat, (V23 K / RtoC v * RtoC (MassBottom K))%C);
   ([4; 11; 1]%nat, (Ci * V23 K / RtoC v * RtoC (MassBottom K))%C); ([5; 2; 0]%nat, (-RtoC 1 / RtoC v * RtoC (MassCharm K) * Cconj (V21 K))%C); ([5; 2; 1]%nat, (Ci / RtoC v * RtoC (MassCharm K) * Cconj (V21 K))%C);
   ([5; 4; 4]%nat, (RtoC 1 / RtoC v * RtoC (MassCharm K))%C); ([5; 4; 5]%nat, (-Ci / RtoC v * RtoC (MassCharm K))%C); ([5; 6; 0]%nat, (-RtoC 1 / RtoC v * RtoC (MassCharm K) * Cconj (V22 K))%C);
   ([5; 6; 1]%nat, (Ci / RtoC v * RtoC (MassCharm K) * Cconj (V22 K))%C); ([5; 10; 0]%nat, (-RtoC 1 / RtoC v * RtoC (MassCharm K) * Cconj (V23 K))%C); ([5; 10; 1]%nat, (Ci / RtoC v * RtoC (MassCharm K) * Cconj (V23 K))%C);
   ([6; 1; 0]%nat, (-RtoC 1 / RtoC v * RtoC (MassUp K) * Cconj (V12 K))%C); ([6; 1; 1]%nat, (Ci / RtoC v * RtoC (MassUp K) * Cconj (V12 K))%C); ([6; 5; 0]%nat, (-RtoC 1 / RtoC v * RtoC (MassCharm K) * Cconj (V22 K))%C);
   ([6; 5; 1]%nat, (Ci / RtoC v * RtoC (MassCharm K) * Cconj (V22 K))%C); ([6; 7; 4]%nat, (RtoC 1 / RtoC v * RtoC (MassStrange K))%C); ([6; 7; 5]%nat, (Ci / RtoC v * RtoC (MassStrange K))%C);
   ([6; 9; 0]%nat, (-RtoC 1 / RtoC v * RtoC (MassTop K) * Cconj (V32 K))%C); ([6; 9; 1]%nat, (Ci / RtoC v * RtoC (MassTop K) * Cconj (V32 K))%C); ([7; 0; 0]%nat, (V12 K / RtoC v * RtoC (MassStrange K))%C);
   ([7; 0; 1]%nat, (Ci * V12 K / RtoC v * RtoC (MassStrange K))%C); ([7; 4; 0]%nat, (V22 K / RtoC v * RtoC (MassStrange K))%C); ([7; 4; 1]%nat, (Ci * V22 K / RtoC v * RtoC (MassStrange K))%C);
   ([7; 6; 4]%nat, (RtoC 1 / RtoC v * RtoC (MassStrange K))%C); ([7; 6; 5]%nat, (Ci / RtoC v * RtoC (MassStrange K))%C); ([7; 8; 0]%nat, (V32 K / RtoC v * RtoC (MassStrange K))%C);
   ([7; 8; 1]%nat, (Ci * V32 K / RtoC v * RtoC (MassStrange K))%C); ([8; 3; 0]%nat, (RtoC 1 / RtoC v * RtoC (MassDown K) * V31 K)%C); ([8; 3; 1]%nat, (Ci / RtoC v * RtoC (MassDown K) * V31 K)%C);
   ([8; 7; 0]%nat, (V32 K / RtoC v * RtoC (MassStrange K))%C); ([8; 7; 1]%nat, (Ci * V32 K / RtoC v * RtoC (MassStrange K))%C); ([8; 9; 4]%nat, (RtoC 1 / RtoC v * RtoC (MassTop K))%C);
   ([8; 9; 5]%nat, (-Ci / RtoC v * RtoC (MassTop K))%C); ([8; 11; 0]%nat, (V33 K / RtoC v * RtoC (MassBottom K))%C); ([8; 11; 1]%nat, (Ci * V33 K / RtoC v * RtoC (MassBottom K))%C);
   ([9; 2; 0]%nat, (-RtoC 1 / RtoC v * RtoC (MassTop K) * Cconj (V31 K))%C); ([9; 2; 1]%nat, (Ci / RtoC v * RtoC (MassTop K) * Cconj (V31 K))%C); ([9; 6; 0]%nat, (-RtoC 1 / RtoC v * RtoC (MassTop K) * Cconj (V32 K))%C);
   ([9; 6; 1]%nat, (Ci / RtoC v * RtoC (MassTop K) * Cconj (V32 K))%C); ([9; 8; 4]%nat, (RtoC 1 / RtoC v * RtoC (MassTop K))%C); ([9; 8; 5]%nat, (-Ci / RtoC v * RtoC (MassTop K))%C);
   ([9; 10; 0]%nat, (-RtoC 1 / RtoC v * RtoC (MassTop K) * Cconj (V33 K))%C); ([9; 10; 1]%nat, (Ci / RtoC v * RtoC (MassTop K) * Cconj (V33 K))%C); ([10; 1; 0]%nat, (-RtoC 1 / RtoC v * RtoC (MassUp K) * Cconj (V13 K))%C);
   ([10; 1; 1]%nat, (Ci / RtoC v * RtoC (MassUp K) * Cconj (V13 K))%C); ([10; 5; 0]%nat, (-RtoC 1 / RtoC v * RtoC (MassCharm K) * Cconj (V23 K))%C); ([10; 5; 1]%nat, (Ci / RtoC v * RtoC (MassCharm K) * Cconj (V23 K))%C);
   ([10; 9; 0]%nat, (-RtoC 1 / RtoC v * RtoC (MassTop K) * Cconj (V33 K))%C); ([10; 9; 1]%nat, (Ci / RtoC v * RtoC (MassTop K) * Cconj (V33 K))%C); ([10; 11; 4]%nat, (RtoC 1 / RtoC v * RtoC (MassBottom K))%C);
   ([10; 11; 5]%nat, (Ci / RtoC v * RtoC (MassBottom K))%C); ([11; 0; 0]%nat, (V13 K / RtoC v * RtoC (MassBottom K))%C); ([11; 0; 1]%nat, (Ci * V13 K / RtoC v * RtoC (MassBottom K))%C);
   ([11; 4; 0]%nat, (V23 K / RtoC v * RtoC (MassBottom K))%C); ([11; 4; 1]%nat, (Ci * V23 K / RtoC v * RtoC (MassBottom K))%C); ([11; 8; 0]%nat, (V33 K / RtoC v * RtoC (MassBottom K))%C);
   ([11; 8; 1]%nat, (Ci * V33 K / RtoC v * RtoC (MassBottom K))%C); ([11; 10; 4]%nat, (RtoC 1 / RtoC v * RtoC (MassBottom K))%C); ([11; 10; 5]%nat, (Ci / RtoC v * RtoC (MassBottom K))%C)].

(** SetCurvatureArrays, ClassPotentialCPintheDark.cpp 2243-2266 *)
Definition CPintheDark_leptons (K : constants) (v : R) : ctable :=
  [
   ([0; 1; 4]%nat, (RtoC 1 / RtoC v * RtoC (MassElectron K))%C); ([0; 1; 5]%nat, (Ci / RtoC v * RtoC (MassElectron K))%C); ([1; 0; 4]%nat, (RtoC 1 / RtoC v * RtoC (MassElectron K))%C);
   ([1; 0; 5]%nat, (Ci / RtoC v * RtoC (MassElectron K))%C); ([1; 6; 0]%nat, (RtoC 1 / RtoC v * RtoC (MassElectron K))%C); ([1; 6; 1]%nat, (Ci / RtoC v * RtoC (MassElectron K))%C);
   ([2; 3; 4]%nat, (RtoC 1 / RtoC v * RtoC (MassMu K))%C); ([2; 3; 5]%nat, (Ci / RtoC v * RtoC (MassMu K))%C); ([3; 2; 4]%nat, (RtoC 1 / RtoC v * RtoC (MassMu K))%C);
   ([3; 2; 5]%nat, (Ci / RtoC v * RtoC (MassMu K))%C); ([3; 7; 0]%nat, (RtoC 1 / RtoC v * RtoC (MassMu K))%C); ([3; 7; 1]%nat, (Ci / RtoC v * RtoC (MassMu K))%C);
   ([4; 5; 4]%nat, (RtoC 1 / RtoC v * RtoC (MassTau K))%C); ([4; 5; 5]%nat, (Ci / RtoC v * RtoC (MassTau K))%C); ([5; 4; 4]%nat, (RtoC 1 / RtoC v * RtoC (MassTau K))%C);
   ([5; 4; 5]%nat, (Ci / RtoC v * RtoC (MassTau K))%C); ([5; 8; 0]%nat, (RtoC 1 / RtoC v * RtoC (MassTau K))%C); ([5; 8; 1]%nat, (Ci / RtoC v * RtoC (MassTau K))%C);
   ([6; 1; 0]%nat, (RtoC 1 / RtoC v * RtoC (MassElectron K))%C); ([6; 1; 1]%nat, (Ci / RtoC v * RtoC (MassElectron K))%C); ([7; 3; 0]%nat, (RtoC 1 / RtoC v * RtoC (MassMu K))%C);
   ([7; 3; 1]%nat, (Ci / RtoC v * RtoC (MassMu K))%C); ([8; 5; 0]%nat, (RtoC 1 / RtoC v * RtoC (MassTau K))%C); ([8; 5; 1]%nat, (Ci / RtoC v * RtoC (MassTau K))%C)].

(** The matrices YIJ.. of ClassPotentialR2HDM.cpp 1252-1288 (here 1252-1262); the same text stands in ClassPotentialC2HDM.cpp 2947-2983 and
    ClassPotentialN2HDM.cpp 2973-3011.  [v2], [vD] and [vL] are the vacuum expectation values of the doublets chosen below. *)
Definition YIJR2 (K : constants) (v2 : R) : ctable :=
  [([0; 9]%nat, (- Cconj (V11 K) * RtoC (MassUp K) / RtoC v2)%C); ([0; 10]%nat, (- Cconj (V12 K) * RtoC (MassUp K) / RtoC v2)%C);
   ([0; 11]%nat, (- Cconj (V13 K) * RtoC (MassUp K) / RtoC v2)%C); ([1; 9]%nat, (- Cconj (V21 K) * RtoC (MassCharm K) / RtoC v2)%C);
   ([1; 10]%nat, (- Cconj (V22 K) * RtoC (MassCharm K) / RtoC v2)%C); ([1; 11]%nat, (- Cconj (V23 K) * RtoC (MassCharm K) / RtoC v2)%C);
   ([2; 9]%nat, (- Cconj (V31 K) * RtoC (MassTop K) / RtoC v2)%C); ([2; 10]%nat, (- Cconj (V32 K) * RtoC (MassTop K) / RtoC v2)%C);
   ([2; 11]%nat, (- Cconj (V33 K) * RtoC (MassTop K) / RtoC v2)%C)].
(** ClassPotentialR2HDM.cpp 1264-1266 *)
Definition YIJS2 (K : constants) (v2 : R) : ctable :=
  [([0; 6]%nat, RtoC (MassUp K / v2)); ([1; 7]%nat, RtoC (MassCharm K / v2)); ([2; 8]%nat, RtoC (MassTop K / v2))].
(** ClassPotentialR2HDM.cpp 1268-1270 *)
Definition YIJSD (K : constants) (vD : R) : ctable :=
  [([3; 9]%nat, RtoC (MassDown K / vD)); ([4; 10]%nat, RtoC (MassStrange K / vD)); ([5; 11]%nat, RtoC (MassBottom K / vD))].
(** ClassPotentialR2HDM.cpp 1272-1280 *)
Definition YIJRD (K : constants) (vD : R) : ctable :=
  [([3; 6]%nat, (V11 K * RtoC (MassDown K) / RtoC vD)%C); ([3; 7]%nat, (V21 K * RtoC (MassDown K) / RtoC vD)%C); ([3; 8]%nat, (V31 K * RtoC (MassDown K) / RtoC vD)%C);
   ([4; 6]%nat, (V12 K * RtoC (MassStrange K) / RtoC vD)%C); ([4; 7]%nat, (V22 K * RtoC (MassStrange K) / RtoC vD)%C); ([4; 8]%nat, (V32 K * RtoC (MassStrange K) / RtoC vD)%C);
   ([5; 6]%nat, (V13 K * RtoC (MassBottom K) / RtoC vD)%C); ([5; 7]%nat, (V23 K * RtoC (MassBottom K) / RtoC vD)%C); ([5; 8]%nat, (V33 K * RtoC (MassBottom K) / RtoC vD)%C)].
(** ClassPotentialR2HDM.cpp 1282-1284 *)
Definition YIJRL (K : constants) (vL : R) : ctable :=
  [([1; 6]%nat, RtoC (MassElectron K / vL)); ([3; 7]%nat, RtoC (MassMu K / vL)); ([5; 8]%nat, RtoC (MassTau K / vL))].
(** ClassPotentialR2HDM.cpp 1286-1288 *)
Definition YIJSL (K : constants) (vL : R) : ctable :=
  [([0; 1]%nat, RtoC (MassElectron K / vL)); ([2; 3]%nat, RtoC (MassMu K / vL)); ([4; 5]%nat, RtoC (MassTau K / vL))].
(** the loops that copy the upper triangle to the lower one, ClassPotentialR2HDM.cpp 1290-1307 *)
Definition mirror (tab : ctable) (i j : nat) : C := if Nat.ltb j i then cassign tab [j; i] else cassign tab [i; j].
(** ClassPotentialR2HDM.cpp 1238-1250, ClassPotentialC2HDM.cpp 2933-2945, ClassPotentialN2HDM.cpp 2959-2971 *)
Definition v_down (Type_ : Z) (v1 v2 : R) : R := if Z.eqb Type_ 2 then v1 else if Z.eqb Type_ 3 then v2 else if Z.eqb Type_ 4 then v1 else v2.
(** same lines *)
Definition v_lepton (Type_ : Z) (v1 v2 : R) : R := if Z.eqb Type_ 2 then v1 else if Z.eqb Type_ 3 then v1 else if Z.eqb Type_ 4 then v2 else v2.

(** [Type = static_cast<int>(par[7])]: ClassPotentialR2HDM.cpp 229 (par[7]), ClassPotentialC2HDM.cpp 232 (par[8]), ClassPotentialN2HDM.cpp 236 (par[11]);
    values outside int are not modelled *)
Definition Type_of (x : R) : Z := if Rle_dec 0 x then Int_part x else Z.opp (Int_part (- x)).
(** ClassPotentialR2HDM.cpp 1309-1346, ClassPotentialC2HDM.cpp 3004-3041: the matrices with II are written where they are used *)
Definition R2HDM_quarks (K : constants) (Type_ : Z) (CosBeta SinBeta : R) (i j k : nat) : C :=
  let v1 := vev0 K * CosBeta in let v2 := vev0 K * SinBeta in let vD := v_down Type_ v1 v2 in
  let R2 := mirror (YIJR2 K v2) i j in let S2 := mirror (YIJS2 K v2) i j in
  let RD := mirror (YIJRD K vD) i j in let SD := mirror (YIJSD K vD) i j in
  let E2 := (RtoC (-1) * Ci * R2)%C in let P2 := (RtoC (-1) * Ci * S2)%C in let ED := (Ci * RD)%C in let PD := (Ci * SD)%C in
  let with2 := orb (Z.eqb Type_ 1) (Z.eqb Type_ 3) in
  match k with
  | 0 => if with2 then RtoC 0 else RtoC 0 + RD
  | 1 => if with2 then RtoC 0 else RtoC 0 + ED
  | 2 => if with2 then R2 + RD else R2
  | 3 => if with2 then E2 + ED else E2
  | 4 => if with2 then RtoC 0 else RtoC 0 + SD
  | 5 => if with2 then RtoC 0 else RtoC 0 + PD
  | 6 => if with2 then S2 + SD else S2
  | 7 => if with2 then P2 + PD else P2
  | _ => RtoC 0
  end%C.
(** ClassPotentialR2HDM.cpp 1348-1375, ClassPotentialC2HDM.cpp 3043-3070 *)
Definition R2HDM_leptons (K : constants) (Type_ : Z) (CosBeta SinBeta : R) (i j k : nat) : C :=
  let v1 := vev0 K * CosBeta in let v2 := vev0 K * SinBeta in let vL := v_lepton Type_ v1 v2 in
  let RL := mirror (YIJRL K vL) i j in let SL := mirror (YIJSL K vL) i j in let EL := (Ci * RL)%C in let PL := (Ci * SL)%C in
  let with2 := orb (Z.eqb Type_ 1) (Z.eqb Type_ 4) in
  match k with
  | 0 => if with2 then RtoC 0 else RL
  | 1 => if with2 then RtoC 0 else EL
  | 2 => if with2 then RL else RtoC 0
  | 3 => if with2 then EL else RtoC 0
  | 4 => if with2 then RtoC 0 else SL
  | 5 => if with2 then RtoC 0 else PL
  | 6 => if with2 then SL else RtoC 0
  | 7 => if with2 then PL else RtoC 0
  | _ => RtoC 0
  end.
(** ClassPotentialN2HDM.cpp 3032-3070 *)
Definition N2HDM_quarks (K : constants) (Type_ : Z) (CosBeta SinBeta : R) (i j k : nat) : C :=
  let v1 := vev0 K * CosBeta in let v2 := vev0 K * SinBeta in let vD := v_down Type_ v1 v2 in
  let R2 := mirror (YIJR2 K v2) i j in let S2 := mirror (YIJS2 K v2) i j in
  let RD := mirror (YIJRD K vD) i j in let SD := mirror (YIJSD K vD) i j in
  let E2 := (RtoC (-1) * Ci * R2)%C in let P2 := (RtoC (-1) * Ci * S2)%C in let ED := (Ci * RD)%C in let PD := (Ci * SD)%C in
  let with2 := orb (Z.eqb Type_ 1) (Z.eqb Type_ 3) in
  match k with
  | 0 => if with2 then RtoC 0 else RtoC 0 + RD
  | 1 => if with2 then R2 + RD else R2
  | 2 => if with2 then RtoC 0 else RtoC 0 + ED
  | 3 => if with2 then E2 + ED else E2
  | 4 => if with2 then RtoC 0 else RtoC 0 + PD
  | 5 => if with2 then P2 + PD else P2
  | 6 => if with2 then RtoC 0 else RtoC 0 + SD
  | 7 => if with2 then S2 + SD else S2
  | _ => RtoC 0
  end%C.
(** ClassPotentialN2HDM.cpp 3072-3102 *)
Definition N2HDM_leptons (K : constants) (Type_ : Z) (CosBeta SinBeta : R) (i j k : nat) : C :=
  let v1 := vev0 K * CosBeta in let v2 := vev0 K * SinBeta in let vL := v_lepton Type_ v1 v2 in
  let RL := mirror (YIJRL K vL) i j in let SL := mirror (YIJSL K vL) i j in let EL := (Ci * RL)%C in let PL := (Ci * SL)%C in
  let with2 := orb (Z.eqb Type_ 1) (Z.eqb Type_ 4) in
  match k with
  | 0 => if with2 then RtoC 0 else RL
  | 1 => if with2 then RL else RtoC 0
  | 2 => if with2 then RtoC 0 else EL
  | 3 => if with2 then EL else RtoC 0
  | 4 => if with2 then RtoC 0 else PL
  | 5 => if with2 then PL else RtoC 0
  | 6 => if with2 then RtoC 0 else SL
  | 7 => if with2 then SL else RtoC 0
  | _ => RtoC 0
  end.

(** the couplings of a table *)
Definition of_table (tab : ctable) (i j k : nat) : C := cassign tab [i; j; k].
(** a loop that adds n terms *)
Fixpoint csum (n : nat) (f : nat -> C) : C := match n with 0%nat => RtoC 0 | S m => (csum m f + f m)%C end.
(** QuarkMassMatrix and LeptonMassMatrix for v with NHiggs entries, ClassPotentialOrigin.cpp 3835-3849 and 3909-3921; Curvature_.._F2 is zero
    in all models *)
Definition fermion_mass (n : nat) (Y : nat -> nat -> nat -> C) (v : list R) (i j : nat) : C :=
  (RtoC 0 + csum n (fun k => Y i j k * RtoC (nth k v 0%R)))%C.
(** the matrix whose eigenvalues QuarkMassesSquared and LeptonMassesSquared return, ClassPotentialOrigin.cpp 2639 and 2737; [nf] is NQuarks or NLepton *)
Definition fermion_mass_squared (nf n : nat) (Y : nat -> nat -> nat -> C) (v : list R) (i j : nat) : C :=
  csum nf (fun l => Cconj (fermion_mass n Y v i l) * fermion_mass n Y v l j)%C.
