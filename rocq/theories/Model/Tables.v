(** Coupling tables of the models: how set_CT_Pot_Par and SetCurvatureArrays of src/models/ClassPotential*.cpp fill the
    tensors.  Doubles are real numbers. *)
From Coq Require Import Reals ZArith List.
From Verif.Model Require Import Base Potential.
Import ListNotations.
Open Scope R_scope.

(** a sequence of assignments [Curvature_...[i][j].. = x;] in program order *)
Definition table : Type := list (list nat * R).
(** the tensors are allocated with zeros: initVectors, ClassPotentialOrigin.cpp 3332-3390 *)
Definition zero_tensor : tensor R := fun _ => 0.
Definition assign (tab : table) (T : tensor R) : tensor R := fold_left (fun T e => upd T (fst e) (snd e)) tab T.

(** The loop the two-Higgs-doublet models use in place of sym4Dim: ClassPotentialR2HDM.cpp 456-513 and 1028-1085,
    ClassPotentialC2HDM.cpp 2722-2779, ClassPotentialN2HDM.cpp 363-421 (which there also copies the upper triangle of L2) and 1538-1595 (same order of assignments). *)
Definition doublet_writes (s : list nat) : list (list nat) :=
  match s with
  | [k1; k2; k3; k4] =>
      [[k2; k3; k4; k1]; [k3; k4; k1; k2]; [k4; k1; k2; k3]; [k2; k1; k3; k4]; [k4; k2; k1; k3]; [k3; k4; k2; k1];
       [k1; k3; k4; k2]; [k3; k2; k1; k4]; [k4; k3; k2; k1]; [k1; k4; k3; k2]; [k2; k1; k4; k3]; [k4; k2; k3; k1];
       [k1; k4; k2; k3]; [k3; k1; k4; k2]; [k2; k3; k1; k4]; [k1; k3; k2; k4]; [k4; k1; k3; k2]; [k2; k4; k1; k3];
       [k3; k2; k4; k1]; [k1; k2; k4; k3]; [k3; k1; k2; k4]; [k4; k3; k1; k2]; [k2; k4; k3; k1]]
  | _ => []
  end.
Definition doublet_sym4 (n : nat) (T : tensor R) : tensor R :=
  for_loop 0 n (fun k1 => for_loop k1 n (fun k2 => for_loop k2 n (fun k3 => for_loop k3 n (fun k4 T =>
    assign_all [k1; k2; k3; k4] (doublet_writes [k1; k2; k3; k4]) T)))) T.

(** the four tensors of a scalar potential, Curvature_Higgs_L1 .. L4 or Curvature_Higgs_CT_L1 .. L4 *)
Record tensors := mkT { tL1 : tensor R; tL2 : tensor R; tL3 : tensor R; tL4 : tensor R }.
Definition at1 (T : tensor R) (i : nat) : R := T [i].
Definition at2 (T : tensor R) (i j : nat) : R := T [i; j].
Definition at3 (T : tensor R) (i j k : nat) : R := T [i; j; k].
Definition at4 (T : tensor R) (i j k l : nat) : R := T [i; j; k; l].

(** VTree, CounterTerm, NablaVCT, HessianCT and HiggsMassMatrix (zero temperature) of a model with these tensors:
    ClassPotentialOrigin.cpp 2826-2946, 3986-4030, 2324-2418; see Potential.v *)
Definition tree (n : nat) (c : tensors) : list R -> Z -> outcome R :=
  VTree n (at1 (tL1 c)) (at2 (tL2 c)) (at3 (tL3 c)) (at4 (tL4 c)).
Definition counterterm (n : nat) (c : tensors) : list R -> Z -> outcome R :=
  CounterTerm n (at1 (tL1 c)) (at2 (tL2 c)) (at3 (tL3 c)) (at4 (tL4 c)).
Definition nabla_ct (n : nat) (c : tensors) : list R -> outcome (nat -> R) :=
  NablaVCT n (at1 (tL1 c)) (at2 (tL2 c)) (at3 (tL3 c)) (at4 (tL4 c)).
Definition hessian_ct (n : nat) (c : tensors) : list R -> outcome (nat -> nat -> R) :=
  HessianCT n (at2 (tL2 c)) (at3 (tL3 c)) (at4 (tL4 c)).
Definition mass_matrix (n : nat) (c : tensors) (v : list R) : outcome (nat -> nat -> R) :=
  HiggsMassMatrix n (at2 (tL2 c)) (at3 (tL3 c)) (at4 (tL4 c)) (fun _ _ => 0) v 0 0.
