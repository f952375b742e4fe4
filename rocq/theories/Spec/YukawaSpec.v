(** Yukawa couplings as written in the literature: left-handed doublets, right-handed singlets, Higgs doublets and a unitary mixing matrix. *)
From Coq Require Import Reals ZArith List.
From Coquelicot Require Import Complex.
From Verif.Spec Require Import ScalarSpec GaugeSpec.
Import ListNotations.
Open Scope R_scope.

(** i sigma_2 H^* *)
Definition tilde (H : doublet) : doublet := (Cconj (snd H), - Cconj (fst H))%C.
(** contraction of a conjugated left-handed doublet with a Higgs doublet *)
Definition contract (Q H : doublet) : C := (fst Q * fst H + snd Q * snd H)%C.

(** the two-component quark fields of generation 0, 1, 2; [uL] and [dL] stand for the conjugated left-handed ones *)
Inductive quark := uR (g : nat) | dR (g : nat) | uL (g : nat) | dL (g : nat).
(** up-type quarks couple to [Hu], down-type quarks to [Hd]; the lower component of the doublet i is the sum over V_ij d_j *)
Definition quark_yukawas (V : matrix33) (yu yd : nat -> C) (Hu Hd : doublet) (psi : quark -> C) : C :=
  csum3 (fun i =>
    let Q : doublet := (psi (uL i), csum3 (fun k => Cconj (V i k) * psi (dL k))) in
    contract Q (tilde Hu) * yu i * psi (uR i) + csum3 (fun j => contract Q Hd * V i j * yd j * psi (dR j)))%C.
(** the lepton fields; [nL] and [eL] are the conjugated left-handed ones *)
Inductive lepton := eR (g : nat) | eL (g : nat) | nL (g : nat).
Definition lepton_yukawas (ye : nat -> C) (Hl : doublet) (psi : lepton -> C) : C :=
  csum3 (fun i => contract (psi (nL i), psi (eL i)) Hl * ye i * psi (eR i))%C.

(** x^T M x *)
Fixpoint total (n : nat) (f : nat -> C) : C := match n with 0%nat => RtoC 0 | S m => (total m f + f m)%C end.
Definition quadratic (n : nat) (M : nat -> nat -> C) (x : nat -> C) : C := total n (fun i => total n (fun j => x i * M i j * x j))%C.
(** [M] is the mass matrix of the Lagrangian [L]: L = 1/2 psi^T M psi with symmetric M *)
Definition mass_matrix_of {F} (n : nat) (layout : nat -> F) (M : nat -> nat -> C) (L : (F -> C) -> C) : Prop :=
  (forall i j, (i < n)%nat -> (j < n)%nat -> M i j = M j i) /\
  forall psi, quadratic n M (fun i => psi (layout i)) = (RtoC 2 * L psi)%C.

(** the coupling that gives the mass [m] for the vacuum expectation value [v] / sqrt 2 *)
Definition yukawa (m v : R) : C := RtoC (sqrt 2 * m / v).
Definition three (a b c : R) (i : nat) : R := match i with 0%nat => a | 1%nat => b | _ => c end.

(** numbering of the fields in the models: u_R, d_R, u_L, d_L *)
Definition layout_q (i : nat) : quark :=
  if Nat.ltb i 3 then uR i else if Nat.ltb i 6 then dR (i - 3) else if Nat.ltb i 9 then uL (i - 6) else dL (i - 9).
(** u_L, u_R, d_L, d_R, generation by generation (CP in the Dark) *)
Definition layout_q' (i : nat) : quark :=
  let g := Nat.div i 4 in match Nat.modulo i 4 with 0%nat => uL g | 1%nat => uR g | 2%nat => dL g | _ => dR g end.
Definition layout_l (i : nat) : lepton :=
  if Nat.ltb i 6 then (let g := Nat.div i 2 in if Nat.even i then eL g else eR g) else nL (i - 6).

(** the four types without flavour changing neutral currents, as numbered in ClassPotentialR2HDM.h 71-74: which doublet gives mass to the down-type
    quarks and to the charged leptons; up-type quarks couple to the second one *)
Inductive yukawa_type := TypeI | TypeII | LeptonSpecific | Flipped.
Definition type_number (t : yukawa_type) : Z := match t with TypeI => 1 | TypeII => 2 | LeptonSpecific => 3 | Flipped => 4 end.
Definition down_couples {A} (t : yukawa_type) (first second : A) : A := match t with TypeI | LeptonSpecific => second | TypeII | Flipped => first end.
Definition lepton_couples {A} (t : yukawa_type) (first second : A) : A := match t with TypeI | Flipped => second | TypeII | LeptonSpecific => first end.

(** the squared mass matrix is diagonal with the squared masses *)
Definition has_masses (n : nat) (M2 : nat -> nat -> C) (mass : nat -> R) : Prop :=
  forall i j, (i < n)%nat -> (j < n)%nat -> M2 i j = if Nat.eqb i j then RtoC (mass i ^ 2) else RtoC 0.
Definition quark_mass (mu md : nat -> R) (q : quark) : R := match q with uR g | uL g => mu g | dR g | dL g => md g end.
(** neutrinos are massless *)
Definition lepton_mass (me : nat -> R) (l : lepton) : R := match l with eR g | eL g => me g | nL _ => 0 end.
