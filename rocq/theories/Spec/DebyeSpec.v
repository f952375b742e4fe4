(** Thermal masses: the part of the thermal potential that grows like T^2, and the electric screening masses of the gauge bosons. *)
From Coq Require Import Reals List.
From Verif.Spec Require Import NumDerivSpec PotentialSpec YukawaSpec.
Import ListNotations.
Open Scope R_scope.

(** [d] is the second partial derivative of [f] with respect to the components i and j at v *)
Definition second_partial {E} (ok : R -> E) (n : nat) (f : list R -> E) (v : list R) (i j : nat) (d : R) : Prop :=
  exists g, (forall w, length w = n -> partial_derivative ok f w i (g w)) /\ partial_derivative (fun x => x) g v j d.

Definition trace (n : nat) (M : nat -> nat -> R) : R := sumR n (fun k => M k k).
(** 1/24 (sum over bosons of the number of states times m^2 + 1/2 sum over fermions): a scalar has one state, a vector three, a two-component quark two
    times three colours, a two-component lepton two *)
Definition leading (n ng nq nl : nat) (scalars vectors quarks leptons : nat -> nat -> R) : R :=
  / 24 * (1 * trace n scalars + 3 * trace ng vectors + / 2 * (2 * 3 * trace nq quarks + 2 * trace nl leptons)).

(** what the fermions other than top and bottom add to the thermal mass of a doublet: up-type quarks, down-type quarks and charged leptons with
    masses [m] that couple to it, with vacuum expectation value [v] *)
Definition squares (m : list R) : R := fold_right (fun x a => x ^ 2 + a) 0 m.
Definition quark_share (m : list R) (v : R) : R := squares m / (2 * v ^ 2).
Definition lepton_share (m : list R) (v : R) : R := squares m / (6 * v ^ 2).

(** the part of the two doublets that comes from light quarks [mu], [md] and leptons [me], by the type of the Yukawa couplings *)
Definition forgotten_first (t : yukawa_type) (md me : list R) (v1 : R) : R :=
  down_couples t (quark_share md v1) 0 + lepton_couples t (lepton_share me v1) 0.
Definition forgotten_second (t : yukawa_type) (mu md me : list R) (v2 : R) : R :=
  quark_share mu v2 + down_couples t 0 (quark_share md v2) + lepton_couples t 0 (lepton_share me v2).
(** a diagonal matrix with [x] on the indices of the list *)
Definition on_diagonal (l : list nat) (x : R) (i j : nat) : R := if Nat.eqb i j then (if existsb (Nat.eqb i) l then x else 0) else 0.

(** screening masses: C_A/3 for the bosons themselves, S/3 for every complex scalar and S/6 for every two-component fermion, where S is the index of
    the representation (1/2 for a doublet of SU(2), the squared charge for U(1)) *)
Definition su2_screening (doublets : nat) : R := 2 / 3 + INR doublets * (1 / 2) / 3 + 3 * (3 + 1) * (1 / 2) / 6.
(** hypercharges: Higgs doublet 1/2; q_L 1/6, u_R 2/3, d_R -1/3 with three colours, l_L -1/2, e_R -1; three generations *)
Definition u1_screening (doublets : nat) : R :=
  INR doublets * (2 * (1 / 2) ^ 2) / 3 + 3 * (3 * (2 * (1 / 6) ^ 2 + (2 / 3) ^ 2 + (-1 / 3) ^ 2) + 2 * (-1 / 2) ^ 2 + (-1) ^ 2) / 6.
(** the four bosons W1, W2, W3, B *)
Definition screening (g gp : R) (doublets : nat) (a b : nat) : R :=
  if Nat.eqb a b then (if Nat.ltb a 3 then g ^ 2 * su2_screening doublets else gp ^ 2 * u1_screening doublets) else 0.
