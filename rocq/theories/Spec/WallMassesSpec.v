(** Masses along a wall. *)
From Coq Require Import Reals List.
From Coquelicot Require Import Coquelicot.
Import ListNotations.
Open Scope R_scope.

(** the fields at z: the critical ones deep in the broken phase (z to minus infinity), none outside *)
Definition fields (LW : R) (vc : list R) (z : R) : list R := map (fun v => v / (1 + exp (2 * z / LW))) vc.
Fixpoint dot (a b : list R) : R := match a, b with x :: a', y :: b' => x * y + dot a' b' | _, _ => 0 end.
Definition times (s : R) (v : list R) : list R := map (fun x => s * x) v.
(** [query phi i] lists the squared masses M phi 0, M phi 1, ... in ascending order and then their derivatives D phi i 0, ... by field i = 1, 2, ...; the
    masses are differentiable in the direction of vc at all multiples of vc *)
Record mass_query (query : list R -> nat -> list R) (nf : nat) (M : list R -> nat -> R) (D : list R -> nat -> nat -> R) (vc : list R) : Prop := {
  q_lists : forall phi i, length phi = length vc -> (1 <= i <= length vc)%nat -> query phi i = map (M phi) (seq 0 nf) ++ map (D phi i) (seq 0 nf);
  q_positive : forall phi k, (k < nf)%nat -> 0 <= M phi k;
  q_direction : forall s k, (k < nf)%nat -> is_derive (fun s => M (times s vc) k) s (dot vc (map (fun i => D (times s vc) i k) (seq 1 (length vc))))
}.
(** m and d are a mass and the derivative of its square along the wall, for the squared mass mu *)
Definition mass_on_wall (mu : R -> R) (m d : R -> R) : Prop := forall z, 0 <= m z /\ m z ^ 2 = mu z /\ is_derive (fun z => m z ^ 2) z (d z).
