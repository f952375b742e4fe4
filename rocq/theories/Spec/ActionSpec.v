(** Specification of the parts of the action integrator (C46-C49). *)
From Coq Require Import ZArith Reals List.
From Verif.Model Require Import Action.
Import ListNotations.

(** Pascal's triangle *)
Fixpoint choose (n k : nat) : Z :=
  match n, k with
  | _, O => 1
  | O, S _ => 0
  | S n', S k' => choose n' k' + choose n' (S k')
  end%Z.

Local Open Scope R_scope.
Fixpoint sum_upto (f : nat -> R) (n : nat) : R := match n with O => f O | S k => sum_upto f k + f (S k) end.

(** a lies between b and c *)
Definition between (a b c : R) : Prop := Rmin b c <= a <= Rmax b c.

(** integral of r^d over [0, rmax] times a constant, with the solid angle of d+1 dimensions *)
Definition ball_integral (alpha : Z) (rmax c : R) : R :=
  if (alpha =? 2)%Z then 4 * PI * (c * (rmax ^ 3 / 3)) else 2 * PI * PI * (c * (rmax ^ 4 / 4)).

(** the trajectory ends at rest at the false vacuum, within the tolerance *)
Definition reaches_false_vacuum (error L dl l : R) : Prop := Rabs dl <= error /\ Rabs (l - L) / L <= error.
(** some starting point of the path gives such a trajectory *)
Definition has_bounce (env : path_env) (error : R) : Prop :=
  exists l0 d dl l p, e_run env l0 d = Ended dl l p /\ reaches_false_vacuum error (e_L env) dl l.
(** some starting point passes the false vacuum *)
Definition overshoots (env : path_env) (error : R) : Prop :=
  exists l0 d dl l p, e_run env l0 d = Ended dl l p /\ ~ dl <= error.

Definition failure (s : action_status) : Prop := s <> NotCalculated /\ s <> Success.

(** a bracket of starting points narrower than the tolerance contains one that passes the false vacuum *)
Definition narrow_linear (env : path_env) (error : R) : Prop :=
  exists a b p d dl l n, Rmin a b <= p <= Rmax a b /\ (b - a) / e_L env < error * (1 / 10000000) /\ e_run env p d = Ended dl l n /\ error < dl.
(** the same for brackets of the logarithm of the distance to the true minimum *)
Definition narrow_log (env : path_env) (error : R) : Prop :=
  exists a b p dl l n, Rmin a b <= p <= Rmax a b /\ Rabs (b - a) < 1 / 10000000 /\ e_run env (e_lmin env + exp p) (exp p) = Ended dl l n /\ error < dl.

(** a shot that passes the false vacuum by more than the tolerance, still moving *)
Definition passes_clearly (env : path_env) (error l0 d : R) : Prop :=
  exists dl l p, e_run env l0 d = Ended dl l p /\ error < dl /\ error <= (l - e_L env) / e_L env.
(** a shot that turns back or stops before reaching the false vacuum *)
Definition falls_back (env : path_env) (error l0 d : R) : Prop :=
  exists dl l p, e_run env l0 d = Ended dl l p /\ dl <= error /\ ~ reaches_false_vacuum error (e_L env) dl l.
