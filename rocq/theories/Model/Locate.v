(** Search for a stationary point: src/minimum_tracer/minimum_tracer.cpp 54-122, MinimumTracer::LocateMinimum.  Doubles are
    real numbers, arithmetic is exact. *)
From Coq Require Import Reals List Arith.
Open Scope R_scope.

(** a vector of size dim: only the components below [dim] are used *)
Definition vector := nat -> R.
(** L2NormVector, src/utility/utility.cpp *)
Fixpoint scalar (dim : nat) (a b : vector) : R := match dim with O => 0 | S d => scalar d a b + a d * b d end.
Definition length2 (dim : nat) (a : vector) : R := sqrt (scalar dim a a).
(** HessianDiagonalShift, minimum_tracer.h 287 *)
Definition shift : R := 1 / 1000.

Section Locate.
  Variable dim : nat.
  (** colPivHouseholderQr().solve, 103-104; None for a zero determinant, 94 *)
  Variable solve : (nat -> vector) -> vector -> option vector.
  Variables (df : vector -> vector) (Hessian : vector -> nat -> vector) (error const_multiplier : R).
  (** 74-119 *)
  Definition newton_step (x : vector) : vector :=
    let g := df x in
    match solve (fun m k => Hessian x m k + (if Nat.eqb m k then shift else 0)) (fun i => -1 * g i) with
    | Some delta => fun j => x j + delta j
    | None => fun j => x j - const_multiplier * g j
    end.
  (** the loop of 74; [n] is the number of rounds left *)
  Fixpoint newton_loop (n : nat) (x : vector) : vector :=
    match n with
    | O => x
    | S n => if Rlt_dec error (length2 dim (df x)) then newton_loop n (newton_step x) else x
    end.
  Definition LocateMinimum (maxiter : nat) (guess : vector) : vector :=
    if Rlt_dec (length2 dim (df guess)) error then guess else newton_loop maxiter guess.
End Locate.
