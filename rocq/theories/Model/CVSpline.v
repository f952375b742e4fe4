(** Model of the constant-velocity spline, src/utility/const_velocity_spline.cpp.  Doubles are exact; linL and L, which the
    class stores as float (const_velocity_spline.h), are exact too. *)
From Coq Require Import QArith Reals List Arith.
From Verif.Model Require Import Base.
Import ListNotations.

(** * add_point, 154-213 *)
Section AddPoint.
  Local Open Scope Q_scope.
  Definition Qltb (a b : Q) : bool := negb (Qle_bool b a).
  (** vev_position[i]; ghost is what an access outside the list yields: None makes it undefined behaviour (as it is), Some g
      is used to discuss what would happen if the access merely returned a number *)
  Definition read (ghost : option Q) (pos : list Q) (i : nat) : outcome Q :=
    match nth_error pos i with Some q => Ok q | None => match ghost with Some g => Ok g | None => UB end end.
  (** the integer bisection, 178-204: (upper + lower) / 2 is an integer division, so floor and ceil agree; None: the message
      "Point in that position already exists!" and no insertion *)
  Fixpoint locate (fuel : nat) (ghost : option Q) (pos : list Q) (p : Q) (lower upper : nat) : outcome (option nat) :=
    match fuel with
    | O => OutOfFuel
    | S f =>
        if Nat.eqb upper (S lower) then Ok (Some upper)
        else
          let mid := Nat.div (upper + lower) 2 in
          bind (read ghost pos upper) (fun vu =>
          if Qeq_bool vu (inject_Z (Z.of_nat mid)) then Ok None
          else
          bind (read ghost pos lower) (fun vl =>
          if Qeq_bool vl (inject_Z (Z.of_nat mid)) then Ok None
          else
          bind (read ghost pos mid) (fun vm =>
          locate f ghost pos p (if Qltb vm p then mid else lower) (if Qltb p vm then mid else upper))))
    end.
  Definition insert_at {A} (i : nat) (x : A) (l : list A) : list A := firstn i l ++ x :: skipn i l.
  (** add_point with compile = false; the recompilation replaces every member by what initialize computes from phipath *)
  Definition add_point {A} (fuel : nat) (ghost : option Q) (path : list A) (pos : list Q) (L p : Q) (v : A) : outcome (list A * list Q) :=
    if Qltb p 0 then Ok (v :: path, pos)
    else if Qltb L p then Ok (path ++ [v], pos)
    else bind (locate fuel ghost pos p 0 (length path)) (fun r =>
         match r with None => Ok (path, pos) | Some u => Ok (insert_at u v path, insert_at u p pos) end).
End AddPoint.

(** * the length table of initialize, 130-139 *)
Section Length.
  Local Open Scope R_scope.
  (** lin_abs_deriv, 22-31: the speed of the spline with the linear parameter *)
  Variable speed : R -> R.
  (** Simpson_step, 32-45 *)
  Definition Simpson_step (t0 t1 : R) : R :=
    (speed t0 + 3 * speed ((2 * t0 + t1) / 3) + 3 * speed ((t0 + 2 * t1) / 3) + speed t1) * (t1 - t0) / 8.
  (** list_l and list_x after i iterations, 127-139; step is linL / num_inter *)
  Fixpoint list_l (step : R) (i : nat) : R :=
    match i with O => 0 | S k => list_l step k + Simpson_step (list_l step k) (list_l step k + step) end.
  Fixpoint list_x (step : R) (i : nat) : R := match i with O => 0 | S k => list_x step k + step end.
End Length.

(** * tangent and normal acceleration *)
Section Tangent.
  Local Open Scope R_scope.
  Definition sum_sq (v : list R) : R := fold_left (fun acc c => acc + c * c) v 0.
  (** dl, 226-243; the argument is the list of splines[i].deriv(1, l_to_x(l)) *)
  Definition dl_vec (g1 : list R) : list R := map (fun c => c / sqrt (sum_sq g1)) g1.
  (** d2l, 244-270; g2 is deriv(2, x), l1 and l2 are x_to_l.deriv(1, x) and x_to_l.deriv(2, x) *)
  Definition d2l_vec (g1 g2 : list R) (l1 l2 : R) : list R :=
    map (fun '(pp, pl) => (pp - pl * l2) / l1 ^ 2) (combine g2 (dl_vec g1)).
End Tangent.
