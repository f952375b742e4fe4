(** Specification of spline interpolation (C43-C45). *)
From Coq Require Import Reals.
From Verif.Model Require Import Spline.
Local Open Scope R_scope.

(** admissible abscissae: strictly increasing and enough of them *)
Definition abscissae (n : nat) (x : nat -> R) (left right : bd_type) : Prop :=
  (3 <= n)%nat /\ (left = not_a_knot \/ right = not_a_knot -> (4 <= n)%nat) /\ forall i, (S i < n)%nat -> x i < x (S i).

Definition second_derivative_at (g : R -> R) (t v : R) : Prop :=
  exists g1, (forall u, derivable_pt_lim g u (g1 u)) /\ derivable_pt_lim g1 t v.
(** one cubic polynomial on the whole of [a, b] *)
Definition one_cubic (g : R -> R) (a b : R) : Prop :=
  exists p q r s, forall t, a <= t <= b -> g t = p + q * t + r * t ^ 2 + s * t ^ 3.

(** the function is a cubic with the same third derivative on [a, b] and on [b, c] *)
Definition cubic_with_third (g : R -> R) (a b k : R) : Prop :=
  exists p q r, forall t, a <= t <= b -> g t = p + q * t + r * t ^ 2 + k / 6 * t ^ 3.
Definition same_third_derivative (g : R -> R) (a b c : R) : Prop :=
  exists k, cubic_with_third g a b k /\ cubic_with_third g b c k.

Definition left_condition (g : R -> R) (x : nat -> R) (left : bd_type) (lv : R) : Prop :=
  match left with
  | first_deriv => derivable_pt_lim g (x 0%nat) lv
  | second_deriv => second_derivative_at g (x 0%nat) lv
  | not_a_knot => same_third_derivative g (x 0%nat) (x 1%nat) (x 2%nat)
  end.
Definition right_condition (g : R -> R) (n : nat) (x : nat -> R) (right : bd_type) (rv : R) : Prop :=
  match right with
  | first_deriv => derivable_pt_lim g (x (n - 1)%nat) rv
  | second_deriv => second_derivative_at g (x (n - 1)%nat) rv
  | not_a_knot => same_third_derivative g (x (n - 3)%nat) (x (n - 2)%nat) (x (n - 1)%nat)
  end.

(** m is the slope at b of the parabola through (a, u), (b, v), (c, w) *)
Definition parabola_slope (a u b v c w m : R) : Prop :=
  exists p q r, p + q * a + r * a ^ 2 = u /\ p + q * b + r * b ^ 2 = v /\ p + q * c + r * c ^ 2 = w /\ m = q + 2 * r * b.

Definition nondecreasing_on (g : R -> R) (a b : R) : Prop := forall s t, a <= s -> s <= t -> t <= b -> g s <= g t.
Definition nonincreasing_on (g : R -> R) (a b : R) : Prop := forall s t, a <= s -> s <= t -> t <= b -> g t <= g s.

(** outside the data the function goes on as a parabola: next to the end e (inside up to the point i) it is the cubic
    v + m h + k h^2 + w h^3 in the distance h from e, outside it is v + m h + k h^2, or, for a prescribed slope,
    the straight line v + m h *)
Definition inside (e i t : R) : Prop := (e <= t <= i) \/ (i <= t <= e).
Definition beyond (e i t : R) : Prop := (t <= e < i) \/ (i < e <= t).
Definition continues_beyond (g : R -> R) (e i v : R) (b : bd_type) : Prop :=
  exists m k w, derivable_pt_lim g e m /\
    (forall t, inside e i t -> g t = v + m * (t - e) + k * (t - e) ^ 2 + w * (t - e) ^ 3) /\
    (forall t, beyond e i t -> g t = v + m * (t - e) + match b with first_deriv => 0 | _ => k end * (t - e) ^ 2).
(** the straight line through two points *)
Definition chord (x y : nat -> R) (i : nat) (t : R) : R := y i + (y (S i) - y i) / (x (S i) - x i) * (t - x i).
