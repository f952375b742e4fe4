(** Specification of the temperatures at which the bounce equation is solved (C87-C89). *)
From Coq Require Import QArith Qabs List.
Import ListNotations.
From Verif.Model Require Import BounceScan.
Open Scope Q_scope.

(** action over temperature of an entry *)
Definition per (x : sol) : Q := sS x / sT x.
(** [T] is where the straight line through (temperature, action over temperature) of [a] and [b] has the value [v] *)
Definition on_line (a b : sol) (T v : Q) : Prop := (T - sT a) * (per b - per a) == (v - per a) * (sT b - sT a).

(** ** the initial scan *)
(** the first [n] temperatures from [T] downwards in steps of [dT] *)
Definition steps (T dT : Q) (n : nat) : list Q := map (fun k => Nat.iter k (fun t => t - dT) T) (seq 0 n).
(** the viable ones with the number of the calculation *)
Definition planned (viable : Q -> bool) (Ts : list Q) (c : nat) : list (nat * Q) :=
  combine (seq c (length (filter viable Ts))) (filter viable Ts).
(** entries of the calculations with a positive action *)
Definition entry (action : nat -> Q -> bool -> option Q) (p : nat * Q) : list sol :=
  match action (fst p) (snd p) true with
  | Some v => if Qlt_le_dec 0 v then [{| sT := snd p; sS := v |}] else []
  | None => []
  end.
(** the action over the temperature is positive and below 40 *)
Definition low_enough (action : nat -> Q -> bool -> option Q) (p : nat * Q) : Prop :=
  exists v, action (fst p) (snd p) true = Some v /\ 0 < v /\ v / snd p < 40.

(** ** the extension of the list *)
Section Extension.
  Variables (Tm Tc : Q) (viable : Q -> bool) (action : nat -> Q -> bool -> option Q).
  (** an evaluation at [U] that adds nothing: too close to an entry, not viable, or no positive action in the
      given ways to start *)
  Definition unusable (l : list sol) (U : Q) (starts : list bool) : Prop :=
    (exists y, In y l /\ Qabs (U - sT y) < 0.001) \/ viable U = false \/
    Forall (fun smart => exists n, ~ exists v, action n U smart = Some v /\ 0 < v) starts.

  (** [new] entries above [l], [j] of them at projected temperatures *)
  Inductive extends_up : list sol -> list sol -> nat -> Prop :=
  | up_none l : extends_up l [] 0
  | up_projected r a b x new j :
      per b <= 200 -> per a < per b -> on_line a b (sT x) (per b + 10) -> sT x <= Tc ->
      extends_up (r ++ [a; b] ++ [x]) new j -> extends_up (r ++ [a; b]) (x :: new) (S j)
  | up_mirrored r a b x T new j :
      per b <= 200 -> per a < per b -> on_line a b T (per b + 10) -> Tc < T ->
      sT x == sT b + (sT b - sT a) -> sT x <= Tc ->
      extends_up (r ++ [a; b] ++ [x]) new j -> extends_up (r ++ [a; b]) (x :: new) j.
  (** the reasons to stop after [j] projected temperatures *)
  Definition stops_up (l : list sol) (j : Z) : Prop :=
    exists r a b, l = r ++ [a; b] /\
      (200 < per b \/ 1 + (200 - per b) / 10 < inject_Z j \/ per b <= per a \/
       exists T, per a < per b /\ on_line a b T (per b + 10) /\
         (T <= Tc /\ unusable l T [true; false] \/
          Tc < T /\ Tc < sT b + (sT b - sT a) \/
          Tc < T /\ unusable l (sT b + (sT b - sT a)) [true])).

  (** the same downwards *)
  Inductive extends_down : list sol -> list sol -> nat -> Prop :=
  | down_none l : extends_down l [] 0
  | down_projected r a b x new j :
      50 <= per a -> per a < per b -> on_line a b (sT x) (per a - 10) -> Tm <= sT x ->
      extends_down (x :: a :: b :: r) new j -> extends_down (a :: b :: r) (new ++ [x]) (S j)
  | down_mirrored r a b x T new j :
      50 <= per a -> per a < per b -> on_line a b T (per a - 10) -> T < Tm ->
      sT x == sT a - (sT b - sT a) -> Tm <= sT x ->
      extends_down (x :: a :: b :: r) new j -> extends_down (a :: b :: r) (new ++ [x]) j.
  Definition stops_down (l : list sol) (j : Z) : Prop :=
    exists r a b, l = a :: b :: r /\
      (per a < 50 \/ 1 + (per a - 50) / 10 < inject_Z j \/ per b <= per a \/
       exists T, per a < per b /\ on_line a b T (per a - 10) /\
         (Tm <= T /\ unusable l T [true; false] \/
          T < Tm /\ sT a - (sT b - sT a) < Tm \/
          T < Tm /\ unusable l (sT a - (sT b - sT a)) [true])).
End Extension.

(** ** the refinement between two neighbours *)
(** the list of temperatures cuts the range of action over temperature between [a] and [b] into steps of at most [d],
    at the least number of temperatures *)
Definition cuts (a b : sol) (d : Q) (Ts : list Q) : Prop :=
  exists n : nat, (0 < n)%nat /\ length Ts = (n - 1)%nat /\
    (forall k, (k < n - 1)%nat -> on_line a b (nth k Ts 0) (per a + inject_Z (Z.of_nat (S k)) * ((per b - per a) / inject_Z (Z.of_nat n)))) /\
    (per b - per a) / inject_Z (Z.of_nat n) <= d /\
    inject_Z (Z.of_nat (n - 1)) * d < per b - per a.
