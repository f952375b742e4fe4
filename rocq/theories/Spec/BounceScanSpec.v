(** Specification of the list of bounce actions and of the searches on it (C27-C29, C67). *)
From Coq Require Import QArith Qabs List Sorted.
Import ListNotations.
From Verif.Model Require Import BounceScan.
Open Scope Q_scope.

(** temperatures strictly increase along the list *)
Definition increasing (l : list sol) : Prop := StronglySorted (fun a b => sT a < sT b) l.
(** temperatures between the given ones and positive actions *)
Definition physical (Tm Tc : Q) (l : list sol) : Prop := Forall (fun x => Tm <= sT x <= Tc /\ 0 < sS x) l.

(** one evaluation: temperature and whether the previous path is used *)
Definition evaluations (Tm Tc : Q) viable action (s : scan) (h : list (Q * bool)) : scan :=
  fold_left (fun s e => CalculateActionAt Tm Tc viable action s (fst e) (snd e)) h s.

(** [T] solves [g = c] within relative precision [eps]: there are two temperatures, one of them T,
    whose ratio is 1 within [eps], with [g < c] at one and not at the other *)
Definition sign_change (g : Q -> option Q) (c eps T lo hi : Q) : Prop :=
  exists u d vu, (T = u \/ T = d) /\ Qabs (u / d - 1) < eps /\
    g u = Some vu /\ vu < c /\ ~ (exists v, g d = Some v /\ v < c) /\
    lo <= u <= hi /\ lo <= d <= hi.

(** all temperatures between [lo] and [hi] *)
Definition span (Ts : list Q) (lo hi : Q) : Prop := Forall (fun T => lo <= T <= hi) Ts.

(** an acceptable temperature for a fraction: the integral [I] crosses the target within relative
    1e-8 and equals it within 0.1 percent *)
Definition solves (I : Q -> option Q) (target T lo hi : Q) : Prop :=
  sign_change I target (1 # 100000000) T lo hi /\
  exists v, I T = Some v /\
    (Qabs (target - v) < Qabs (target + v) / 2 * (1 # 1000) \/ Qabs target < (1 # 10000000000) /\ Qabs v < (1 # 10000000000)).
