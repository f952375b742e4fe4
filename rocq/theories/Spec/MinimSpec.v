(** Specifications for the minimiser layer. *)
From Coq Require Import QArith Qabs.
From Verif.Model Require Import Base Minim.
Open Scope Q_scope.

(** potential values: [None] is NaN *)
Definition lowest {A} (S : A * option Q -> Prop) (c : A * option Q) : Prop :=
  S c /\ exists x, snd c = Some x /\ forall c' y, S c' -> snd c' = Some y -> x <= y.

(** the candidates the enabled algorithms produce: the origin always, NLopt's and GSL's result if they
    succeed, the CMA-ES result.  With at most two fields CMA-ES is replaced by GSL. *)
Inductive produced (P : potential) (cmaes gsl nlopt : bool) (C : candidates) : vec * option Q -> Prop :=
  | at_origin : produced P cmaes gsl nlopt C (repeat 0 (p_nVEV P), p_V P (repeat 0 (p_nVEV P)))
  | by_nlopt c : nlopt = true -> c_nlopt C = Some c -> produced P cmaes gsl nlopt C c
  | by_cmaes : cmaes = true -> (2 < p_nVEV P)%nat ->
      produced P cmaes gsl nlopt C (fst (c_cmaes C), p_V P (fst (c_cmaes C)))
  | by_gsl v : gsl = true \/ (p_nVEV P <= 2)%nat -> c_gsl C = Some v -> produced P cmaes gsl nlopt C (v, p_V P v).

(** electroweak VEVs of at most 0.5 GeV count as zero *)
Definition cleaned (P : potential) (v r : vec) : Prop :=
  (forall e, p_EW P v = Some e -> e <= 1 # 2 -> r = p_zero P v) /\
  ((p_EW P v = None \/ exists e, p_EW P v = Some e /\ 1 # 2 < e) -> r = v).

(** temperatures [start + step, start + 2 step, ...] *)
Definition arithmetic (start step : Q) (ts : list Q) : Prop :=
  forall k, (k < length ts)%nat -> nth k ts 0 == start + inject_Z (Z.of_nat (S k)) * step.

(** ** critical temperature *)
(** a result is a broken minimum found by the minimiser at the reported temperature *)
Definition broken_at (minim : Q -> vec -> vec) (ew : vec -> Q) (threshold : Q) (r : ewpt) : Prop :=
  exists st, e_min r = minim (e_Tc r) st /\ e_vc r = ew (e_min r) /\ 1 # 100 <= e_vc r /\ e_vc r < 255 /\
    threshold <= e_vc r / e_Tc r.
(** within 0.01 GeV on the far side of the reported temperature a minimisation finds no VEV *)
Definition disappears_near (minim : Q -> vec -> vec) (ew : vec -> Q) (T0 T1 : Q) (r : ewpt) : Prop :=
  exists TE st, Qabs (TE - e_Tc r) <= 1 # 100 /\ ew (minim TE st) < 1 # 100 /\
    (T0 <= T1 -> T0 <= e_Tc r /\ e_Tc r <= TE /\ TE <= T1) /\
    (T1 <= T0 -> T1 <= TE /\ TE <= e_Tc r /\ e_Tc r <= T0).

(** what each status of the search between T0 and T1 says, and what the returned numbers are *)
Definition start_is_broken (minim : Q -> vec -> vec) (ew : vec -> Q) (stable : vec -> bool) (tree : vec) (T0 T1 : Q) : Prop :=
  ew (minim T1 tree) <= 1 # 10000 /\ 1 # 10000 < ew (minim T0 tree) /\ ew (minim T0 tree) < 255.
Definition minimum_between (minim : Q -> vec -> vec) (ew : vec -> Q) (T0 T1 : Q) (r : ewpt) : Prop :=
  (exists st, e_min r = minim (e_Tc r) st) /\ e_vc r = ew (e_min r) /\
  (T0 <= T1 -> T0 <= e_Tc r /\ e_Tc r <= T1) /\ (T1 <= T0 -> T1 <= e_Tc r /\ e_Tc r <= T0).
Definition status_meaning (minim : Q -> vec -> vec) (ew : vec -> Q) (stable : vec -> bool) (tree : vec) (T0 T1 : Q) (r : ewpt) : Prop :=
  match e_status r with
  | NOTVANISHINGATFINALTEMP => 1 # 10000 < ew (minim T1 tree) /\ e_min r = minim T1 tree /\ e_vc r = ew (minim T1 tree) /\ e_Tc r = T1
  | NLOVEVZEROORINF => ew (minim T1 tree) <= 1 # 10000 /\ (ew (minim T0 tree) <= 1 # 10000 \/ 255 <= ew (minim T0 tree)) /\ e_vc r = 0
  | NOTNLOSTABLE => start_is_broken minim ew stable tree T0 T1 /\ stable (minim T0 tree) = false /\ T0 == 0 /\
      e_min r = minim T0 tree /\ e_vc r = ew (minim T0 tree)
  | NUMERICALLYUNSTABLE => start_is_broken minim ew stable tree T0 T1 /\ (stable (minim T0 tree) = true \/ ~ T0 == 0) /\
      minimum_between minim ew T0 T1 r /\ 255 <= e_vc r
  | BELOWTHRESHOLD => start_is_broken minim ew stable tree T0 T1 /\ (stable (minim T0 tree) = true \/ ~ T0 == 0) /\
      minimum_between minim ew T0 T1 r /\ ~ e_vc r == 0 /\ e_vc r / e_Tc r < 0
  | SUCCESS => start_is_broken minim ew stable tree T0 T1 /\ (stable (minim T0 tree) = true \/ ~ T0 == 0)
  end.

(** a chain of minima: the first found at the starting temperature from a starting point, each later one
    found at its own temperature from the one before *)
Inductive chain (next : Q -> vec -> list vec) (start : Q) (points : list vec) : list (Q * vec) -> Prop :=
  | chain_start p m : In p points -> In m (next start p) -> chain next start points [(start, m)]
  | chain_next c T m T' m' : chain next start points (c ++ [(T, m)]) -> In m' (next T' m) ->
      chain next start points (c ++ [(T, m); (T', m')]).
