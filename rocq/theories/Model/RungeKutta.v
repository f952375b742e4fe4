(** Integration of the bounce equation: src/bounce_solution/action_calculation.cpp 153-230, 628-727.

    Doubles are real numbers with exact arithmetic.  The parameters [rho] and [h] of RK5_step are floats
    (175-176); the conversion from double is [to_float]. *)
From Coq Require Import Reals List ZArith Bool.
From Flocq Require Import Core.
From Verif Require Import Model.BounceStart.
Import ListNotations.
Open Scope R_scope.

(** conversion of a double to a float, IEEE 754 round to nearest even; overflow is left out *)
Definition to_float (x : R) : R := round radix2 (FLT_exp (-149) 24) ZnearestE x.

(** vectors of length 2: {l, dl/drho}, and the loops over i *)
Definition vec := (R * R)%type.
Definition vadd (a b : vec) : vec := (fst a + fst b, snd a + snd b).
Definition vmul (k : R) (a : vec) : vec := (k * fst a, k * snd a).
Notation "a +v b" := (vadd a b) (at level 50, left associativity).
Notation "k *v a" := (vmul k a) (at level 40, left associativity).

(** RK5_step, 172-230; [F] is AuxFunctionDev, [rho] and [h] are floats *)
Definition RK5_step (F : R -> vec -> vec) (y dydx : vec) (rho h : R) : vec * vec :=
  let a2 := 2 / 10 in let a3 := 3 / 10 in let a4 := 6 / 10 in let a5 := 1 in let a6 := 875 / 1000 in let b21 := 2 / 10 in
  let b31 := 3 / 40 in let b32 := 9 / 40 in let b41 := 3 / 10 in let b42 := - (9 / 10) in let b43 := 12 / 10 in
  let b51 := - (11) / 54 in let b52 := 25 / 10 in let b53 := - (70) / 27 in let b54 := 35 / 27 in
  let b61 := 1631 / 55296 in let b62 := 175 / 512 in let b63 := 575 / 13824 in
  let b64 := 44275 / 110592 in let b65 := 253 / 4096 in let c1 := 37 / 378 in
  let c3 := 250 / 621 in let c4 := 125 / 594 in let c6 := 512 / 1771 in
  let dc5 := - (277) / 14336 in
  let dc1 := c1 - 2825 / 27648 in let dc3 := c3 - 18575 / 48384 in
  let dc4 := c4 - 13525 / 55296 in let dc6 := c6 - 25 / 100 in
  let ak2 := F (rho + a2 * h) (y +v (b21 * h) *v dydx) in
  let ak3 := F (rho + a3 * h) (y +v h *v (b31 *v dydx +v b32 *v ak2)) in
  let ak4 := F (rho + a4 * h) (y +v h *v (b41 *v dydx +v b42 *v ak2 +v b43 *v ak3)) in
  let ak5 := F (rho + a5 * h) (y +v h *v (b51 *v dydx +v b52 *v ak2 +v b53 *v ak3 +v b54 *v ak4)) in
  let ak6 := F (rho + a6 * h) (y +v h *v (b61 *v dydx +v b62 *v ak2 +v b63 *v ak3 +v b64 *v ak4 +v b65 *v ak5)) in
  let yout := y +v h *v (c1 *v dydx +v c3 *v ak3 +v c4 *v ak4 +v c6 *v ak6) in
  let yerr := h *v (dc1 *v dydx +v dc3 *v ak3 +v dc4 *v ak4 +v dc5 *v ak5 +v dc6 *v ak6) in
  (yout, yerr).

Section Integrate.
  (** RasterizeddVdl and Alpha *)
  Variable dV : R -> R.
  Variable alpha : nat.
  (** 153-160 *)
  Definition d2ldrho2 (l rho v : R) : R := if Req_EM_T v 0 then dV l else dV l - INR alpha * v / rho.
  (** 162-170 *)
  Definition AuxFunctionDev (rho : R) (d : vec) : vec := (snd d, d2ldrho2 (fst d) rho (snd d)).

  (** one entry of the vectors rho, l, dl_drho, d2l_drho2 *)
  Record point := mkPoint { p_rho : R; p_l : R; p_dl : R; p_d2l : R }.
  Inductive status := Converged | Undershoot | Overshoot.
  Variable L : R.
  Variables error eps_abs max_step : R.
  (** std::pow(delta0 / delta1, 0.2) for delta1 > 0; NaN and infinities are left out *)
  Variable fifth_root : R -> R.
  (** the body of the loop, 672-697; the point and the next step size *)
  Definition advance (p : point) (step : R) : point * R :=
    let '(y, err) := RK5_step AuxFunctionDev (p_l p, p_dl p) (p_dl p, p_d2l p) (to_float (p_rho p)) (to_float step) in
    let delta1 := Rmax (Rabs (fst err)) (Rabs (snd err)) in
    let delta0 := eps_abs * Rmax (Rabs (p_l p + fst y)) (Rabs (p_dl p + snd y)) in
    let rho := p_rho p + step in
    (mkPoint rho (fst y) (snd y) (d2ldrho2 (fst y) rho (snd y)),
     if Rlt_dec 0 max_step then Rmin (step * fifth_root (delta0 / delta1)) max_step
     else step * fifth_root (delta0 / delta1) / 2).
  (** the condition of 667-668 without it < maxiter *)
  Definition rolling (p : point) : bool :=
    (if Rlt_dec error (p_dl p) then true else false) && (if Rlt_dec ((p_l p - L) / L) error then true else false).
  (** 666-698: [n] is maxiter - it; the points come newest first *)
  Fixpoint loop (n it : nat) (p : point) (ps : list point) (step : R) : list point :=
    match n with
    | O => p :: ps
    | S n =>
        if rolling p || Nat.ltb it 5 then
          let '(q, step') := advance p step in loop n (S it) q (p :: ps) step'
        else p :: ps
    end.
  (** 699-727: the status, the points that remain, and whether UndershotOnce and OvershotOnce are set *)
  Definition classify (ps : list point) : option (status * list point * bool * bool) :=
    match ps with
    | [] => None
    | p :: rest =>
        if (if Rle_dec (Rabs (p_dl p)) error then true else false) && (if Rle_dec (Rabs (p_l p - L) / L) error then true else false)
        then Some (Converged, p :: rest, false, false)
        else if Rle_dec (p_dl p) error then Some (Undershoot, rest, true, false)
        else if Rle_dec error ((p_l p - L) / L) then Some (Overshoot, p :: rest, false, true)
        else Some (Overshoot, p :: rest, false, false)
    end.
  (** IntegrateBounce, 628-729; [first] is the result of ExactSolution(l0).  None: the state of the object says that
      the first step failed, nothing is changed. *)
  Definition IntegrateBounce (maxiter : nat) (l0 : R) (first : start) : option (status * list point * bool * bool) :=
    match first with
    | Start r l v =>
        let p0 := mkPoint 0 l0 0 (d2ldrho2 l0 0 0) in
        let p1 := mkPoint r l v (d2ldrho2 l r v) in
        classify (loop maxiter 0 p1 [p0] (r / 100))
    | _ => None
    end.
End Integrate.
