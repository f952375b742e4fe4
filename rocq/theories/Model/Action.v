(** Model of parts of the bounce action integrator
    (src/bounce_solution/action_calculation.cpp, class BounceActionInt).  Doubles are exact reals unless said otherwise. *)
From Coq Require Import ZArith Reals List Bool.
Import ListNotations.

(** * nChoosek and Bernstein polynomials *)
Section Integers.
  Local Open Scope Z_scope.
  (** conversion to unsigned (32 bit), to int (32 bit, two's complement) and to size_t (64 bit) *)
  Definition u32 (z : Z) : Z := z mod 4294967296.
  Definition i32 (z : Z) : Z := let u := z mod 4294967296 in if u <? 2147483648 then u else u - 4294967296.
  Definition u64 (z : Z) : Z := z mod 18446744073709551616.
  (** loop body 1468-1469: i is a size_t, so both operations are done in size_t and converted back to int *)
  Definition choose_step (n result i : Z) : Z :=
    let r := i32 (u64 (u64 result * u64 (n - i + 1))) in
    i32 (u64 r / i).
  Fixpoint choose_loop (n : Z) (i : Z) (cnt : nat) (result : Z) : Z :=
    match cnt with O => result | S c => choose_loop n (i + 1) c (choose_step n result i) end.
  (** nChoosek, 1458-1472; n and k are unsigned *)
  Definition nChoosek (n k : Z) : Z :=
    if k >? n then 0
    else let k := if u32 (k * 2) >? n then n - k else k in
    if k =? 0 then 1
    else u32 (choose_loop n 2 (Z.to_nat (k - 1)) (i32 n)).
End Integers.

Local Open Scope R_scope.
(** Bernstein, 987-1002; the log message for an argument outside [0, 1] is dropped *)
Definition Bernstein (n nu : Z) (x : R) : R :=
  if ((nu <? 0) || (nu >? n))%Z then 0
  else IZR (nChoosek n nu) * x ^ Z.to_nat nu * (1 - x) ^ Z.to_nat (n - nu).

(** accumulation over b_it = 0 .. BernsteinDegree - 1 (1172-1178, 1207-1222) of one component of the smoothed path and of its
    first and second derivative with respect to the path parameter; s is l_to_Bernstein, len is lf - l0 *)
Fixpoint acc_below (f : nat -> R) (n : nat) : R := match n with O => 0 | S k => acc_below f k + f k end.
Definition smooth_phi (deg : nat) (coef : nat -> R) (s : R) : R :=
  acc_below (fun b => Bernstein (Z.of_nat deg) (Z.of_nat b) s * coef b) deg.
Definition smooth_dphi (deg : nat) (coef : nat -> R) (len s : R) : R :=
  acc_below (fun b => INR deg * (Bernstein (Z.of_nat deg - 1) (Z.of_nat b - 1) s - Bernstein (Z.of_nat deg - 1) (Z.of_nat b) s) * coef b / len) deg.
Definition smooth_d2phi (deg : nat) (coef : nat -> R) (len s : R) : R :=
  acc_below (fun b => INR deg * (INR deg - 1) *
    (Bernstein (Z.of_nat deg - 2) (Z.of_nat b - 2) s - 2 * Bernstein (Z.of_nat deg - 2) (Z.of_nat b - 1) s + Bernstein (Z.of_nat deg - 2) (Z.of_nat b) s) *
    coef b / len ^ 2) deg.

(** * LogisticFunction (529-534) and the blending in ExactSolution (572-626) *)
(** a double with its non-finite values *)
Inductive dbl := Fin (r : R) | PInf | NInf | NaN.
Definition Rleb (a b : R) : bool := if Rle_dec a b then true else false.
Definition Rltb (a b : R) : bool := if Rlt_dec a b then true else false.
Definition Reqb (a b : R) : bool := if Req_EM_T a b then true else false.
Definition ddiv (a b : R) : dbl :=
  if Reqb b 0 then (if Reqb a 0 then NaN else if Rltb 0 a then PInf else NInf) else Fin (a / b).
Definition dneg (a : dbl) : dbl := match a with Fin r => Fin (- r) | PInf => NInf | NInf => PInf | NaN => NaN end.
(** None is NaN *)
Definition LogisticFunction (x : dbl) : option R :=
  match x with
  | PInf => Some 1 | NInf => Some 0 | NaN => None
  | Fin x => if Rleb 10 x then Some 1 else if Rleb x (-10) then Some 0 else Some (1 / (1 + exp (- x)))
  end.
Definition LogisticExponent (l0_minus_lmin threshold initial_lmin : R) : dbl :=
  ddiv (100 * (l0_minus_lmin - threshold)) (threshold - initial_lmin).
Definition is_one (v : option R) : bool := match v with Some r => Reqb r 1 | None => false end.
(** a solution is the triple {rho, l, dl/drho} *)
Record sol3 := mkSol { s_rho : R; s_l : R; s_v : R }.
Inductive exact := Solution (s : sol3) | Undefined (* a component is NaN *) | NegativeGradient (* status set, {} returned *).
Definition mixw (wm wl : option R) (m c : R) : option R :=
  match wm, wl with Some a, Some b => Some (m * a + c * b) | _, _ => None end.
(** ExactSolution, 576-625: min_sol and lin_sol are the results of ExactSolutionFromMinimum and ExactSolutionLin *)
Definition ExactSolution (threshold : option R) (l0_minus_lmin initial_lmin L dVdl : R) (min_sol lin_sol : sol3) : exact :=
  match threshold with
  | None => Solution lin_sol
  | Some thr =>
      if Rleb dVdl 0 then
        if Rltb (l0_minus_lmin / L) (1 / 100) then Solution min_sol else NegativeGradient
      else
        let e := LogisticExponent l0_minus_lmin thr initial_lmin in
        if is_one (LogisticFunction (dneg e)) then Solution min_sol
        else if is_one (LogisticFunction e) then Solution lin_sol
        else match mixw (LogisticFunction (dneg e)) (LogisticFunction e) (s_rho min_sol) (s_rho lin_sol),
                   mixw (LogisticFunction (dneg e)) (LogisticFunction e) (s_v min_sol) (s_v lin_sol) with
             | Some r, Some v => Solution (mkSol r (s_l lin_sol) v)
             | _, _ => Undefined
             end
  end.

(** * the radial integrals (1474-1544) *)
(** for (r = 0; r <= rmax; r += step): None when the fuel runs out *)
Fixpoint radial_loop (fuel : nat) (term : R -> R) (step rmax r acc : R) : option R :=
  match fuel with
  | O => None
  | S f => if Rle_dec r rmax then radial_loop f term step rmax (r + step) (acc + term r) else Some acc
  end.
(** CalculateKineticTermAction 1474-1509 (g is half the squared slope) and CalculatePotentialTermAction 1511-1544 (g is
    the potential along the profile) share this shape; alpha other than 2 and 3 returns -1 *)
Definition simpson_term (d : nat) (g : R -> R) (step r : R) : R :=
  r ^ d * g r + 4 * r ^ d * g (r + step / 2) + r ^ d * g (r + step).
Definition radial_integral (fuel : nat) (alpha : Z) (rmax : R) (g : R -> R) : option R :=
  let step := rmax / 2000 in
  if (alpha =? 2)%Z then option_map (fun i => i * 4 * PI * step / 6) (radial_loop fuel (simpson_term 2 g step) step rmax 0 0)
  else if (alpha =? 3)%Z then option_map (fun i => i * 2 * PI * PI * step / 6) (radial_loop fuel (simpson_term 3 g step) step rmax 0 0)
  else Some (-1).
Definition CalculateKineticTermAction (fuel : nat) (alpha : Z) (rmax : R) (dl_drho : R -> R) : option R :=
  radial_integral fuel alpha rmax (fun r => 1 / 2 * dl_drho r ^ 2).

(** * control flow of the one-dimensional solver and of CalculateAction *)
Inductive action_status := Success | NotCalculated | Integration1DFailed | PathDeformationNotConverged | PathDeformationCrashed
  | FalseVacuumNotMinimum | BackwardsPropagationFailed | NeverUndershootOvershoot | UndershootOvershootNegativeGrad | NotEnoughPointsForSpline.
Inductive shot := Converged | Undershoot | Overshoot.
(** what one run of the integrator ends with: refused because the status is no longer NotCalculated or ExactSolution set a
    failure (645-647), or the last slope, last position and number of points *)
Inductive run := Refused (why : action_status) | Ended (dl l : R) (points : nat).
(** IntegrateBounce, 699-727: classification, UndershotOnce and OvershotOnce *)
Definition classify (error L dl l : R) (under over : bool) : shot * bool * bool :=
  if Rleb (Rabs dl) error && Rleb (Rabs (l - L) / L) error then (Converged, under, over)
  else if Rleb dl error then (Undershoot, true, over)
  else if Rleb error ((l - L) / L) then (Overshoot, under, true)
  else (Overshoot, under, over).
(** number of points after the pop_back of 709-712 *)
Definition points_left (s : shot) (p : nat) : nat := match s with Undershoot => (p - 1)%nat | _ => p end.

(** what a path offers to the solver: whether the starting point lies above the false vacuum (811), the start of the
    search interval, its end after the scan of 821-838, the path length, and the integrator *)
Record path_env := mkEnv { e_high : bool; e_lmin : R; e_lmax : R; e_L : R; e_run : R -> R -> run }.
Record solver := mkSolver { v_status : action_status; v_conv : bool; v_under : bool; v_over : bool; v_points : nat }.

(** the binary search of Solve1DBounce, 859-983; log_mode is mode == 1; the iteration counter is the fuel *)
Section Solve.
  Variables (env : path_env) (error : R).
  (** one call of the integrator followed by the checks of 865-900 and 932-964 *)
  Inductive shot_result := Stop (r : solver) | Shot (s : shot) (under over : bool) (points : nat).
  Definition shoot (l0 d : R) (under over : bool) (points : nat) : shot_result :=
    match e_run env l0 d with
    | Refused why => Stop (mkSolver why false under over points)
    | Ended dl l p =>
        let '(s, under', over') := classify error (e_L env) dl l under over in
        let p := points_left s p in
        if (p <=? 7)%nat then Stop (mkSolver Integration1DFailed false under' over' p)
        else match s with
             | Converged => Stop (mkSolver NotCalculated true under' over' p)
             | _ => Shot s under' over' p
             end
    end.
  Fixpoint search (fuel : nat) (log_mode : bool) (lmin lmax mu_min mu_max : R) (under over : bool) (points : nat) : solver :=
    match fuel with
    | O => mkSolver NotCalculated false under over points
    | S f =>
        let logpart lmin lmax mu_max under over points :=
          let mu := (mu_min + mu_max) / 2 in
          match shoot (e_lmin env + exp mu) (exp mu) under over points with
          | Stop r => r
          | Shot s under over points =>
              if Rltb (Rabs (mu_max - mu_min)) (1 / 10000000) then mkSolver NotCalculated true under over points
              else match s with
                   | Undershoot => search f true lmin lmax mu_min mu under over points
                   | _ => search f true lmin lmax mu mu_max under over points
                   end
          end in
        if log_mode then logpart lmin lmax mu_max under over points
        else
          let l0 := (lmax + lmin) / 2 in
          match shoot l0 (l0 - e_lmin env) under over points with
          | Stop r => r
          | Shot s under over points =>
              let lmin' := match s with Undershoot => lmin | _ => l0 end in
              let lmax' := match s with Undershoot => l0 | _ => lmax end in
              if Rltb ((lmax - lmin) / e_L env) (error * (1 / 10000000)) then
                if over then mkSolver NotCalculated true under over points
                else logpart lmin' lmax' (ln (lmax - lmin) + 2) under over points
              else search f false lmin' lmax' mu_min mu_max under over points
          end
    end.
  (** Solve1DBounce, 781-985, entered with StateOfBounceActionInt NotCalculated; maxiter is 100 by default
      (action_calculation.h 592) *)
  Definition Solve1DBounce (maxiter : nat) (conv under over : bool) : solver :=
    if e_high env then mkSolver BackwardsPropagationFailed conv under over 0
    else search maxiter false (e_lmin env) (e_lmax env) (-200) (ln (e_lmax env - e_lmin env)) false false 0.
End Solve.

(** the members changed by CalculateAction *)
Record bounce := mkBounce {
  b_status : action_status; b_1d : bool (* Integration1DStatus::Converged *); b_path : bool (* PathDeformationStatus::Converged *);
  b_under : bool; b_over : bool; b_without : bool (* PathDeformationConvergedWithout1D *); b_action : R }.
(** the k-th path (0 is the initial one): solver environment, whether PathDeformationCheck accepts its bounce (1080),
    whether the PathDeformation leading away from it reaches a satisfactory error (1418-1426), and the two parts of the action *)
Record paths := mkPaths { p_env : nat -> path_env; p_check : nat -> bool; p_deform : nat -> bool; p_kin : nat -> R; p_pot : nat -> R }.

Definition is_nc (s : action_status) : bool := match s with NotCalculated => true | _ => false end.
(** Solve1DBounce on path k: an object that already carries a failure does not integrate (647, 867); its status is kept
    here, whereas the code may replace it by another failure (598, 815) *)
Definition solve_on (P : paths) (error : R) (k : nat) (b : bounce) : bounce * nat :=
  if is_nc (b_status b) then
    let r := Solve1DBounce (p_env P k) error 100 (b_1d b) (b_under b) (b_over b) in
    (mkBounce (v_status r) (v_conv r) (b_path b) (v_under r) (v_over r) (b_without b) (b_action b), v_points r)
  else (mkBounce (b_status b) false (b_path b) false false (b_without b) (b_action b), 0%nat).
Definition with_status (b : bounce) (s : action_status) : bounce :=
  mkBounce s (b_1d b) (b_path b) (b_under b) (b_over b) (b_without b) (b_action b).
Definition with_path (b : bounce) : bounce :=
  mkBounce (b_status b) (b_1d b) true (b_under b) (b_over b) (b_without b) (b_action b).
(** 1616-1627 and 1664-1675 *)
Definition shots_check (b : bounce) : bounce :=
  let b := if negb (b_under b) && Rleb (-1) (b_action b) then with_status b NeverUndershootOvershoot else b in
  if negb (b_over b) && Rleb (-1) (b_action b) then with_status b NeverUndershootOvershoot else b.
(** the deformation loop, 1609-1725; k is the index of the current path, points the length of rho.  inl: a return statement,
    inr: the loop is left normally, with the index of the path in force *)
Fixpoint deform_loop (P : paths) (error : R) (cnt k : nat) (b : bounce) (points : nat) : bounce + bounce * nat :=
  match cnt with
  | O => inr (b, k)
  | S c =>
      if b_path b then inr (b, k)
      else
        let b := shots_check b in
        if negb (is_nc (b_status b)) then inl b
        else if (points <? 4)%nat then inl (with_status b NotEnoughPointsForSpline)
        else
          (* PathDeformation 1655 *)
          let b := mkBounce (b_status b) (b_1d b) (b_path b) (b_under b) (b_over b) (b_without b || p_deform P k) (b_action b) in
          let k := S k in
          let '(b, points) := solve_on P error k b in
          let b := shots_check b in
          if negb (is_nc (b_status b)) then inl b
          else if b_without b then inr (with_path b, k)
          else if p_check P k then inr (with_path b, k)
          else if negb (b_1d b) then inl (with_status b Integration1DFailed)
          else deform_loop P error c k b points
  end.
(** CalculateAction, 1546-1796.  fv_bad: the false vacuum is not a minimum (1550).  The result says whether Action was assigned. *)
Definition CalculateAction (P : paths) (dim : nat) (fv_bad : bool) (max_integrations : nat) (error : R) (b : bounce) : bounce * bool :=
  if fv_bad then (with_status b FalseVacuumNotMinimum, false)
  else
    let b := mkBounce (b_status b) false false (b_under b) (b_over b) (b_without b) (b_action b) in
    let finish (b : bounce) (k : nat) :=
      if negb (b_1d b) then (with_status b Integration1DFailed, false)
      else (mkBounce (b_status b) (b_1d b) (b_path b) (b_under b) (b_over b) (b_without b) (p_kin P k + p_pot P k), true) in
    if (1 <? dim)%nat then
      let '(b, points) := solve_on P error 0 b in
      if negb (is_nc (b_status b)) then (b, false)
      else if (points <? 4)%nat then (with_status b NotEnoughPointsForSpline, false)
      else
        let b := if p_check P 0 then with_path b else b in
        match deform_loop P error (max_integrations - 1) 0 b points with
        | inl b => (b, false)
        | inr (b, k) => if negb (b_path b) then (with_status b PathDeformationNotConverged, false) else finish b k
        end
    else
      let '(b, _) := solve_on P error 0 b in finish b 0%nat.
