(** The left-handed density in front of the wall: integration of the diffusion
    networks from the far end, where all densities and gradients are zero,
    towards the wall (Calc_nL of the three plasma descriptions), and the
    asymmetry computed from it.

    Simplifications: Boost's integrate_adaptive with a controlled error stepper
    is an explicit Runge-Kutta method with an arbitrary tableau; its step
    control is an arbitrary function of step sizes and of absolute values of
    state, derivative and error estimate (Boost's default error checker uses
    nothing else); [fuel] bounds the number of attempted steps.  The masses at a
    position are arbitrary functions; the cubic spline is an arbitrary function
    of its values. *)
From Coq Require Import Reals List ZArith Lra.
From Verif Require Import Base Model.Fluid Model.WallProfile Model.Eta.
Import ListNotations.
Open Scope R_scope.

Definition vplus (a b : list R) : list R := map (fun p => fst p + snd p) (combine a b).
Definition vscale (c : R) (a : list R) : list R := map (Rmult c) a.

(** Explicit Runge-Kutta method: node and coefficients of each stage, weights
    of the result and of the error estimate. *)
Record tableau := Tableau { tb_stages : list (R * list R); tb_weights : list R; tb_errors : list R }.

(** [x + h (c1 k1 + c2 k2 + ...)] *)
Definition advance (x : list R) (h : R) (cs : list R) (ks : list (list R)) : list R :=
  fold_left (fun acc p => vplus acc (vscale (h * fst p) (snd p))) (combine cs ks) x.

Fixpoint stages (f : R -> list R -> outcome (list R)) (t h : R) (x : list R)
    (rows : list (R * list R)) (ks : list (list R)) : outcome (list (list R)) :=
  match rows with
  | [] => Ok ks
  | (c, row) :: rest =>
      bind (f (t + c * h) (advance x h row ks)) (fun k => stages f t h x rest (ks ++ [k]))
  end.

(** Step control: current position, step, absolute values of state, derivative
    and error give whether the step is accepted and the next step size. *)
Definition control := R -> R -> list R -> list R -> list R -> bool * R.

(** src/baryo_calculation/Fluid_Type/top_source.cpp 49-56, bot_source.cpp
    181-188, tau_source.cpp 245-252 (integrate_adaptive): the last step is
    shortened so that it ends at [t_end]. *)
Fixpoint integrate (fuel : nat) (tb : tableau) (ctl : control) (f : R -> list R -> outcome (list R))
    (x : list R) (t t_end h : R) : outcome (list R) :=
  match fuel with
  | O => OutOfFuel
  | S fuel =>
      if Req_EM_T t t_end then Ok x
      else
        let h := if Rlt_dec (Rabs (t_end - t)) (Rabs h) then t_end - t else h in
        bind (stages f t h x (tb_stages tb) []) (fun ks =>
          let x' := advance x h (tb_weights tb) ks in
          let err := advance (vscale 0 x) h (tb_errors tb) ks in
          let (ok, h') := ctl t h (map Rabs x) (map Rabs (hd [] ks)) (map Rabs err) in
          if ok then integrate fuel tb ctl f x' (t + h) t_end h'
          else integrate fuel tb ctl f x t t_end h')
  end.

(** CP-violating phases of top, bottom and tau in the symmetric and in the
    broken phase (gen_func_fluid.cpp 577-592). *)
Record phases := Phases { ph_t : R * R; ph_b : R * R; ph_tau : R * R }.

(** top_source.cpp 70-80, bot_source.cpp 51-79, tau_source.cpp 57-103: masses
    and derivatives of the phases at a position. *)
Definition point_at (LW : R) (mt mb mtau : R -> R) (ph : phases) (z : R) : wall_point :=
  let d p := snd (fst (Calc_theta LW (fst p) (snd p) z)) in
  WallPoint (mt z) (mb z) (mtau z) (d (ph_t ph)) (d (ph_b ph)) (d (ph_tau ph)).

(** Right hand side of a network as the integrator calls it. *)
Definition network_rhs (net : network) (e : fluid) (bflag tflag : Z) (point : R -> wall_point) (z : R) (x : list R)
  : outcome (list R) :=
  let w := fun i => nth i x 0 in
  match net with
  | top => Ok (top_rhs e (point z) w)
  | bottom => bot_rhs e bflag (point z) w
  | tau => tau_rhs e bflag tflag (point z) w
  end.
Definition network_size (net : network) : nat := match net with top => 8 | bottom => 12 | tau => 18 end.
Definition network_left (net : network) (x : list R) : R :=
  let w := fun i => nth i x 0 in
  match net with top => top_left w | bottom => bot_left w | tau => tau_left w end.

(** top_source.cpp 28-61, bot_source.cpp 159-191, tau_source.cpp 213-255.  With
    [z_start = z_end] nothing is integrated. *)
Definition Calc_nL (fuel : nat) (tb : tableau) (ctl : control) (net : network) (e : fluid) (bflag tflag : Z)
    (point : R -> wall_point) (z_start z_end : R) : outcome R :=
  let h := if Rlt_dec z_start z_end then / 10 ^ 8 else - / 10 ^ 8 in
  bind (integrate fuel tb ctl (network_rhs net e bflag tflag point) (repeat 0 (network_size net)) z_start z_end h)
    (fun x => Ok (network_left net x)).

(** src/baryo_calculation/Fluid_Type/gen_calc.cpp 39-44 and
    src/baryo_calculation/CalculateEtaInterface.cpp 258-273: values at the
    grid positions, spline, asymmetry. *)
Fixpoint values (nL : R -> outcome R) (zs : list R) : outcome (list R) :=
  match zs with
  | [] => Ok []
  | z :: zs => bind (nL z) (fun v => bind (values nL zs) (fun vs => Ok (v :: vs)))
  end.
Definition asymmetry (spline : list R -> R -> R) (T vw zmax : R) (zs : list R) (nL : R -> outcome R) : outcome R :=
  bind (values nL zs) (fun vs => Ok (eta_of T vw (spline vs) zmax)).
