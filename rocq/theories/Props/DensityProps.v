(** C113: the asymmetry of the vev-insertion approach is odd under CP; transport in front of the wall. *)
From Coq Require Import Reals List ZArith Lra Lia.
From Coquelicot Require Import Coquelicot.
From Verif Require Import Base Model.Fluid Model.WallProfile Model.Eta Model.Density Model.Rates Spec.DensitySpec Spec.EtaSpec Proofs.DerivLib Proofs.DensityProofs.
Import ListNotations.
Open Scope R_scope.

(** opposite phases of all particles give the opposite left-handed density, for every Runge-Kutta method and step control *)
Theorem C113_density_odd : forall fuel tb ctl net e bf tf LW mt mb mtau ts tb' bs bb ls lb z0 z1,
  (forall m th, e_source_t e m (- th) = - e_source_t e m th /\ e_source_b e m (- th) = - e_source_b e m th /\ e_source_tau e m (- th) = - e_source_tau e m th) ->
  opposite (Calc_nL fuel tb ctl net e bf tf (point_at LW mt mb mtau (Phases (ts, tb') (bs, bb) (ls, lb))) z0 z1)
           (Calc_nL fuel tb ctl net e bf tf (point_at LW mt mb mtau (Phases (- ts, - tb') (- bs, - bb) (- ls, - lb))) z0 z1).
Proof. intros. exact (density_odd fuel tb ctl net e bf tf LW mt mb mtau (Phases (ts, tb') (bs, bb) (ls, lb)) z0 z1 H). Qed.
Print Assumptions C113_density_odd.

(** the integrand of the source has the property asked for *)
Theorem C113_source_odd : forall lepton T vw m thp m2 dm2 k,
  opposite (scp_integrand lepton T vw m thp m2 dm2 k) (scp_integrand lepton T vw m (- thp) m2 dm2 k).
Proof. exact source_odd. Qed.
Print Assumptions C113_source_odd.

(** and the opposite asymmetry *)
Theorem C113_asymmetry_odd : forall fuel tb ctl net e bf tf LW mt mb mtau ts tb' bs bb ls lb spline T vw zmax zs,
  (forall m th, e_source_t e m (- th) = - e_source_t e m th /\ e_source_b e m (- th) = - e_source_b e m th /\ e_source_tau e m (- th) = - e_source_tau e m th) ->
  0 <= zmax -> (forall vs z, continuity_pt (spline vs) z) -> (forall vs z, spline (map Ropp vs) z = - spline vs z) ->
  opposite (asymmetry spline T vw zmax zs (Calc_nL fuel tb ctl net e bf tf (point_at LW mt mb mtau (Phases (ts, tb') (bs, bb) (ls, lb))) zmax))
           (asymmetry spline T vw zmax zs (Calc_nL fuel tb ctl net e bf tf (point_at LW mt mb mtau (Phases (- ts, - tb') (- bs, - bb) (- ls, - lb))) zmax)).
Proof. intros. exact (asymmetry_odd fuel tb ctl net e bf tf LW mt mb mtau (Phases (ts, tb') (bs, bb) (ls, lb)) spline T vw zmax zs H H0 H1 H2). Qed.
Print Assumptions C113_asymmetry_odd.

(** without phases there is no asymmetry *)
Theorem C113_no_phases : forall fuel tb ctl net e bf tf LW mt mb mtau ph spline T vw zmax zs a,
  (forall m th, e_source_t e m (- th) = - e_source_t e m th /\ e_source_b e m (- th) = - e_source_b e m th /\ e_source_tau e m (- th) = - e_source_tau e m th) ->
  0 <= zmax -> (forall vs z, continuity_pt (spline vs) z) -> (forall vs z, spline (map Ropp vs) z = - spline vs z) ->
  (forall p, In p [ph_t ph; ph_b ph; ph_tau ph] -> Rabs (fst p) < / 10 ^ 12 /\ Rabs (snd p) < / 10 ^ 12) ->
  asymmetry spline T vw zmax zs (Calc_nL fuel tb ctl net e bf tf (point_at LW mt mb mtau ph) zmax) = Ok a -> a = 0.
Proof. exact asymmetry_zero. Qed.
Print Assumptions C113_no_phases.

(** with a phase the density is not zero in general: two steps of Euler's method *)
Definition plain_fluid : fluid :=
  Fluid 0 1 1 1 1 1 0 0 0 0 0 (fun _ => 1) (fun _ => 0) (fun _ => 0) (fun _ => 0) (fun _ th => th) (fun _ th => th) (fun _ th => th).
Definition euler : tableau := Tableau [(0, [])] [1] [0].
Definition one_jump : control := fun t h _ _ _ => (true, - (t + h)).
Example C113_nonvacuous : exists v, v <> 0 /\
  Calc_nL 3 euler one_jump top plain_fluid 1 1 (point_at 1 (fun _ => 1) (fun _ => 0) (fun _ => 0) (Phases (0, 1) (0, 0) (0, 0))) 1 0 = Ok v.
Proof.
  assert (S : 0 < / 10 ^ 8 < 1). { replace (10 ^ 8) with 100000000 by ring. lra. }
  assert (S12 : 0 < / 10 ^ 12 < 1). { replace (10 ^ 12) with 1000000000000 by ring. lra. }
  unfold Calc_nL. destruct (Rlt_dec 1 0) as [A|A]; [exfalso; lra|]. set (s := / 10 ^ 8) in *. clearbody s.
  cbn [integrate]. destruct (Req_EM_T 1 0) as [B|B]; [exfalso; lra|].
  destruct (Rlt_dec (Rabs (0 - 1)) (Rabs (- s))) as [C|C].
  { exfalso. rewrite Rabs_Ropp, (Rabs_pos_eq s) in C by lra. rewrite Rabs_left in C by lra. lra. }
  cbn [bind stages tb_stages euler]. cbn [network_rhs]. unfold advance at 1. cbn [combine fold_left bind tb_weights euler one_jump].
  destruct (Req_EM_T (1 + - s) 0) as [D|D]; [exfalso; lra|].
  destruct (Rlt_dec (Rabs (0 - (1 + - s))) (Rabs (- (1 + - s)))) as [E|E].
  { exfalso. rewrite Rabs_Ropp in E. replace (0 - (1 + - s)) with (- (1 + - s)) in E by ring. rewrite Rabs_Ropp in E. lra. }
  cbn [bind stages tb_stages euler app]. destruct (Req_EM_T (1 + - s + - (1 + - s)) 0) as [F|F]; [|exfalso; apply F; ring].
  cbn [bind]. eexists. split; [|reflexivity].
  set (th := fun z => snd (fst (Calc_theta 1 0 1 z))).
  assert (N : th (1 + 0 * - s) <> 0).
  { unfold th, Calc_theta. rewrite Rabs_R0, Rabs_R1. destruct (Rlt_dec 0 (/ 10 ^ 12)); [|exfalso; lra]. destruct (Rlt_dec 1 (/ 10 ^ 12)); [exfalso; lra|].
    cbn [fst snd]. set (c := cosh _). assert (H : 0 < c) by (unfold c, cosh; pose proof (exp_pos ((1 + 0 * - s) / 1)); pose proof (exp_pos (- ((1 + 0 * - s) / 1))); lra).
    replace (- (1 - 0) / (2 * 1 * c ^ 2)) with (- (/ (2 * c ^ 2))) by (field; lra). apply Ropp_neq_0_compat, Rinv_neq_0_compat. nra. }
  unfold network_left, top_left, advance, vplus, vscale, top_rhs, point_at, network_size, plain_fluid, one_jump. cbn.
  fold (th (1 + 0 * - s)). set (x := th (1 + 0 * - s)) in *. clearbody x.
  intro Z. assert (Q : s * (1 - s) * x = 0). { rewrite <- Z. unfold kappa_QL_0, kappa_QR_0, kappa_H_0. field; lra. }
  apply N. apply Rmult_integral in Q. destruct Q as [Q|Q]; [exfalso; nra|exact Q].
Qed.

(** the direction of the wall: with the symmetric phase at positive positions (C108) a density that is only transported
    can extend in front of the wall … *)
Theorem C113_front : forall vw D, 0 < vw -> 0 < D ->
  let n := fun z => exp (- (vw / D) * z) in let n1 := fun z => - (vw / D) * exp (- (vw / D) * z) in
  free_flow vw D n n1 /\ vanishes_ahead n /\ 0 < n 0.
Proof. exact front_exponential. Qed.
Print Assumptions C113_front.
(** … but the equations of the networks have no such solution; they are those of a wall that moves the other way *)
Theorem C113_no_front : forall p (n n1 n2 : R -> R),
  (forall z, derivable_pt_lim n z (n1 z)) -> (forall z, derivable_pt_lim n1 z (n2 z)) ->
  (exists vw D, 0 < vw /\ 0 < D /\ forall z, n2 z =
     nth 4 (top_rhs (Fluid vw D D D D D 0 0 0 0 0 (fun _ => 1) (fun _ => 0) (fun _ => 0) (fun _ => 0) (fun _ _ => 0) (fun _ _ => 0) (fun _ _ => 0))
              p (fun i => match i with O => n z | 4%nat => n1 z | _ => 0 end)) 0) ->
  vanishes_ahead n -> forall z, n z = 0.
Proof. exact top_front. Qed.
Print Assumptions C113_no_front.
Theorem C113_front_refuted : exists vw D p (n n1 n2 : R -> R) z, 0 < vw /\ 0 < D /\ free_flow vw D n n1 /\ vanishes_ahead n /\
  derivable_pt_lim n1 z (n2 z) /\
  n2 z <> nth 4 (top_rhs (Fluid vw D D D D D 0 0 0 0 0 (fun _ => 1) (fun _ => 0) (fun _ => 0) (fun _ => 0) (fun _ _ => 0) (fun _ _ => 0) (fun _ _ => 0))
              p (fun i => match i with O => n z | 4%nat => n1 z | _ => 0 end)) 0.
Proof. exact front_witness. Qed.
Print Assumptions C113_front_refuted.
(** the networks are those of a wall that moves towards negative positions *)
Theorem C113_front_partial : forall e p w vw D, e_vw e = vw -> e_Dq e = D -> D <> 0 ->
  e_relax_t e (w_mt p) = 0 -> e_SS e = 0 -> e_Y e = 0 -> e_source_t e (w_mt p) (w_tht p) = 0 ->
  D * nth 4 (top_rhs e p w) 0 + (- vw) * w 4%nat = 0.
Proof. exact top_free. Qed.
Print Assumptions C113_front_partial.
