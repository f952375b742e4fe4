(** Additions to C110, C113 and C119. *)
From Coq Require Import Reals List Lra Lia ZArith.
From Coquelicot Require Import Coquelicot.
From Verif Require Import Model.Base Model.Fluid Model.Density Model.EigenDeriv Spec.FluidSpec Proofs.FluidProofs Proofs.MoreProofs.
Import ListNotations.
Open Scope R_scope.

(** C113: a constant right hand side is integrated exactly by every Runge-Kutta method whose weights add up to 1 and every step control *)
Theorem C113_constant_slope : forall fuel tb ctl k x t t_end h y,
  length (tb_weights tb) = length (tb_stages tb) -> fold_right Rplus 0 (tb_weights tb) = 1 -> length k = length x ->
  integrate fuel tb ctl (fun _ _ => Ok k) x t t_end h = Ok y ->
  y = map (fun p => fst p + (t_end - t) * snd p) (combine x k).
Proof. intros fuel tb ctl k x t t_end h y W S L E. exact (integrate_constant tb ctl k W S fuel x t t_end h y L E). Qed.
Print Assumptions C113_constant_slope.
Example C113_nonvacuous_slope : exists y, integrate 2 (Tableau [(0, []); (1, [1])] [1 / 2; 1 / 2] [0; 0]) (fun _ _ _ _ _ => (true, 1)) (fun _ _ => Ok [3]) [1] 0 2 5 = Ok y.
Proof.
  cbn [integrate]. destruct (Req_EM_T 0 2); [lra|]. destruct (Rlt_dec (Rabs (2 - 0)) (Rabs 5)) as [A|A]; [|exfalso; apply A; rewrite !Rabs_right; lra].
  cbn [stages bind tb_stages app]. destruct (Req_EM_T (0 + (2 - 0)) 2) as [B|B]; [|exfalso; apply B; ring]. eexists. reflexivity.
Qed.

(** C110: in the network of the top quark the strong sphaleron has no effect on the doublet exactly if it is in
    chemical equilibrium, twice the potential of the doublet being that of the two singlets *)
Theorem C110_top_sphaleron_equilibrium : forall e p w kb u b, e_Dq e <> 0 ->
  let n := e_kappa e (w_mt p) in
  let rs := quark_reactions (e_relax_t e (w_mt p)) 0 (e_Y e) 0 0 in
  let ss := quark_species (6 * n) (3 * n) kb 4 6 3 (w 0%nat) (w 1%nat) b (w 2%nat) (w 3%nat) u in
  let St := e_source_t e (w_mt p) (w_tht p) in
  diffuses (e_vw e) (e_Dq e) (w 4%nat) (nth 4 (top_rhs e p w) 0) (gain rs ss 0 - St) <->
  (e_SS e = 0 \/ 2 * (w 0%nat / (6 * n)) = w 1%nat / (3 * n) + (- (w 0%nat + w 1%nat)) / 3).
Proof. exact top_sphaleron_equilibrium. Qed.
Print Assumptions C110_top_sphaleron_equilibrium.
Example C110_nonvacuous_equilibrium : e_Dq (only 1 0 0 0 0 0) <> 0 /\ e_SS (only 1 0 0 0 0 0) <> 0 /\ 2 * (0 / (6 * 1)) = 0 / (3 * 1) + (- (0 + 0)) / 3.
Proof. cbn. repeat split; lra. Qed.

(** C119: without derivatives the squared masses are the eigenvalues; boson masses below 1e-5 and fermion masses
    below 1e-10 are set to 0 *)
Theorem C119_values : forall solver N NG NF L2 L3 L4 Deb G DebG F2 F v T p,
  let M := cast (HiggsMassMatrix N L2 L3 L4 Deb v T 0) in
  let Mg := cast (GaugeMassMatrix N G DebG v T) in
  let Mf := FermionMassMatrix NF N F2 F v in
  let cut zero x r := (Rabs x < zero /\ r = 0) \/ (zero <= Rabs x /\ r = x) in
  ((p < N)%nat -> cut (1 / 100000) (nth p (fst (solver N M)) 0) (nth p (HiggsMassesSquared solver N L2 L3 L4 Deb v T 0) 0)) /\
  ((p < NG)%nat -> cut (1 / 100000) (nth p (fst (solver NG Mg)) 0) (nth p (GaugeMassesSquared solver NG N G DebG v T 0) 0)) /\
  ((p < NF)%nat -> cut (1 / 10000000000) (nth p (fst (solver NF Mf)) 0) (nth p (FermionMassesSquared solver NF N F2 F v 0) 0)).
Proof.
  intros solver N NG NF L2 L3 L4 Deb G DebG F2 F v T p M Mg Mf cut. assert (Z5 : 1 / 100000 = / 10 ^ 5) by lra. assert (Z10 : 1 / 10000000000 = / 10 ^ 10) by lra.
  rewrite Z5, Z10. split; [|split]; intro P.
  - apply (masses_values solver (/ 10 ^ 5) N M p P). lra.
  - apply (masses_values solver (/ 10 ^ 5) NG Mg p P). lra.
  - apply (masses_values solver (/ 10 ^ 10) NF Mf p P). lra.
Qed.
Print Assumptions C119_values.
