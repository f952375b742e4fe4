(** C110: the diffusion networks of the vev-insertion approach are reaction networks. *)
From Coq Require Import Reals List ZArith Lra Lia.
From Verif Require Import Base Model.Fluid Spec.FluidSpec Proofs.FluidProofs.
Import ListNotations.
Open Scope R_scope.

(** every network with non-negative rates lowers the free energy (a fact about the specification) *)
Theorem C110_networks_dissipate : forall rs ss,
  (forall r, In r rs -> 0 <= fst r /\ length (snd r) = length ss) -> energy_rate ss (gain rs ss) <= 0.
Proof. exact network_dissipates. Qed.
Print Assumptions C110_networks_dissipate.

(** mass flags: 1 and 2 are accepted, everything else throws *)
Theorem C110_flags : forall e f g p w,
  (((f = 1%Z \/ f = 2%Z) -> exists d, bot_rhs e f p w = Ok d /\ length d = 12%nat) /\
   (f <> 1%Z -> f <> 2%Z -> bot_rhs e f p w = Throw RuntimeError)) /\
  (((f = 1%Z \/ f = 2%Z) -> (g = 1%Z \/ g = 2%Z) -> exists d, tau_rhs e f g p w = Ok d /\ length d = 18%nat) /\
   ((f <> 1%Z /\ f <> 2%Z) \/ (g <> 1%Z /\ g <> 2%Z) -> tau_rhs e f g p w = Throw RuntimeError)).
Proof.
  intros e f g p w. exact (conj (conj (bot_valid e f p w) (bot_invalid e f p w)) (conj (tau_valid e f g p w) (tau_invalid e f g p w))).
Qed.
Print Assumptions C110_flags.

(** baryon number: the third generation density is only transported *)
Theorem C110_baryon_number : forall e f g p w d, e_Dq e <> 0 ->
  (bot_rhs e f p w = Ok d -> diffuses (e_vw e) (e_Dq e) (w 6%nat + w 7%nat + w 8%nat) (nth 6 d 0 + nth 7 d 0 + nth 8 d 0) 0) /\
  (tau_rhs e f g p w = Ok d -> diffuses (e_vw e) (e_Dq e) (w 9%nat + w 10%nat + w 11%nat) (nth 9 d 0 + nth 10 d 0 + nth 11 d 0) 0).
Proof. intros e f g p w d D. split; intro H; [exact (bot_baryon e f p w d H D)|exact (tau_baryon e f g p w d H D)]. Qed.
Print Assumptions C110_baryon_number.

(** lepton number *)
Theorem C110_lepton_number : forall e f g p w d, tau_rhs e f g p w = Ok d -> e_Dlep e <> 0 -> e_Dtau e <> 0 ->
  e_vw e * (w 12%nat + w 13%nat + w 14%nat) = e_Dlep e * nth 12 d 0 + e_Dtau e * (nth 13 d 0 + nth 14 d 0).
Proof. exact tau_lepton. Qed.
Print Assumptions C110_lepton_number.

(** the two Higgs doublets differ by a density that is only transported *)
Theorem C110_higgs_difference : forall e f g p w d, e_Dh e <> 0 ->
  diffuses (e_vw e) (e_Dh e) (w 6%nat - w 7%nat) (nth 6 (top_rhs e p w) 0 - nth 7 (top_rhs e p w) 0) 0 /\
  (bot_rhs e f p w = Ok d -> diffuses (e_vw e) (e_Dh e) (w 9%nat - w 10%nat) (nth 9 d 0 - nth 10 d 0) 0) /\
  (tau_rhs e f g p w = Ok d -> diffuses (e_vw e) (e_Dh e) (w 15%nat - w 16%nat) (nth 15 d 0 - nth 16 d 0) 0).
Proof.
  intros e f g p w d D. exact (conj (top_higgs e p w D) (conj (fun H => bot_higgs e f p w d H D) (fun H => tau_higgs e f g p w d H D))).
Qed.
Print Assumptions C110_higgs_difference.

(** the first half of the derivatives is the second half of the state *)
Theorem C110_first_order : forall e f g p w d,
  (bot_rhs e f p w = Ok d -> firstn 6 d = map w (seq 6 6)) /\
  (tau_rhs e f g p w = Ok d -> firstn 9 d = map w (seq 9 9)) /\
  firstn 4 (top_rhs e p w) = map w (seq 4 4).
Proof. exact first_order. Qed.
Print Assumptions C110_first_order.

(** top and bottom: the equations are those of the reaction network, with opposite sources for left and right, if the
    bottom Yukawa reaction is off or the two Higgs densities cancel *)
Theorem C110_bottom_network_partial : forall e f p w d Sb, bot_rhs e f p w = Ok d ->
  (f = 2%Z \/ e_Yb e = 0 \/ w 3%nat + w 4%nat = 0) -> e_Dq e <> 0 -> e_Dh e <> 0 ->
  (f = 1%Z -> Sb = e_source_b e (w_mb p) (w_thb p)) -> (f = 2%Z -> Sb = 0) ->
  let mb := if Z.eqb f 2 then 0 else w_mb p in
  let nt := e_kappa e (w_mt p) in let nb := e_kappa e mb in
  let rs := quark_reactions (e_relax_t e (w_mt p)) (e_relax_b e mb) (e_Yt e) (if Z.eqb f 2 then 0 else e_Yb e) (e_SS e) in
  let ss := quark_species (6 * nt * (6 * nb) / (6 * nt + 6 * nb)) (3 * nt) (3 * nb) 4 6 3
              (w 0%nat) (w 1%nat) (w 2%nat) (w 3%nat) (w 4%nat) (w 5%nat) in
  let St := e_source_t e (w_mt p) (w_tht p) in
  diffuses (e_vw e) (e_Dq e) (w 6%nat) (nth 6 d 0) (gain rs ss 0 - St - Sb) /\
  diffuses (e_vw e) (e_Dq e) (w 7%nat) (nth 7 d 0) (gain rs ss 1 + St) /\
  diffuses (e_vw e) (e_Dq e) (w 8%nat) (nth 8 d 0) (gain rs ss 2 + Sb) /\
  diffuses (e_vw e) (e_Dh e) (w 9%nat) (nth 9 d 0) (gain rs ss 3) /\
  diffuses (e_vw e) (e_Dh e) (w 10%nat) (nth 10 d 0) (gain rs ss 4) /\
  (forall i, (7 <= i < 11)%nat -> diffuses (e_vw e) (e_Dq e) (w 11%nat) (nth 11 d 0) (gain rs ss i)) /\
  (forall i, (5 <= i < 7)%nat -> diffuses (e_vw e) (e_Dq e) (-2 * w 11%nat) (-2 * nth 11 d 0) (gain rs ss i)).
Proof. exact bot_network. Qed.
Print Assumptions C110_bottom_network_partial.

Definition C110_fluid : fluid :=
  Fluid (1 / 10) 1 1 2 4 5 3 1 1 1 1 (fun m => 1 + m) (fun m => m) (fun m => 2 * m) (fun m => 3 * m)
    (fun m th => m * th) (fun m th => 2 * m * th) (fun m th => 3 * m * th).
Definition C110_point : wall_point := WallPoint 1 2 3 1 1 1.
Example C110_nonvacuous : let w := state [1; 2; 3; 4; -4; 5; 6; 7; 8; 9; 10; 11] in
  exists d, bot_rhs C110_fluid 1 C110_point w = Ok d /\ w 3%nat + w 4%nat = 0 /\ e_Dq C110_fluid <> 0 /\ e_Dh C110_fluid <> 0 /\ nth 8 d 0 <> 0.
Proof.
  eexists. split; [reflexivity|]. unfold state. cbn. unfold kappa_doublet, kappa_QL_0, kappa_QR_0, kappa_H_0. repeat split; lra.
Qed.

(** with leptons *)
Theorem C110_tau_network_partial : forall e f g p w d Sb Sl, tau_rhs e f g p w = Ok d ->
  (f = 2%Z \/ e_Yb e = 0 \/ w 6%nat + w 7%nat = 0) -> e_Dq e <> 0 -> e_Dh e <> 0 -> e_Dlep e <> 0 -> e_Dtau e <> 0 ->
  (f = 1%Z -> g = 1%Z -> Sb = e_source_b e (w_mb p) (w_thb p) /\ Sl = e_source_tau e (w_mtau p) (w_thtau p)) ->
  (f = 2%Z \/ g = 2%Z -> Sb = 0 /\ Sl = 0) ->
  let mb := if Z.eqb f 2 then 0 else w_mb p in
  let ml := if Z.eqb g 2 then 0 else w_mtau p in
  let nt := e_kappa e (w_mt p) in let nb := e_kappa e mb in let nl := e_kappa e ml in
  let rs := quark_reactions (e_relax_t e (w_mt p)) (e_relax_b e mb) (e_Yt e) (if Z.eqb f 2 then 0 else e_Yb e) (e_SS e) in
  let ss := quark_species (6 * nt * (6 * nb) / (6 * nt + 6 * nb)) (3 * nt) (3 * nb) 4 6 3
              (w 0%nat) (w 1%nat) (w 2%nat) (w 6%nat) (w 7%nat) (w 8%nat) in
  let rl := lepton_reactions (e_relax_tau e ml) (e_Ytau e) in
  let sl := lepton_species (2 * nl) (1 * nl) 4 (w 3%nat) (w 5%nat) (w 6%nat) (w 7%nat) in
  let St := e_source_t e (w_mt p) (w_tht p) in
  diffuses (e_vw e) (e_Dq e) (w 9%nat) (nth 9 d 0) (gain rs ss 0 - St - Sb) /\
  diffuses (e_vw e) (e_Dq e) (w 10%nat) (nth 10 d 0) (gain rs ss 1 + St) /\
  diffuses (e_vw e) (e_Dq e) (w 11%nat) (nth 11 d 0) (gain rs ss 2 + Sb) /\
  diffuses (e_vw e) (e_Dlep e) (w 12%nat) (nth 12 d 0) (gain rl sl 0 - Sl) /\
  diffuses (e_vw e) (e_Dtau e) (w 13%nat) (nth 13 d 0) 0 /\
  diffuses (e_vw e) (e_Dtau e) (w 14%nat) (nth 14 d 0) (gain rl sl 1 + Sl) /\
  diffuses (e_vw e) (e_Dh e) (w 15%nat) (nth 15 d 0) (gain rs ss 3 + gain rl sl 2) /\
  diffuses (e_vw e) (e_Dh e) (w 16%nat) (nth 16 d 0) (gain rs ss 4 + gain rl sl 3) /\
  (forall i, (7 <= i < 11)%nat -> diffuses (e_vw e) (e_Dq e) (w 17%nat) (nth 17 d 0) (gain rs ss i)).
Proof. exact tau_network. Qed.
Print Assumptions C110_tau_network_partial.
Example C110_nonvacuous_tau : let w := state [1; 2; 3; 4; 5; 6; 7; -7; 8; 1; 1; 1; 1; 1; 1; 1; 1; 1] in
  exists d, tau_rhs C110_fluid 1 1 C110_point w = Ok d /\ w 6%nat + w 7%nat = 0 /\ e_Dlep C110_fluid <> 0 /\ e_Dtau C110_fluid <> 0.
Proof. eexists. split; [reflexivity|]. unfold state. cbn. repeat split; lra. Qed.

(** the top-only network without strong sphalerons *)
Theorem C110_top_network_partial : forall e p w kb u b, e_SS e = 0 -> e_Dq e <> 0 -> e_Dt e <> 0 -> e_Dh e <> 0 ->
  let n := e_kappa e (w_mt p) in
  let rs := quark_reactions (e_relax_t e (w_mt p)) 0 (e_Y e) 0 0 in
  let ss := quark_species (6 * n) (3 * n) kb 4 6 3 (w 0%nat) (w 1%nat) b (w 2%nat) (w 3%nat) u in
  let St := e_source_t e (w_mt p) (w_tht p) in
  let d := top_rhs e p w in
  diffuses (e_vw e) (e_Dq e) (w 4%nat) (nth 4 d 0) (gain rs ss 0 - St) /\
  diffuses (e_vw e) (e_Dt e) (w 5%nat) (nth 5 d 0) (gain rs ss 1 + St) /\
  diffuses (e_vw e) (e_Dh e) (w 6%nat) (nth 6 d 0) (gain rs ss 3) /\
  diffuses (e_vw e) (e_Dh e) (w 7%nat) (nth 7 d 0) (gain rs ss 4).
Proof. exact top_network. Qed.
Print Assumptions C110_top_network_partial.
Example C110_nonvacuous_top : let e := only 0 1 1 0 0 0 in e_SS e = 0 /\ e_Dq e <> 0 /\ e_Dt e <> 0 /\ e_Dh e <> 0 /\ e_Y e <> 0.
Proof. cbn. repeat split; lra. Qed.

(** refuted: in the top-only network right-handed tops take no part in the strong sphaleron process *)
Theorem C110_top_sphaleron_refuted : forall kb, exists w,
  let d := top_rhs (only 1 0 0 0 0 0) rest w in
  let b := - (w 0%nat + w 1%nat) in
  ~ diffuses 0 1 (w 5%nat) (nth 5 d 0)
      (gain (quark_reactions 0 0 0 0 1) (quark_species 6 3 kb 4 6 3 (w 0%nat) (w 1%nat) b (w 2%nat) (w 3%nat) b) 1).
Proof. exact top_sphaleron. Qed.
Print Assumptions C110_top_sphaleron_refuted.

(** with a massless bottom quark and no source the reactions lower the free energy *)
Theorem C110_dissipation_partial : forall e p w d, bot_rhs e 2 p w = Ok d -> e_Dq e <> 0 -> e_Dh e <> 0 ->
  e_source_t e (w_mt p) (w_tht p) = 0 ->
  0 <= e_relax_t e (w_mt p) -> 0 <= e_relax_b e 0 -> 0 <= e_Yt e -> 0 <= e_SS e ->
  let nt := e_kappa e (w_mt p) in let nb := e_kappa e 0 in
  energy_rate (quark_species (6 * nt * (6 * nb) / (6 * nt + 6 * nb)) (3 * nt) (3 * nb) 4 6 3
                 (w 0%nat) (w 1%nat) (w 2%nat) (w 3%nat) (w 4%nat) (w 5%nat))
    (fun i => nth i (eleven_gains (e_vw e) (e_Dq e) (e_Dh e) w d) 0) <= 0.
Proof. exact bot_dissipates. Qed.
Print Assumptions C110_dissipation_partial.
Example C110_nonvacuous_dissipation : let e := only 1 0 1 0 0 0 in let w := state [1; 2; 3; 4; 5; 6; 0; 0; 0; 0; 0; 0] in
  exists d, bot_rhs e 2 rest w = Ok d /\ e_Dq e <> 0 /\ e_source_t e 0 0 = 0 /\ 0 <= e_Yt e /\ nth 7 d 0 <> 0.
Proof. eexists. split; [reflexivity|]. unfold state. cbn. unfold kappa_doublet, kappa_QL_0, kappa_QR_0, kappa_H_0. repeat split; lra. Qed.

(** refuted: with a massive bottom quark they can raise it, since the affinity of the bottom Yukawa reaction has the
    Higgs densities with the wrong sign *)
Theorem C110_dissipation_refuted : exists w d, bot_rhs (only 0 0 0 1 0 0) 1 rest w = Ok d /\
  0 < energy_rate (quark_species (6 * 1 * (6 * 1) / (6 * 1 + 6 * 1)) (3 * 1) (3 * 1) 4 6 3
                 (w 0%nat) (w 1%nat) (w 2%nat) (w 3%nat) (w 4%nat) (w 5%nat))
    (fun i => nth i (eleven_gains 0 1 1 w d) 0).
Proof. exact bot_energy_grows. Qed.
Print Assumptions C110_dissipation_refuted.

(** refuted: the top-only network is not the case of a massless bottom quark, even without sphalerons *)
Theorem C110_crosscheck_refuted : exists w w' d, bot_rhs (only 0 1 1 0 0 0) 2 rest w' = Ok d /\
  (w' 0%nat = w 0%nat /\ w' 1%nat = w 1%nat /\ w' 3%nat = w 2%nat /\ w' 4%nat = w 3%nat /\
   w' 2%nat = - (w 0%nat + w 1%nat) /\ w' 5%nat = - (w 0%nat + w 1%nat) /\
   w' 6%nat = w 4%nat /\ w' 7%nat = w 5%nat /\ w' 9%nat = w 6%nat /\ w' 10%nat = w 7%nat) /\
  nth 7 d 0 <> nth 5 (top_rhs (only 0 1 1 0 0 0) rest w) 0.
Proof. exact crosscheck_kappa. Qed.
Print Assumptions C110_crosscheck_refuted.

(** refuted: a massive tau has no source when the bottom quark is chosen massless *)
Theorem C110_tau_source_refuted : exists w d,
  let e := only 0 0 0 0 0 1 in
  e_source_tau e (w_mtau rest) (w_thtau rest) <> 0 /\
  tau_rhs e 2 1 rest w = Ok d /\ (forall i, w i = 0) /\ nth 12 d 0 = 0 /\ nth 14 d 0 = 0.
Proof. destruct tau_source_off as (w & d & H). exists w, d. split; [cbn; lra|exact H]. Qed.
Print Assumptions C110_tau_source_refuted.

(** the left-handed density: third generation and one of the two light generations *)
Theorem C110_left_density_partial : forall kq ktR kbR kH kL kR w,
  total (quark_species kq ktR kbR kH kL kR (w 0%nat) (w 1%nat) (w 2%nat) (w 3%nat) (w 4%nat) (w 5%nat)) left_handed_quarks
  = bot_left w - 2 * w 5%nat.
Proof. exact left_one_generation. Qed.
Print Assumptions C110_left_density_partial.

(** refuted: it is not the density of all left-handed quarks of the network *)
Theorem C110_left_density_refuted : exists w, forall kq ktR kbR kH kL kR,
  total (quark_species kq ktR kbR kH kL kR (w 0%nat) (w 1%nat) (w 2%nat) (w 3%nat) (w 4%nat) (w 5%nat)) left_handed_quarks
  <> bot_left w.
Proof. exists (state [0; 0; 0; 0; 0; 1]). intros. rewrite left_one_generation. unfold state. cbn. lra. Qed.
Print Assumptions C110_left_density_refuted.

(** the three networks use the same left-handed density, up to the leptons *)
Theorem C110_left_density_agree : forall wt wb wl,
  wb 0%nat = wt 0%nat -> wb 5%nat = - (wt 0%nat + wt 1%nat) -> wl 0%nat = wb 0%nat -> wl 8%nat = wb 5%nat ->
  bot_left wb = top_left wt /\ tau_left wl = bot_left wb + wl 3%nat.
Proof. intros wt wb wl A B C D. unfold bot_left, top_left, tau_left. rewrite C, D, A, B. split; ring. Qed.
Print Assumptions C110_left_density_agree.
Example C110_nonvacuous_left : exists wt wb wl : nat -> R,
  wb 0%nat = wt 0%nat /\ wb 5%nat = - (wt 0%nat + wt 1%nat) /\ wl 0%nat = wb 0%nat /\ wl 8%nat = wb 5%nat /\ wb 5%nat <> 0.
Proof.
  exists (state [1; 2]), (state [1; 2; -3; 0; 0; -3]), (state [1; 2; -3; 0; 0; 0; 0; 0; -3]). unfold state. cbn. repeat split; lra.
Qed.
