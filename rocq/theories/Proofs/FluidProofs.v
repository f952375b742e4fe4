(** Proofs for the diffusion networks. *)
From Coq Require Import Reals List ZArith Lra Lia.
From Verif Require Import Base Model.Fluid Spec.FluidSpec.
Import ListNotations.
Open Scope R_scope.

(** Generic: every network with non-negative rates dissipates. *)
Lemma sum_add : forall (A : Type) (f g : A -> R) l,
  fold_right Rplus 0 (map (fun x => f x + g x) l)
  = fold_right Rplus 0 (map f l) + fold_right Rplus 0 (map g l).
Proof. intros A f g l. induction l as [|a l IH]; cbn; [ring|rewrite IH; ring]. Qed.

Lemma dot_seq : forall a (ss : list species), length a = length ss ->
  fold_right Rplus 0 (map (fun i => potential (nth i ss (0, 1)) * nth i a 0) (seq 0 (length ss)))
  = dot a (map potential ss).
Proof.
  intros a ss. revert a. induction ss as [|s ss IH]; intros a L; destruct a as [|x a]; try discriminate.
  - reflexivity.
  - cbn [length seq map fold_right nth]. rewrite <- seq_shift, map_map. cbn [nth].
    rewrite IH by (cbn in L; lia). unfold dot. cbn [map combine fold_right fst snd]. ring.
Qed.

Lemma dissipation_squares : forall rs ss, (forall r, In r rs -> length (snd r) = length ss) ->
  energy_rate ss (gain rs ss) = fold_right Rplus 0 (map (fun r => - (fst r * (affinity ss r) ^ 2)) rs).
Proof.
  intros rs ss. unfold energy_rate. induction rs as [|r rs IH]; intro H.
  - cbn. induction (seq 0 (length ss)) as [|i l IHl]; cbn; [reflexivity|]. rewrite IHl. unfold gain. cbn. ring.
  - transitivity (fold_right Rplus 0 (map (fun i => potential (nth i ss (0, 1)) * - (fst r * nth i (snd r) 0 * affinity ss r)
        + potential (nth i ss (0, 1)) * gain rs ss i) (seq 0 (length ss)))).
    { f_equal. apply map_ext. intro i. unfold gain. cbn. ring. }
    rewrite sum_add, IH by (intros x X; apply H; right; exact X). cbn [map fold_right]. apply f_equal2; [|reflexivity].
    transitivity (- (fst r * affinity ss r) * fold_right Rplus 0 (map (fun i => potential (nth i ss (0, 1)) * nth i (snd r) 0) (seq 0 (length ss)))).
    + clear IH H. generalize (affinity ss r). intro A. induction (seq 0 (length ss)) as [|i l IHl]; cbn [map fold_right]; [ring|rewrite IHl; ring].
    + rewrite dot_seq by (apply H; left; reflexivity). unfold affinity. ring.
Qed.

Lemma network_dissipates : forall rs ss,
  (forall r, In r rs -> 0 <= fst r /\ length (snd r) = length ss) -> energy_rate ss (gain rs ss) <= 0.
Proof.
  intros rs ss H. rewrite dissipation_squares by (intros r I; exact (proj2 (H r I))).
  induction rs as [|r rs IH]; cbn; [lra|].
  assert (A : 0 <= fst r) by (apply H; left; reflexivity).
  assert (B : fold_right Rplus 0 (map (fun r => - (fst r * (affinity ss r) ^ 2)) rs) <= 0)
    by (apply IH; intros x X; apply H; right; exact X).
  cbn in B. assert (C : 0 <= fst r * (affinity ss r * (affinity ss r * 1))).
  { apply Rmult_le_pos; [exact A|]. replace (affinity ss r * (affinity ss r * 1)) with ((affinity ss r)²) by (unfold Rsqr; ring).
    apply Rle_0_sqr. }
  lra.
Qed.

Lemma flag_mass_cases : forall f m x, flag_mass f m = Ok x -> (f = 1%Z /\ x = m) \/ (f = 2%Z /\ x = 0).
Proof.
  intros f m x. unfold flag_mass. destruct (Z.eqb_spec f 1); [intro E; injection E; auto|].
  destruct (Z.eqb_spec f 2); [intro E; injection E; auto|discriminate].
Qed.

Lemma bot_inv : forall e f p w d, bot_rhs e f p w = Ok d -> f = 1%Z \/ f = 2%Z.
Proof.
  intros e f p w d H. unfold bot_rhs in H. destruct (flag_mass f (w_mb p)) eqn:E; try discriminate.
  destruct (flag_mass_cases _ _ _ E) as [[A _]|[A _]]; auto.
Qed.

Lemma tau_inv : forall e f g p w d, tau_rhs e f g p w = Ok d -> (f = 1%Z \/ f = 2%Z) /\ (g = 1%Z \/ g = 2%Z).
Proof.
  intros e f g p w d H. unfold tau_rhs in H. destruct (flag_mass f (w_mb p)) eqn:E; try discriminate. cbn [bind] in H.
  destruct (flag_mass g (w_mtau p)) eqn:F; try discriminate.
  destruct (flag_mass_cases _ _ _ E) as [[A _]|[A _]]; destruct (flag_mass_cases _ _ _ F) as [[B _]|[B _]]; auto.
Qed.

Ltac run_bot H f := destruct (bot_inv _ _ _ _ _ H) as [? | ?]; subst f; cbv beta iota zeta delta [bot_rhs flag_mass bind Z.eqb Pos.eqb] in H; injection H as <-; cbn [nth].
Ltac run_tau H f g := destruct (tau_inv _ _ _ _ _ _ H) as [[? | ?] [? | ?]]; subst f g; cbv beta iota zeta delta [tau_rhs flag_mass bind Z.eqb Pos.eqb andb] in H; injection H as <-; cbn [nth].

Lemma bot_valid : forall e f p w, (f = 1%Z \/ f = 2%Z) -> exists d, bot_rhs e f p w = Ok d /\ length d = 12%nat.
Proof. intros e f p w [-> | ->]; eexists; (split; [reflexivity|reflexivity]). Qed.
Lemma bot_invalid : forall e f p w, f <> 1%Z -> f <> 2%Z -> bot_rhs e f p w = Throw RuntimeError.
Proof. intros e f p w A B. unfold bot_rhs, flag_mass. rewrite (proj2 (Z.eqb_neq _ _) A), (proj2 (Z.eqb_neq _ _) B). reflexivity. Qed.
Lemma tau_valid : forall e f g p w, (f = 1%Z \/ f = 2%Z) -> (g = 1%Z \/ g = 2%Z) -> exists d, tau_rhs e f g p w = Ok d /\ length d = 18%nat.
Proof. intros e f g p w [-> | ->] [-> | ->]; eexists; (split; [reflexivity|reflexivity]). Qed.
Lemma tau_invalid : forall e f g p w, (f <> 1%Z /\ f <> 2%Z) \/ (g <> 1%Z /\ g <> 2%Z) -> tau_rhs e f g p w = Throw RuntimeError.
Proof.
  intros e f g p w [[A B]|[A B]]; unfold tau_rhs, flag_mass; rewrite (proj2 (Z.eqb_neq _ _) A), (proj2 (Z.eqb_neq _ _) B); [reflexivity|].
  destruct (Z.eqb f 1); [reflexivity|]. destruct (Z.eqb f 2); reflexivity.
Qed.

(** field after all quotients other than those by a diffusion constant are made opaque *)
Ltac quot := repeat match goal with
  | |- context [?a / ?k] =>
      lazymatch k with e_Dq _ => fail | e_Dt _ => fail | e_Dh _ => fail | e_Dlep _ => fail | e_Dtau _ => fail
      | _ => generalize (a / k); intro end end.

(** Conservation laws. *)
Lemma bot_baryon : forall e f p w d, bot_rhs e f p w = Ok d -> e_Dq e <> 0 ->
  diffuses (e_vw e) (e_Dq e) (w 6%nat + w 7%nat + w 8%nat) (nth 6 d 0 + nth 7 d 0 + nth 8 d 0) 0.
Proof. intros e f p w d H D. run_bot H f; unfold diffuses; quot; field; exact D. Qed.
Lemma tau_baryon : forall e f g p w d, tau_rhs e f g p w = Ok d -> e_Dq e <> 0 ->
  diffuses (e_vw e) (e_Dq e) (w 9%nat + w 10%nat + w 11%nat) (nth 9 d 0 + nth 10 d 0 + nth 11 d 0) 0.
Proof. intros e f g p w d H D. run_tau H f g; unfold diffuses; quot; field; exact D. Qed.
Lemma tau_lepton : forall e f g p w d, tau_rhs e f g p w = Ok d -> e_Dlep e <> 0 -> e_Dtau e <> 0 ->
  e_vw e * (w 12%nat + w 13%nat + w 14%nat) = e_Dlep e * nth 12 d 0 + e_Dtau e * (nth 13 d 0 + nth 14 d 0).
Proof. intros e f g p w d H D1 D2. run_tau H f g; quot; field; auto. Qed.
Lemma bot_higgs : forall e f p w d, bot_rhs e f p w = Ok d -> e_Dh e <> 0 ->
  diffuses (e_vw e) (e_Dh e) (w 9%nat - w 10%nat) (nth 9 d 0 - nth 10 d 0) 0.
Proof. intros e f p w d H D. run_bot H f; unfold diffuses; quot; field; exact D. Qed.
Lemma tau_higgs : forall e f g p w d, tau_rhs e f g p w = Ok d -> e_Dh e <> 0 ->
  diffuses (e_vw e) (e_Dh e) (w 15%nat - w 16%nat) (nth 15 d 0 - nth 16 d 0) 0.
Proof. intros e f g p w d H D. run_tau H f g; unfold diffuses; quot; field; exact D. Qed.
Lemma top_higgs : forall e p w, e_Dh e <> 0 ->
  diffuses (e_vw e) (e_Dh e) (w 6%nat - w 7%nat) (nth 6 (top_rhs e p w) 0 - nth 7 (top_rhs e p w) 0) 0.
Proof. intros e p w D. unfold diffuses, top_rhs. cbn [nth]. quot. field. exact D. Qed.

(** The first half of every state are densities, the second half their derivatives. *)
Lemma first_order : forall e f g p w d, 
  (bot_rhs e f p w = Ok d -> firstn 6 d = map w (seq 6 6)) /\
  (tau_rhs e f g p w = Ok d -> firstn 9 d = map w (seq 9 9)) /\
  firstn 4 (top_rhs e p w) = map w (seq 4 4).
Proof.
  intros e f g p w d. split; [|split].
  - intro H. run_bot H f; reflexivity.
  - intro H. run_tau H f g; reflexivity.
  - reflexivity.
Qed.


(** Gains of the quark network, written out. *)
Section gains.
Variables (GMt GMb GYt GYb GSS kq ktR kbR kH kL kR q t b h1 h2 u : R).
Let rs := quark_reactions GMt GMb GYt GYb GSS.
Let ss := quark_species kq ktR kbR kH kL kR q t b h1 h2 u.
Let AMt := t / ktR - q / kq.
Let AMb := b / kbR - q / kq.
Let AYt := t / ktR - q / kq - h1 / kH - h2 / kH.
Let AYb := b / kbR - q / kq + h1 / kH + h2 / kH.
Let ASS := 2 * (q / kq) - t / ktR - b / kbR + 4 * (-2 * u / kL) - 4 * (u / kR).
Ltac gains_tac := unfold rs, ss, gain, affinity, dot, quark_reactions, quark_species, potential, AMt, AMb, AYt, AYb, ASS;
  cbn [map combine fold_right fst snd nth]; quot; ring.
Lemma gain_q : gain rs ss 0 = GMt * AMt + GMb * AMb + GYt * AYt + GYb * AYb - 2 * GSS * ASS.
Proof. gains_tac. Qed.
Lemma gain_t : gain rs ss 1 = - GMt * AMt - GYt * AYt + GSS * ASS.
Proof. gains_tac. Qed.
Lemma gain_b : gain rs ss 2 = - GMb * AMb - GYb * AYb + GSS * ASS.
Proof. gains_tac. Qed.
Lemma gain_h1 : gain rs ss 3 = GYt * AYt - GYb * AYb.
Proof. gains_tac. Qed.
Lemma gain_h2 : gain rs ss 4 = GYt * AYt - GYb * AYb.
Proof. gains_tac. Qed.
Lemma gain_L : gain rs ss 5 = -2 * (GSS * ASS) /\ gain rs ss 6 = -2 * (GSS * ASS).
Proof. split; gains_tac. Qed.
Lemma gain_R : gain rs ss 7 = GSS * ASS /\ gain rs ss 8 = GSS * ASS /\ gain rs ss 9 = GSS * ASS /\ gain rs ss 10 = GSS * ASS.
Proof. repeat split; gains_tac. Qed.
End gains.

Section lgains.
Variables (GMl GYl kL kR kH l ta h1 h2 : R).
Let rs := lepton_reactions GMl GYl.
Let ss := lepton_species kL kR kH l ta h1 h2.
Let AM := ta / kR - l / kL.
Let AY := ta / kR - l / kL + h1 / kH + h2 / kH.
Ltac lgains_tac := unfold rs, ss, gain, affinity, dot, lepton_reactions, lepton_species, potential, AM, AY;
  cbn [map combine fold_right fst snd nth]; quot; ring.
Lemma gain_l : gain rs ss 0 = GMl * AM + GYl * AY.
Proof. lgains_tac. Qed.
Lemma gain_tau : gain rs ss 1 = - GMl * AM - GYl * AY.
Proof. lgains_tac. Qed.
Lemma gain_lh : gain rs ss 2 = - GYl * AY /\ gain rs ss 3 = - GYl * AY.
Proof. split; lgains_tac. Qed.
End lgains.

Lemma doublet_form : forall a b, kappa_doublet (kappa_QL_0 * a) (kappa_QL_0 * b) = 6 * a * (6 * b) / (6 * a + 6 * b).
Proof. intros a b. unfold kappa_doublet, kappa_QL_0. reflexivity. Qed.

Lemma sphaleron_term : forall q kq u, -4 * u * (2 / kappa_QL_0 + 1 / kappa_QR_0) + 2 * q / kq
  = 2 * (q / kq) + 4 * (-2 * u / 6) - 4 * (u / 3).
Proof. intros q kq u. unfold kappa_QL_0, kappa_QR_0, Rdiv. generalize (/ kq). intro k. field. Qed.

Lemma solve_D : forall vw n D C, D <> 0 -> vw * n - D * ((vw * n - C) / D) = C.
Proof. intros. field. assumption. Qed.

Lemma bot_network : forall e f p w d Sb, bot_rhs e f p w = Ok d ->
  (f = 2%Z \/ e_Yb e = 0 \/ w 3%nat + w 4%nat = 0) -> e_Dq e <> 0 -> e_Dh e <> 0 ->
  (f = 1%Z -> Sb = e_source_b e (w_mb p) (w_thb p)) -> (f = 2%Z -> Sb = 0) ->
  let mb := if Z.eqb f 2 then 0 else w_mb p in
  let nt := e_kappa e (w_mt p) in let nb := e_kappa e mb in
  let rs := quark_reactions (e_relax_t e (w_mt p)) (e_relax_b e mb) (e_Yt e) (if Z.eqb f 2 then 0 else e_Yb e) (e_SS e) in
  let ss := quark_species (6 * nt * (6 * nb) / (6 * nt + 6 * nb)) (3 * nt) (3 * nb) 4 6 3
              (w 0%nat) (w 1%nat) (w 2%nat) (w 3%nat) (w 4%nat) (w 5%nat) in
  let St := e_source_t e (w_mt p) (w_tht p) in
  diffuses (e_vw e) (e_Dq e) (w 6%nat) (nth 6 d 0) (gain rs ss 0 - St - Sb) /\
  diffuses (e_vw e) (e_Dq e) (w 7%nat) (nth 7 d 0) (gain rs ss 1 + St) /\
  diffuses (e_vw e) (e_Dq e) (w 8%nat) (nth 8 d 0) (gain rs ss 2 + Sb) /\
  diffuses (e_vw e) (e_Dh e) (w 9%nat) (nth 9 d 0) (gain rs ss 3) /\
  diffuses (e_vw e) (e_Dh e) (w 10%nat) (nth 10 d 0) (gain rs ss 4) /\
  (forall i, (7 <= i < 11)%nat -> diffuses (e_vw e) (e_Dq e) (w 11%nat) (nth 11 d 0) (gain rs ss i)) /\
  (forall i, (5 <= i < 7)%nat -> diffuses (e_vw e) (e_Dq e) (-2 * w 11%nat) (-2 * nth 11 d 0) (gain rs ss i)).
Proof.
  intros e f p w d Sb H Y Dq Dh S1 S2.
  assert (YB : forall X, (if Z.eqb f 2 then 0 else e_Yb e) * (X - w 3%nat / 4 - w 4%nat / 4)
                       = (if Z.eqb f 2 then 0 else e_Yb e) * (X + w 3%nat / 4 + w 4%nat / 4)).
  { intro X. destruct Y as [-> |[-> | E]]; [cbn; ring|destruct (Z.eqb f 2); ring|].
    replace (X - w 3%nat / 4 - w 4%nat / 4) with (X - (w 3%nat + w 4%nat) / 4) by field.
    replace (X + w 3%nat / 4 + w 4%nat / 4) with (X + (w 3%nat + w 4%nat) / 4) by field. rewrite E. field. }
  run_bot H f; cbn [Z.eqb Pos.eqb] in *; cbv zeta; unfold diffuses; (rewrite (S1 eq_refl) || rewrite (S2 eq_refl));
    rewrite !doublet_form, !sphaleron_term; unfold kappa_H_0, kappa_QR_0;
    (split; [rewrite solve_D by exact Dq; rewrite gain_q, YB; ring|]);
    (split; [rewrite solve_D by exact Dq; rewrite gain_t; ring|]);
    (split; [rewrite solve_D by exact Dq; rewrite gain_b, !Ropp_mult_distr_l_reverse, YB; ring|]);
    (split; [rewrite solve_D by exact Dh; rewrite gain_h1, YB; ring|]);
    (split; [rewrite solve_D by exact Dh; rewrite gain_h2, YB; ring|]);
    (split; intros i I; destruct i as [|[|[|[|[|[|[|[|[|[|[|i]]]]]]]]]]]; try lia).
  all: rewrite ?(proj1 (gain_R _ _ _ _ _ _ _ _ _ _ _ _ _ _ _ _ _)), ?(proj1 (proj2 (gain_R _ _ _ _ _ _ _ _ _ _ _ _ _ _ _ _ _))),
    ?(proj1 (proj2 (proj2 (gain_R _ _ _ _ _ _ _ _ _ _ _ _ _ _ _ _ _)))), ?(proj2 (proj2 (proj2 (gain_R _ _ _ _ _ _ _ _ _ _ _ _ _ _ _ _ _)))),
    ?(proj1 (gain_L _ _ _ _ _ _ _ _ _ _ _ _ _ _ _ _ _)), ?(proj2 (gain_L _ _ _ _ _ _ _ _ _ _ _ _ _ _ _ _ _)).
  all: try (rewrite solve_D by exact Dq; ring).
  all: match goal with |- ?v * (-2 * ?n) - ?D * (-2 * ((?v * ?n - ?C) / ?D)) = _ => transitivity (-2 * (v * n - D * ((v * n - C) / D))); [ring|rewrite solve_D by exact Dq; ring] end.
Qed.

Lemma tau_network : forall e f g p w d Sb Sl, tau_rhs e f g p w = Ok d ->
  (f = 2%Z \/ e_Yb e = 0 \/ w 6%nat + w 7%nat = 0) -> e_Dq e <> 0 -> e_Dh e <> 0 -> e_Dlep e <> 0 -> e_Dtau e <> 0 ->
  (f = 1%Z -> g = 1%Z -> Sb = e_source_b e (w_mb p) (w_thb p) /\ Sl = e_source_tau e (w_mtau p) (w_thtau p)) ->
  (f = 2%Z \/ g = 2%Z -> Sb = 0 /\ Sl = 0) ->
  let mb := if Z.eqb f 2 then 0 else w_mb p in
  let ml := if Z.eqb g 2 then 0 else w_mtau p in
  let nt := e_kappa e (w_mt p) in let nb := e_kappa e mb in let nl := e_kappa e ml in
  let rs := quark_reactions (e_relax_t e (w_mt p)) (e_relax_b e mb) (e_Yt e) (if Z.eqb f 2 then 0 else e_Yb e) (e_SS e) in
  let ss := quark_species (6 * nt * (6 * nb) / (6 * nt + 6 * nb)) (3 * nt) (3 * nb) 4 6 3
              (w 0%nat) (w 1%nat) (w 2%nat) (w 6%nat) (w 7%nat) (w 8%nat) in
  let rl := lepton_reactions (e_relax_tau e ml) (e_Ytau e) in
  let sl := lepton_species (2 * nl) (1 * nl) 4 (w 3%nat) (w 5%nat) (w 6%nat) (w 7%nat) in
  let St := e_source_t e (w_mt p) (w_tht p) in
  diffuses (e_vw e) (e_Dq e) (w 9%nat) (nth 9 d 0) (gain rs ss 0 - St - Sb) /\
  diffuses (e_vw e) (e_Dq e) (w 10%nat) (nth 10 d 0) (gain rs ss 1 + St) /\
  diffuses (e_vw e) (e_Dq e) (w 11%nat) (nth 11 d 0) (gain rs ss 2 + Sb) /\
  diffuses (e_vw e) (e_Dlep e) (w 12%nat) (nth 12 d 0) (gain rl sl 0 - Sl) /\
  diffuses (e_vw e) (e_Dtau e) (w 13%nat) (nth 13 d 0) 0 /\
  diffuses (e_vw e) (e_Dtau e) (w 14%nat) (nth 14 d 0) (gain rl sl 1 + Sl) /\
  diffuses (e_vw e) (e_Dh e) (w 15%nat) (nth 15 d 0) (gain rs ss 3 + gain rl sl 2) /\
  diffuses (e_vw e) (e_Dh e) (w 16%nat) (nth 16 d 0) (gain rs ss 4 + gain rl sl 3) /\
  (forall i, (7 <= i < 11)%nat -> diffuses (e_vw e) (e_Dq e) (w 17%nat) (nth 17 d 0) (gain rs ss i)).
Proof.
  intros e f g p w d Sb Sl H Y Dq Dh Dl Dt S1 S2.
  assert (YB : forall X, (if Z.eqb f 2 then 0 else e_Yb e) * (X - w 6%nat / 4 - w 7%nat / 4)
                       = (if Z.eqb f 2 then 0 else e_Yb e) * (X + w 6%nat / 4 + w 7%nat / 4)).
  { intro X. destruct Y as [-> |[-> | E]]; [cbn; ring|destruct (Z.eqb f 2); ring|].
    replace (X - w 6%nat / 4 - w 7%nat / 4) with (X - (w 6%nat + w 7%nat) / 4) by field.
    replace (X + w 6%nat / 4 + w 7%nat / 4) with (X + (w 6%nat + w 7%nat) / 4) by field. rewrite E. field. }
  assert (SB : Sb = (if andb (Z.eqb f 1) (Z.eqb g 1) then e_source_b e (w_mb p) (w_thb p) else 0) /\
               Sl = (if andb (Z.eqb f 1) (Z.eqb g 1) then e_source_tau e (w_mtau p) (w_thtau p) else 0)).
  { destruct (tau_inv _ _ _ _ _ _ H) as [[-> | ->] [-> | ->]]; cbn; auto. }
  destruct SB as [-> ->]. clear S1 S2 Y.
  run_tau H f g; cbn [Z.eqb Pos.eqb andb] in *; cbv zeta; unfold diffuses;
    rewrite !doublet_form, !sphaleron_term; unfold kappa_H_0, kappa_QR_0, kappa_LL_0, kappa_RL_0;
    (split; [rewrite solve_D by exact Dq; rewrite gain_q, YB; ring|]);
    (split; [rewrite solve_D by exact Dq; rewrite gain_t; ring|]);
    (split; [rewrite solve_D by exact Dq; rewrite gain_b, !Ropp_mult_distr_l_reverse, YB; ring|]);
    (split; [rewrite solve_D by exact Dl; rewrite gain_l; ring|]);
    (split; [rewrite solve_D by exact Dt; ring|]);
    (split; [rewrite solve_D by exact Dt; rewrite gain_tau; ring|]);
    (split; [rewrite solve_D by exact Dh; rewrite gain_h1, (proj1 (gain_lh _ _ _ _ _ _ _ _ _)), YB; ring|]);
    (split; [rewrite solve_D by exact Dh; rewrite gain_h2, (proj2 (gain_lh _ _ _ _ _ _ _ _ _)), YB; ring|]);
    (intros i I; destruct i as [|[|[|[|[|[|[|[|[|[|[|i]]]]]]]]]]]; try lia).
  all: rewrite ?(proj1 (gain_R _ _ _ _ _ _ _ _ _ _ _ _ _ _ _ _ _)), ?(proj1 (proj2 (gain_R _ _ _ _ _ _ _ _ _ _ _ _ _ _ _ _ _))),
    ?(proj1 (proj2 (proj2 (gain_R _ _ _ _ _ _ _ _ _ _ _ _ _ _ _ _ _)))), ?(proj2 (proj2 (proj2 (gain_R _ _ _ _ _ _ _ _ _ _ _ _ _ _ _ _ _)))).
  all: rewrite solve_D by exact Dq; ring.
Qed.

Lemma energy_ext : forall ss C D, (forall i, (i < length ss)%nat -> C i = D i) -> energy_rate ss C = energy_rate ss D.
Proof.
  intros ss C D H. unfold energy_rate. f_equal. apply map_ext_in. intros i I. apply in_seq in I. rewrite H by lia. reflexivity.
Qed.

Lemma bot_dissipates : forall e p w d, bot_rhs e 2 p w = Ok d -> e_Dq e <> 0 -> e_Dh e <> 0 ->
  e_source_t e (w_mt p) (w_tht p) = 0 ->
  0 <= e_relax_t e (w_mt p) -> 0 <= e_relax_b e 0 -> 0 <= e_Yt e -> 0 <= e_SS e ->
  let nt := e_kappa e (w_mt p) in let nb := e_kappa e 0 in
  energy_rate (quark_species (6 * nt * (6 * nb) / (6 * nt + 6 * nb)) (3 * nt) (3 * nb) 4 6 3
                 (w 0%nat) (w 1%nat) (w 2%nat) (w 3%nat) (w 4%nat) (w 5%nat))
    (fun i => nth i (eleven_gains (e_vw e) (e_Dq e) (e_Dh e) w d) 0) <= 0.
Proof.
  intros e p w d H Dq Dh S G1 G2 G3 G4. cbv zeta.
  destruct (bot_network e 2 p w d 0 H (or_introl eq_refl) Dq Dh ltac:(discriminate) ltac:(reflexivity))
    as (N0 & N1 & N2 & N3 & N4 & NR & NL).
  cbn [Z.eqb Pos.eqb] in *. rewrite S in *. unfold diffuses in *.
  set (rs := quark_reactions _ _ _ _ _) in *. set (ss := quark_species _ _ _ _ _ _ _ _ _ _ _ _) in *.
  rewrite (energy_ext ss _ (gain rs ss)).
  - apply network_dissipates. intros r I. subst rs ss. unfold quark_reactions in I. cbn in I.
    repeat (destruct I as [<- | I]; [split; [cbn; (assumption || lra)|reflexivity]|]). contradiction.
  - intros i I. change (length ss) with 11%nat in I.
    assert (L : forall i, (5 <= i < 7)%nat -> gain rs ss i = -2 * (e_vw e * w 11%nat - e_Dq e * nth 11 d 0))
      by (intros j J; rewrite <- (NL j J); ring).
    assert (R : forall i, (7 <= i < 11)%nat -> gain rs ss i = e_vw e * w 11%nat - e_Dq e * nth 11 d 0)
      by (intros j J; symmetry; apply (NR j J)).
    destruct i as [|[|[|[|[|[|[|[|[|[|[|i]]]]]]]]]]]; try lia; unfold eleven_gains; cbn [nth Nat.add];
      rewrite ?N0, ?N1, ?N2, ?N3, ?N4; try ring; ((rewrite L by lia) || (rewrite R by lia)); reflexivity.
Qed.

(** witness networks: a single reaction switched on *)
Definition only (SS Y Yt Yb Ytau : R) (sl : R) : fluid :=
  Fluid 0 1 1 1 1 1 SS Y Yt Yb Ytau (fun _ => 1) (fun _ => 0) (fun _ => 0) (fun _ => 0)
    (fun _ _ => 0) (fun _ _ => 0) (fun _ _ => sl).
Definition rest : wall_point := WallPoint 0 0 0 0 0 0.
Definition state (l : list R) (i : nat) : R := nth i l 0.

Lemma bot_energy_grows : exists w d, bot_rhs (only 0 0 0 1 0 0) 1 rest w = Ok d /\
  0 < energy_rate (quark_species (6 * 1 * (6 * 1) / (6 * 1 + 6 * 1)) (3 * 1) (3 * 1) 4 6 3
                 (w 0%nat) (w 1%nat) (w 2%nat) (w 3%nat) (w 4%nat) (w 5%nat))
    (fun i => nth i (eleven_gains 0 1 1 w d) 0).
Proof.
  exists (state [0; 0; 3; 8; 0; 0; 0; 0; 0; 0; 0; 0]). eexists. split; [reflexivity|].
  unfold energy_rate, quark_species, eleven_gains, potential, state, kappa_doublet, kappa_QL_0, kappa_QR_0, kappa_H_0, only. cbn. lra.
Qed.

Lemma top_network : forall e p w kb u b, e_SS e = 0 -> e_Dq e <> 0 -> e_Dt e <> 0 -> e_Dh e <> 0 ->
  let n := e_kappa e (w_mt p) in
  let rs := quark_reactions (e_relax_t e (w_mt p)) 0 (e_Y e) 0 0 in
  let ss := quark_species (6 * n) (3 * n) kb 4 6 3 (w 0%nat) (w 1%nat) b (w 2%nat) (w 3%nat) u in
  let St := e_source_t e (w_mt p) (w_tht p) in
  let d := top_rhs e p w in
  diffuses (e_vw e) (e_Dq e) (w 4%nat) (nth 4 d 0) (gain rs ss 0 - St) /\
  diffuses (e_vw e) (e_Dt e) (w 5%nat) (nth 5 d 0) (gain rs ss 1 + St) /\
  diffuses (e_vw e) (e_Dh e) (w 6%nat) (nth 6 d 0) (gain rs ss 3) /\
  diffuses (e_vw e) (e_Dh e) (w 7%nat) (nth 7 d 0) (gain rs ss 4).
Proof.
  intros e p w kb u b S Dq Dt Dh n rs ss St d. subst rs ss. rewrite gain_q, gain_t, gain_h1, gain_h2.
  subst d n St. unfold diffuses, top_rhs. cbn [nth]. rewrite S. unfold kappa_QL_0, kappa_QR_0, kappa_H_0.
  repeat split; quot; field; assumption.
Qed.

(** top network with sphalerons only: the right-handed top density does not take part *)
Lemma top_sphaleron : forall kb, exists w,
  let d := top_rhs (only 1 0 0 0 0 0) rest w in
  let b := - (w 0%nat + w 1%nat) in
  ~ diffuses 0 1 (w 5%nat) (nth 5 d 0)
      (gain (quark_reactions 0 0 0 0 1) (quark_species 6 3 kb 4 6 3 (w 0%nat) (w 1%nat) b (w 2%nat) (w 3%nat) b) 1).
Proof.
  intro kb. exists (state [1; -1; 0; 0; 0; 0; 0; 0]). cbv zeta. rewrite gain_t. unfold diffuses, state. cbn [nth top_rhs only e_relax_t e_source_t e_Y e_vw e_Dt].
  replace (- (1 + -1)) with 0 by ring. unfold Rdiv at 4 6 7 8. intro H. unfold Rdiv in H. rewrite !Rmult_0_l in H. lra.
Qed.

(** bottom and top networks with a massless bottom quark *)
Lemma crosscheck_kappa : exists w w' d, bot_rhs (only 0 1 1 0 0 0) 2 rest w' = Ok d /\
  (w' 0%nat = w 0%nat /\ w' 1%nat = w 1%nat /\ w' 3%nat = w 2%nat /\ w' 4%nat = w 3%nat /\
   w' 2%nat = - (w 0%nat + w 1%nat) /\ w' 5%nat = - (w 0%nat + w 1%nat) /\
   w' 6%nat = w 4%nat /\ w' 7%nat = w 5%nat /\ w' 9%nat = w 6%nat /\ w' 10%nat = w 7%nat) /\
  nth 7 d 0 <> nth 5 (top_rhs (only 0 1 1 0 0 0) rest w) 0.
Proof.
  exists (state [1; 0; 0; 0; 0; 0; 0; 0]), (state [1; 0; -1; 0; 0; -1; 0; 0; 0; 0; 0; 0]). eexists. split; [reflexivity|].
  unfold state. cbn [nth top_rhs only]. cbn. unfold kappa_doublet, kappa_QL_0, kappa_QR_0, kappa_H_0.
  split; [repeat split; ring|]. lra.
Qed.

Lemma tau_source_off : exists w d,
  tau_rhs (only 0 0 0 0 0 1) 2 1 rest w = Ok d /\ (forall i, w i = 0) /\ nth 12 d 0 = 0 /\ nth 14 d 0 = 0.
Proof.
  exists (fun _ => 0). eexists. split; [reflexivity|]. split; [reflexivity|]. cbn. split; field; unfold kappa_LL_0, kappa_RL_0, kappa_H_0; lra.
Qed.

Lemma left_one_generation : forall kq ktR kbR kH kL kR w,
  total (quark_species kq ktR kbR kH kL kR (w 0%nat) (w 1%nat) (w 2%nat) (w 3%nat) (w 4%nat) (w 5%nat)) left_handed_quarks
  = bot_left w - 2 * w 5%nat.
Proof. intros. unfold total, quark_species, left_handed_quarks, bot_left. cbn. ring. Qed.
