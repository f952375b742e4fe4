(** Proofs for the left-handed density. *)
From Coq Require Import Reals List ZArith Lra Lia.
From Coquelicot Require Import Coquelicot.
From Verif Require Import Base Model.Fluid Model.WallProfile Model.Eta Model.Density Model.Rates Spec.DensitySpec Proofs.DerivLib Proofs.EtaProofs.
Import ListNotations.
Open Scope R_scope.

Definition vopp (x : list R) : list R := map Ropp x.
Lemma nth_vopp : forall i x, nth i (vopp x) 0 = - nth i x 0.
Proof. intros i x. unfold vopp. rewrite <- Ropp_0 at 1. apply (map_nth Ropp). Qed.
Lemma vplus_opp : forall a b, vplus (vopp a) (vopp b) = vopp (vplus a b).
Proof.
  intro a. induction a as [|x a IH]; intro b; [reflexivity|]. destruct b as [|y b]; [reflexivity|].
  unfold vplus, vopp in *. cbn. f_equal; [ring|apply IH].
Qed.
Lemma vscale_opp : forall c a, vscale c (vopp a) = vopp (vscale c a).
Proof. intros c a. unfold vscale, vopp. rewrite !map_map. apply map_ext. intro. ring. Qed.
Lemma advance_opp : forall cs ks x h, advance (vopp x) h cs (map vopp ks) = vopp (advance x h cs ks).
Proof.
  unfold advance. intro cs. induction cs as [|c cs IH]; intros ks x h; [reflexivity|].
  destruct ks as [|k ks]; [reflexivity|]. cbn [map combine fold_left fst snd].
  rewrite vscale_opp, vplus_opp. apply IH.
Qed.
Lemma abs_opp : forall x, map Rabs (vopp x) = map Rabs x.
Proof. intro x. unfold vopp. rewrite map_map. apply map_ext. intro. apply Rabs_Ropp. Qed.

Definition omap {A B} (f : A -> B) (o : outcome A) : outcome B := bind o (fun a => Ok (f a)).

Section Odd.
Variables f g : R -> list R -> outcome (list R).
Hypothesis fg : forall t x, g t (vopp x) = omap vopp (f t x).

Lemma stages_opp : forall rows t h x ks, stages g t h (vopp x) rows (map vopp ks) = omap (map vopp) (stages f t h x rows ks).
Proof.
  intro rows. induction rows as [|[c row] rows IH]; intros t h x ks; [reflexivity|]. cbn [stages].
  rewrite advance_opp, fg. destruct (f (t + c * h) (advance x h row ks)) as [k| | |]; try reflexivity.
  cbn [bind omap]. rewrite <- IH. f_equal. rewrite map_app. reflexivity.
Qed.

Lemma integrate_opp : forall fuel tb ctl x t t_end h,
  integrate fuel tb ctl g (vopp x) t t_end h = omap vopp (integrate fuel tb ctl f x t t_end h).
Proof.
  intro fuel. induction fuel as [|fuel IH]; intros tb ctl x t t_end h; [reflexivity|]. cbn [integrate].
  destruct (Req_EM_T t t_end); [reflexivity|].
  set (h1 := if Rlt_dec (Rabs (t_end - t)) (Rabs h) then t_end - t else h).
  pose proof (stages_opp (tb_stages tb) t h1 x []) as E. cbn [map] in E. rewrite E.
  destruct (stages f t h1 x (tb_stages tb) []) as [ks| | |]; try reflexivity. cbn [bind omap].
  rewrite vscale_opp, !advance_opp, !abs_opp.
  replace (map Rabs (hd [] (map vopp ks))) with (map Rabs (hd [] ks)).
  2: { destruct ks as [|k ks]; [reflexivity|]. cbn. symmetry. apply abs_opp. }
  destruct (ctl t h1 (map Rabs x) (map Rabs (hd [] ks)) (map Rabs (advance (vscale 0 x) h1 (tb_errors tb) ks))) as [ok h'].
  destruct ok; apply IH.
Qed.
End Odd.

Lemma repeat_zero : forall n, vopp (repeat 0 n) = repeat 0 n.
Proof. intro n. induction n as [|n IH]; [reflexivity|]. cbn. unfold vopp in IH. rewrite IH, Ropp_0. reflexivity. Qed.

(** phases *)
Definition conj_pair (p : R * R) : R * R := (- fst p, - snd p).
Definition conj (p : phases) : phases := Phases (conj_pair (ph_t p)) (conj_pair (ph_b p)) (conj_pair (ph_tau p)).
Lemma theta_odd : forall LW s b z, snd (fst (Calc_theta LW (- s) (- b) z)) = - snd (fst (Calc_theta LW s b z)).
Proof.
  intros LW s b z. unfold Calc_theta. rewrite !Rabs_Ropp.
  destruct (Rlt_dec (Rabs s) (/ 10 ^ 12)); [destruct (Rlt_dec (Rabs b) (/ 10 ^ 12))|]; cbn [fst snd]; unfold Rdiv; ring.
Qed.

Definition odd_sources (e : fluid) : Prop := forall m th,
  e_source_t e m (- th) = - e_source_t e m th /\ e_source_b e m (- th) = - e_source_b e m th /\ e_source_tau e m (- th) = - e_source_tau e m th.

Definition conj_point (p : wall_point) : wall_point := WallPoint (w_mt p) (w_mb p) (w_mtau p) (- w_tht p) (- w_thb p) (- w_thtau p).
Lemma point_conj : forall LW mt mb mtau ph z, point_at LW mt mb mtau (conj ph) z = conj_point (point_at LW mt mb mtau ph z).
Proof. intros. unfold point_at, conj_point, conj, conj_pair. cbn [ph_t ph_b ph_tau fst snd w_mt w_mb w_mtau w_tht w_thb w_thtau]. rewrite !theta_odd. reflexivity. Qed.

Lemma network_odd : forall net e bf tf point z x, odd_sources e ->
  network_rhs net e bf tf (fun z => conj_point (point z)) z (vopp x) = omap vopp (network_rhs net e bf tf point z x).
Proof.
  intros net e bf tf point z x H. destruct net; cbn [network_rhs].
  - cbn [bind omap]. f_equal. unfold top_rhs, vopp, conj_point. cbn [w_mt w_tht map]. fold (vopp x). rewrite !nth_vopp.
    rewrite (proj1 (H _ _)). unfold Rdiv. repeat (apply (f_equal2 (@cons R)); [ring|]). reflexivity.
  - unfold bot_rhs, conj_point. cbn [w_mt w_mb w_tht w_thb]. destruct (flag_mass bf (w_mb (point z))) as [mb| | |]; try reflexivity.
    cbn [bind omap]. f_equal. unfold vopp at 13. cbn [map]. rewrite !nth_vopp. rewrite (proj1 (H _ _)), (proj1 (proj2 (H _ _))). 
    destruct (Z.eqb bf 1), (Z.eqb bf 2); unfold Rdiv; repeat (apply (f_equal2 (@cons R)); [ring|]); reflexivity.
  - unfold tau_rhs, conj_point. cbn [w_mt w_mb w_mtau w_tht w_thb w_thtau]. destruct (flag_mass bf (w_mb (point z))) as [mb| | |]; try reflexivity.
    cbn [bind]. destruct (flag_mass tf (w_mtau (point z))) as [ml| | |]; try reflexivity.
    cbn [bind omap]. f_equal. unfold vopp at 19. cbn [map]. rewrite !nth_vopp. rewrite (proj1 (H _ _)), (proj1 (proj2 (H _ _))), (proj2 (proj2 (H _ _))).
    destruct (andb (Z.eqb bf 1) (Z.eqb tf 1)), (Z.eqb bf 2); unfold Rdiv; repeat (apply (f_equal2 (@cons R)); [ring|]); reflexivity.
Qed.

Lemma left_odd : forall net x, network_left net (vopp x) = - network_left net x.
Proof.
  intros net x. destruct net; cbn [network_left]; unfold top_left, bot_left, tau_left; rewrite !nth_vopp; ring.
Qed.

Lemma integrate_ext : forall f g, (forall t x, f t x = g t x) -> forall fuel tb ctl x t t_end h,
  integrate fuel tb ctl f x t t_end h = integrate fuel tb ctl g x t t_end h.
Proof.
  intros f g E fuel. induction fuel as [|fuel IH]; intros; [reflexivity|]. cbn [integrate].
  assert (S : forall rows t h x ks, stages f t h x rows ks = stages g t h x rows ks).
  { intro rows. induction rows as [|[c row] rows IR]; intros; [reflexivity|]. cbn [stages]. rewrite E. destruct (g _ _); try reflexivity. cbn [bind]. apply IR. }
  destruct (Req_EM_T t t_end); [reflexivity|]. rewrite S. destruct (stages g _ _ _ _ _); try reflexivity. cbn [bind].
  destruct (ctl _ _ _ _ _) as [ok h']. destruct ok; apply IH.
Qed.

Lemma density_odd : forall fuel tb ctl net e bf tf LW mt mb mtau ph z0 z1, odd_sources e ->
  opposite (Calc_nL fuel tb ctl net e bf tf (point_at LW mt mb mtau ph) z0 z1)
           (Calc_nL fuel tb ctl net e bf tf (point_at LW mt mb mtau (conj ph)) z0 z1).
Proof.
  intros fuel tb ctl net e bf tf LW mt mb mtau ph z0 z1 H. unfold Calc_nL.
  set (p := point_at LW mt mb mtau ph).
  rewrite (integrate_ext (network_rhs net e bf tf (point_at LW mt mb mtau (conj ph))) (network_rhs net e bf tf (fun z => conj_point (p z)))).
  2: { intros t x. unfold network_rhs. unfold p. rewrite <- point_conj. reflexivity. }
  rewrite <- (repeat_zero (network_size net)) at 2.
  rewrite (integrate_opp (network_rhs net e bf tf p)) by (intros; apply network_odd; exact H).
  destruct (integrate _ _ _ _ _ _ _ _) as [x| | |]; cbn [bind omap opposite]; auto. apply left_odd.
Qed.

Lemma values_odd : forall nL nL' zs, (forall z, opposite (nL z) (nL' z)) ->
  values nL' zs = omap vopp (values nL zs).
Proof.
  intros nL nL' zs H. induction zs as [|z zs IH]; [reflexivity|]. cbn [values]. pose proof (H z) as Z.
  destruct (nL z) as [a| | |], (nL' z) as [b| | |]; cbn [opposite] in Z; try contradiction; subst; try reflexivity.
  cbn [bind]. rewrite IH. destruct (values nL zs); reflexivity.
Qed.

Lemma eta_odd : forall T vw f g Z, 0 <= Z -> (forall z, 0 <= z <= Z -> continuity_pt f z) -> (forall z, g z = - f z) ->
  eta_of T vw g Z = - eta_of T vw f Z.
Proof.
  intros T vw f g Z HZ C E. unfold eta_of, Nintegrate_eta.
  assert (X : ex_RInt (fun z => f z * exp (exponent T vw * z)) Z 0).
  { apply ex_RInt_swap. apply (ex_RInt_continuous (V := R_CompleteNormedModule)). intros z Hz. rewrite Rmin_left, Rmax_right in Hz by lra. apply (continuous_mult (K := R_AbsRing)).
    - apply continuity_pt_filterlim. apply C. exact Hz.
    - apply (continuous_comp (fun z => exponent T vw * z) exp).
      + apply (continuous_mult (K := R_AbsRing)); [apply continuous_const|apply continuous_id].
      + apply continuity_pt_filterlim. apply derivable_continuous_pt. apply derivable_pt_exp. }
  assert (Q : RInt (V := R_CompleteNormedModule) (fun z => g z * exp (exponent T vw * z)) Z 0 = - RInt (V := R_CompleteNormedModule) (fun z => f z * exp (exponent T vw * z)) Z 0).
  { change (- RInt (V := R_CompleteNormedModule) (fun z => f z * exp (exponent T vw * z)) Z 0) with (opp (RInt (V := R_CompleteNormedModule) (fun z => f z * exp (exponent T vw * z)) Z 0)).
    rewrite <- (RInt_opp (V := R_CompleteNormedModule)) by exact X. apply RInt_ext. intros z _. rewrite E. unfold opp; cbn. ring. }
  rewrite Q. ring.
Qed.

Lemma asymmetry_odd : forall fuel tb ctl net e bf tf LW mt mb mtau ph spline T vw zmax zs, odd_sources e -> 0 <= zmax ->
  (forall vs z, continuity_pt (spline vs) z) -> (forall vs z, spline (map Ropp vs) z = - spline vs z) ->
  opposite (asymmetry spline T vw zmax zs (Calc_nL fuel tb ctl net e bf tf (point_at LW mt mb mtau ph) zmax))
           (asymmetry spline T vw zmax zs (Calc_nL fuel tb ctl net e bf tf (point_at LW mt mb mtau (conj ph)) zmax)).
Proof.
  intros fuel tb ctl net e bf tf LW mt mb mtau ph spline T vw zmax zs H Z C S. unfold asymmetry.
  rewrite (values_odd (Calc_nL fuel tb ctl net e bf tf (point_at LW mt mb mtau ph) zmax) (Calc_nL fuel tb ctl net e bf tf (point_at LW mt mb mtau (conj ph)) zmax)).
  2: { intro z. apply density_odd. exact H. }
  destruct (values _ zs) as [vs| | |]; cbn [bind omap opposite]; auto.
  apply eta_odd; [exact Z|intros; apply C|intro z; apply S].
Qed.

(** no phases, no asymmetry *)
Lemma theta_small : forall LW s b z, Rabs s < / 10 ^ 12 -> Rabs b < / 10 ^ 12 -> snd (fst (Calc_theta LW s b z)) = 0.
Proof.
  intros LW s b z S B. unfold Calc_theta. destruct (Rlt_dec (Rabs s) (/ 10 ^ 12)); [|contradiction]. destruct (Rlt_dec (Rabs b) (/ 10 ^ 12)); [reflexivity|contradiction].
Qed.
Lemma asymmetry_zero : forall fuel tb ctl net e bf tf LW mt mb mtau ph spline T vw zmax zs a, odd_sources e -> 0 <= zmax ->
  (forall vs z, continuity_pt (spline vs) z) -> (forall vs z, spline (map Ropp vs) z = - spline vs z) ->
  (forall p, In p [ph_t ph; ph_b ph; ph_tau ph] -> Rabs (fst p) < / 10 ^ 12 /\ Rabs (snd p) < / 10 ^ 12) ->
  asymmetry spline T vw zmax zs (Calc_nL fuel tb ctl net e bf tf (point_at LW mt mb mtau ph) zmax) = Ok a -> a = 0.
Proof.
  intros fuel tb ctl net e bf tf LW mt mb mtau ph spline T vw zmax zs a H Z C S P E.
  assert (PT : forall z, point_at LW mt mb mtau (conj ph) z = point_at LW mt mb mtau ph z).
  { intro z. rewrite point_conj. unfold conj_point, point_at. cbn [w_mt w_mb w_mtau w_tht w_thb w_thtau].
    rewrite !theta_small by (apply P; cbn; auto). rewrite Ropp_0. reflexivity. }
  pose proof (asymmetry_odd fuel tb ctl net e bf tf LW mt mb mtau ph spline T vw zmax zs H Z C S) as O.
  assert (SAME : asymmetry spline T vw zmax zs (Calc_nL fuel tb ctl net e bf tf (point_at LW mt mb mtau (conj ph)) zmax)
               = asymmetry spline T vw zmax zs (Calc_nL fuel tb ctl net e bf tf (point_at LW mt mb mtau ph) zmax)).
  { unfold asymmetry. f_equal. clear - PT. induction zs as [|z zs IH]; [reflexivity|]. cbn [values]. rewrite IH. f_equal.
    unfold Calc_nL. f_equal. apply integrate_ext. intros t x. unfold network_rhs. rewrite PT. reflexivity. }
  rewrite SAME, E in O. cbn in O. lra.
Qed.

(** sources are odd *)
Lemma source_odd : forall lepton T vw m thp m2 dm2 k,
  opposite (scp_integrand lepton T vw m thp m2 dm2 k) (scp_integrand lepton T vw m (- thp) m2 dm2 k).
Proof.
  intros. unfold scp_integrand. destruct (Rlt_dec (1 / 1000) (Rabs m2)).
  - destruct (Req_EM_T k 0); cbn [opposite]; [ring|]. unfold Rdiv. ring.
  - destruct (Rlt_dec (Rabs m2) (1 / 1000)); cbn [opposite]; [reflexivity|ring].
Qed.

(** the direction of the wall *)
Lemma front_exponential : forall vw D, 0 < vw -> 0 < D ->
  let n := fun z => exp (- (vw / D) * z) in let n1 := fun z => - (vw / D) * exp (- (vw / D) * z) in
  free_flow vw D n n1 /\ vanishes_ahead n /\ 0 < n 0.
Proof.
  intros vw D V HD n n1.
  assert (E : forall z, dl n z (n1 z)).
  { intro z. unfold n, n1. eapply dl_eq; [apply (dl_exp (fun z => - (vw / D) * z)); apply (dl_mult (fun _ => - (vw / D)) (fun z => z)); [apply dl_const|apply dl_id]|]. ring. }
  split; [|split].
  - intro z. split; [apply E|]. apply (dl_ext (fun _ => 0)); [|apply dl_const]. intro y. unfold n1, n. field. lra.
  - intros eps He. assert (Q : 0 < vw / D) by (apply Rdiv_lt_0_compat; assumption).
    exists (- ln eps / (vw / D) + 1). intros z Hz. unfold n. rewrite Rabs_pos_eq by (left; apply exp_pos).
    rewrite <- (exp_ln eps He) at 1. apply exp_increasing.
    assert (- ln eps / (vw / D) < z) by lra. apply (Rmult_lt_compat_l (vw / D)) in H; [|exact Q].
    replace (vw / D * (- ln eps / (vw / D))) with (- ln eps) in H by (field; lra). lra.
  - unfold n. apply exp_pos.
Qed.

(** functions with zero derivative *)
Lemma constant_function : forall f, (forall z, dl f z 0) -> forall z, f z = f 0.
Proof.
  intros f H z. destruct (Rtotal_order z 0) as [L|[->|G]]; [|reflexivity|].
  - assert (pr : derivable f) by (intro y; exists 0; apply H).
    destruct (MVT_cor2 f (fun _ => 0) z 0 L (fun c _ => H c)) as [c [E _]]. lra.
  - destruct (MVT_cor2 f (fun _ => 0) 0 z G (fun c _ => H c)) as [c [E _]]. lra.
Qed.

(** the free equation of the networks: n'' = (vw / D) n' *)
Lemma network_free : forall vw D (n n1 n2 : R -> R), 0 < vw -> 0 < D ->
  (forall z, dl n z (n1 z)) -> (forall z, dl n1 z (n2 z)) -> (forall z, n2 z = vw * n1 z / D) ->
  vanishes_ahead n -> forall z, n z = 0.
Proof.
  intros vw D n n1 n2 V HD N N1 E A.
  assert (Q : 0 < vw / D) by (apply Rdiv_lt_0_compat; assumption). set (q := vw / D) in *.
  assert (F : forall z, n1 z * exp (- q * z) = n1 0).
  { intro z. replace (n1 0) with (n1 0 * exp (- q * 0)) by (rewrite Rmult_0_r, exp_0; ring).
    apply (constant_function (fun z => n1 z * exp (- q * z))). intro y. eapply dl_eq.
    - apply (dl_mult n1 (fun z => exp (- q * z))); [apply N1|apply (dl_exp (fun z => - q * z)); apply (dl_mult (fun _ => - q) (fun z => z)); [apply dl_const|apply dl_id]].
    - rewrite E. unfold q. field. lra. }
  assert (F1 : forall z, n1 z = n1 0 * exp (q * z)).
  { intro z. rewrite <- (F z). rewrite Rmult_assoc, <- exp_plus. replace (- q * z + q * z) with 0 by ring. rewrite exp_0. ring. }
  set (c := n1 0) in *.
  assert (G : forall z, n z - c / q * exp (q * z) = n 0 - c / q).
  { intro z. replace (n 0 - c / q) with (n 0 - c / q * exp (q * 0)) by (rewrite Rmult_0_r, exp_0; ring).
    apply (constant_function (fun z => n z - c / q * exp (q * z))). intro y. eapply dl_eq.
    - apply dl_minus; [apply N|]. apply (dl_mult (fun _ => c / q) (fun z => exp (q * z))); [apply dl_const|apply (dl_exp (fun z => q * z)); apply (dl_mult (fun _ => q) (fun z => z)); [apply dl_const|apply dl_id]].
    - rewrite F1. field. lra. }
  assert (C0 : c = 0).
  { destruct (Req_dec c 0) as [|NZ]; [assumption|]. exfalso.
    assert (CP : 0 < Rabs c) by (apply Rabs_pos_lt; exact NZ).
    (* compare n at z and z + 1/q *)
    destruct (A (Rabs c / q / 4)) as [Z HZ]; [apply Rdiv_lt_0_compat; [apply Rdiv_lt_0_compat; assumption|lra]|].
    set (y := Rmax Z 0). assert (Y0 : 0 <= y) by apply Rmax_r. assert (YZ : Z <= y) by apply Rmax_l.
    assert (IQ : 0 < 1 / q) by (apply Rdiv_lt_0_compat; lra).
    pose proof (HZ y YZ) as A1. pose proof (HZ (y + 1 / q) ltac:(lra)) as A2.
    assert (D1 : n (y + 1 / q) - n y = c / q * exp (q * y) * (exp 1 - 1)).
    { pose proof (G y) as G1. pose proof (G (y + 1 / q)) as G2.
      replace (q * (y + 1 / q)) with (q * y + 1) in G2 by (field; lra). rewrite exp_plus in G2.
      replace (n (y + 1 / q)) with (n 0 - c / q + c / q * (exp (q * y) * exp 1)) by lra. replace (n y) with (n 0 - c / q + c / q * exp (q * y)) by lra. ring. }
    assert (B : Rabs (n (y + 1 / q) - n y) < Rabs c / q / 2).
    { eapply Rle_lt_trans; [apply Rabs_triang|]. rewrite Rabs_Ropp. lra. }
    rewrite D1 in B. rewrite !Rabs_mult in B.
    assert (E1 : 2 <= exp 1) by (pose proof (exp_ineq1 1 ltac:(lra)); lra).
    assert (E2 : 1 <= exp (q * y)). { rewrite <- exp_0. destruct (Rle_lt_or_eq_dec 0 (q * y)) as [L|L]; [nra|left; apply exp_increasing; exact L|rewrite <- L; lra]. }
    rewrite (Rabs_pos_eq (exp 1 - 1)), (Rabs_pos_eq (exp (q * y))) in B by lra. unfold Rdiv in B at 1. rewrite Rabs_mult, (Rabs_pos_eq (/ q)) in B by (left; apply Rinv_0_lt_compat; exact Q).
    set (k := Rabs c * / q) in *. assert (K : 0 < k) by (unfold k; apply Rmult_lt_0_compat; [exact CP|apply Rinv_0_lt_compat; exact Q]).
    assert (X : 1 <= exp (q * y) * (exp 1 - 1)) by nra. set (w := exp (q * y) * (exp 1 - 1)) in *.
    replace (k * exp (q * y) * (exp 1 - 1)) with (k * w) in B by (unfold w; ring).
    replace (Rabs c / q / 2) with (k / 2) in B by (unfold k, Rdiv; ring). clearbody k w. nra. }
  assert (CN : forall z, n z = n 0). { intro z. pose proof (G z) as G1. rewrite C0 in G1. unfold Rdiv in G1. rewrite !Rmult_0_l in G1. lra. }
  assert (N0 : n 0 = 0).
  { destruct (Req_dec (n 0) 0) as [|NZ]; [assumption|]. exfalso. destruct (A (Rabs (n 0))) as [Z HZ]; [apply Rabs_pos_lt; exact NZ|].
    pose proof (HZ Z (Rle_refl Z)) as X. rewrite CN in X. lra. }
  intro z. rewrite CN. exact N0.
Qed.

Lemma top_free : forall e p w vw D, e_vw e = vw -> e_Dq e = D -> D <> 0 ->
  e_relax_t e (w_mt p) = 0 -> e_SS e = 0 -> e_Y e = 0 -> e_source_t e (w_mt p) (w_tht p) = 0 ->
  D * nth 4 (top_rhs e p w) 0 + (- vw) * w 4%nat = 0.
Proof.
  intros e p w vw D V HD D0 R0 S0 Y0 C0. unfold top_rhs. cbn [nth]. rewrite R0, S0, Y0, C0, V, HD. 
  set (a := _ / (kappa_QR_0 * _)). set (b := 2 * _ / _ - a). clearbody a.
  match goal with |- D * ((0 - 0 * ?x + 2 * 0 * ?y - 0 * ?u + vw * ?v) / D) + _ = 0 => generalize x y u; intros; field; exact D0 end.
Qed.
Lemma top_front : forall p (n n1 n2 : R -> R),
  (forall z, derivable_pt_lim n z (n1 z)) -> (forall z, derivable_pt_lim n1 z (n2 z)) ->
  (exists vw D, 0 < vw /\ 0 < D /\ forall z, n2 z =
     nth 4 (top_rhs (Fluid vw D D D D D 0 0 0 0 0 (fun _ => 1) (fun _ => 0) (fun _ => 0) (fun _ => 0) (fun _ _ => 0) (fun _ _ => 0) (fun _ _ => 0))
              p (fun i => match i with O => n z | 4%nat => n1 z | _ => 0 end)) 0) ->
  vanishes_ahead n -> forall z, n z = 0.
Proof.
  intros p n n1 n2 N N1 [vw [D [V [HD E]]]]. apply (network_free vw D n n1 n2 V HD N N1).
  intro z. pose proof (top_free (Fluid vw D D D D D 0 0 0 0 0 (fun _ => 1) (fun _ => 0) (fun _ => 0) (fun _ => 0) (fun _ _ => 0) (fun _ _ => 0) (fun _ _ => 0))
    p (fun i => match i with O => n z | 4%nat => n1 z | _ => 0 end) vw D eq_refl eq_refl ltac:(lra) eq_refl eq_refl eq_refl eq_refl) as F.
  rewrite <- E in F. apply (Rmult_eq_reg_l D); [|lra]. replace (D * (vw * n1 z / D)) with (vw * n1 z) by (field; lra). cbv beta iota in F. lra.
Qed.

Lemma front_witness : exists vw D p (n n1 n2 : R -> R) z, 0 < vw /\ 0 < D /\ free_flow vw D n n1 /\ vanishes_ahead n /\
  derivable_pt_lim n1 z (n2 z) /\
  n2 z <> nth 4 (top_rhs (Fluid vw D D D D D 0 0 0 0 0 (fun _ => 1) (fun _ => 0) (fun _ => 0) (fun _ => 0) (fun _ _ => 0) (fun _ _ => 0) (fun _ _ => 0))
              p (fun i => match i with O => n z | 4%nat => n1 z | _ => 0 end)) 0.
Proof.
  pose (p := WallPoint 0 0 0 0 0 0). destruct (front_exponential 1 1 ltac:(lra) ltac:(lra)) as [F [A P]].
  exists 1, 1, p, (fun z => exp (- (1 / 1) * z)), (fun z => - (1 / 1) * exp (- (1 / 1) * z)), (fun z => exp (- (1 / 1) * z)), 0.
  split; [lra|]. split; [lra|]. split; [exact F|]. split; [exact A|]. split.
  - eapply dl_eq; [apply (dl_mult (fun _ => - (1 / 1)) (fun z => exp (- (1 / 1) * z))); [apply dl_const|apply (dl_exp (fun z => - (1 / 1) * z)); apply (dl_mult (fun _ => - (1 / 1)) (fun z => z)); [apply dl_const|apply dl_id]]|]. field.
  - pose proof (top_free (Fluid 1 1 1 1 1 1 0 0 0 0 0 (fun _ => 1) (fun _ => 0) (fun _ => 0) (fun _ => 0) (fun _ _ => 0) (fun _ _ => 0) (fun _ _ => 0))
      p (fun i => match i with O => exp (- (1 / 1) * 0) | 4%nat => - (1 / 1) * exp (- (1 / 1) * 0) | _ => 0 end) 1 1 eq_refl eq_refl ltac:(lra) eq_refl eq_refl eq_refl eq_refl) as E.
    cbv beta iota in E. rewrite Rmult_0_r, exp_0 in *. intro X. rewrite <- X in E. lra.
Qed.
