(** The loop of IntegrateBounce. *)
From Coq Require Import Reals List Lra Lia ZArith Bool.
From Coquelicot Require Import Coquelicot.
From Flocq Require Import Core.
From Verif Require Import Model.BounceStart Model.RungeKutta Spec.BounceStartSpec Proofs.RungeKuttaProofs Proofs.BounceUnique.
Import ListNotations.
Open Scope R_scope.

Section Loop.
  Variables (dV : R -> R) (alpha : nat) (L error eps m : R) (root : R -> R).

  Definition follows (q p : point) : Prop := exists step, 0 < step /\ p_rho q = p_rho p + step /\
    (p_l q, p_dl q) = fst (RK5_step (AuxFunctionDev dV alpha) (p_l p, p_dl p) (p_dl p, p_d2l p) (to_float (p_rho p)) (to_float step)) /\
    p_d2l q = d2ldrho2 dV alpha (p_l q) (p_rho q) (p_dl q).
  Lemma adv_next : (forall x, 0 < root x) -> forall p step q s', 0 < step ->
    advance dV alpha eps m root p step = (q, s') -> 0 < s' /\ follows q p.
  Proof using.
    intros RP p step q s' S H; unfold advance in H.
    destruct (RK5_step (AuxFunctionDev dV alpha) (p_l p, p_dl p) (p_dl p, p_d2l p) (to_float (p_rho p)) (to_float step)) as [y e] eqn:E.
    inversion H; subst q s'; clear H; cbn [p_rho p_l p_dl p_d2l fst snd].
    split.
    - match goal with |- context [root ?x] => pose proof (RP x) as P; set (z := root x) in * end.
      assert (0 < step * z) by (apply Rmult_lt_0_compat; assumption).
      destruct (Rlt_dec 0 m); [apply Rmin_pos; assumption|lra].
    - exists step; split; [exact S|]. split; [reflexivity|]. rewrite E. split; [destruct y; reflexivity|reflexivity].
  Qed.
  Lemma loop_S : forall n it p ps step, loop dV alpha L error eps m root (S n) it p ps step =
    if rolling L error p || Nat.ltb it 5
    then loop dV alpha L error eps m root n (S it) (fst (advance dV alpha eps m root p step)) (p :: ps) (snd (advance dV alpha eps m root p step))
    else p :: ps.
  Proof using. intros; cbn [loop]; destruct (advance dV alpha eps m root p step); reflexivity. Qed.

  (** newest first; the two oldest points are not steps of the loop *)
  Definition steps_ok (all : list point) : Prop := forall newer q p older, all = newer ++ q :: p :: older -> older <> [] ->
    follows q p /\ (rolling L error p = true \/ (length older < 6)%nat).
  Lemma loop_steps : (forall x, 0 < root x) -> forall n it p ps step, 0 < step -> length ps = S it -> steps_ok (p :: ps) ->
    steps_ok (loop dV alpha L error eps m root n it p ps step).
  Proof using.
    intros RP; induction n as [|n IH]; intros it p ps step S0 LE OK; [exact OK|].
    rewrite loop_S. destruct (rolling L error p || Nat.ltb it 5)%bool eqn:C; [|exact OK].
    destruct (advance dV alpha eps m root p step) as [q s'] eqn:E; cbn [fst snd].
    destruct (adv_next RP p step q s' S0 E) as [S' F]. apply IH; [exact S'|cbn; lia|].
    intros newer q1 p1 older HE HO. destruct newer as [|x newer]; cbn in HE; inversion HE; subst.
    - split; [exact F|]. apply orb_true_iff in C; destruct C as [C|C]; [left; exact C|right; apply Nat.ltb_lt in C; lia].
    - apply (OK newer); assumption.
  Qed.
  Lemma loop_length : forall n it p ps step, let all := loop dV alpha L error eps m root n it p ps step in
    exists q older newer, all = q :: older /\ all = newer ++ p :: ps /\
    (length all <= S (length ps) + n)%nat /\ (S (length ps) + Nat.min n (5 - it) <= length all)%nat /\
    ((length all < S (length ps) + n)%nat -> rolling L error q = false).
  Proof using.
    induction n as [|n IH]; intros it p ps step; cbv zeta.
    - exists p, ps, []; cbn; repeat split; lia.
    - rewrite loop_S. destruct (rolling L error p) eqn:C; cbn [orb]; [|destruct (Nat.ltb_spec it 5)].
      1, 2: destruct (IH (S it) (fst (advance dV alpha eps m root p step)) (p :: ps) (snd (advance dV alpha eps m root p step))) as (q & older & newer & E1 & E2 & A1 & A2 & A3);
        cbv zeta in *; cbn [length] in *; exists q, older, (newer ++ [fst (advance dV alpha eps m root p step)]);
        split; [exact E1|]; split; [rewrite E2, <- app_assoc; reflexivity|]; split; [lia|]; split; [lia|]; intros; apply A3; lia.
      exists p, ps, []; cbn [app length]; split; [reflexivity|]; split; [reflexivity|]; split; [lia|]; split; [lia|intros; exact C].
  Qed.
End Loop.

Lemma rolling_iff : forall L e p, 0 < L -> (rolling L e p = true <-> e < p_dl p /\ p_l p < L * (1 + e)).
Proof.
  intros L e p LP; unfold rolling.
  assert (X : (p_l p - L) / L < e <-> p_l p < L * (1 + e)).
  { split; intros H.
    - apply (Rmult_lt_compat_r L) in H; [|exact LP]. replace ((p_l p - L) / L * L) with (p_l p - L) in H by (field; lra). lra.
    - apply (Rmult_lt_reg_r L); [exact LP|]. replace ((p_l p - L) / L * L) with (p_l p - L) by (field; lra). lra. }
  destruct (Rlt_dec e (p_dl p)), (Rlt_dec ((p_l p - L) / L) e); cbn; split; intros; try discriminate; try tauto; destruct H; tauto.
Qed.

Lemma integrate_points : forall dV alpha L e eps m root maxiter l0 r l v st ps u o,
  (forall x, 0 < root x) -> 0 < r -> 0 < L ->
  IntegrateBounce dV alpha L e eps m root maxiter l0 (Start r l v) = Some (st, ps, u, o) ->
  exists all last older newer, all = last :: older /\ ps = (if u then older else all) /\
    all = newer ++ [mkPoint r l v (d2ldrho2 dV alpha l r v); mkPoint 0 l0 0 (dV l0)] /\
    (2 + Nat.min maxiter 5 <= length all <= 2 + maxiter)%nat /\
    (forall newer q p older, all = newer ++ q :: p :: older -> p_rho p < p_rho q /\
       (older <> [] -> follows dV alpha q p /\ ((7 <= length (p :: older))%nat -> e < p_dl p /\ p_l p < L * (1 + e)))) /\
    ((length all < 2 + maxiter)%nat -> p_dl last <= e \/ L * (1 + e) <= p_l last) /\
    (st = Converged <-> Rabs (p_dl last) <= e /\ Rabs (p_l last - L) <= e * L) /\
    (st = Undershoot <-> p_dl last <= e /\ ~ (Rabs (p_dl last) <= e /\ Rabs (p_l last - L) <= e * L)) /\
    (st = Overshoot <-> e < p_dl last) /\
    (u = true <-> st = Undershoot) /\ (o = true <-> e < p_dl last /\ L * (1 + e) <= p_l last).
Proof.
  intros dV alpha L e eps m root maxiter l0 r l v st ps u o RP R0 LP H. unfold IntegrateBounce in H.
  set (p1 := mkPoint r l v (d2ldrho2 dV alpha l r v)) in *.
  assert (E0 : d2ldrho2 dV alpha l0 0 0 = dV l0) by (unfold d2ldrho2; destruct (Req_EM_T 0 0); [reflexivity|congruence]).
  rewrite E0 in H. set (p0 := mkPoint 0 l0 0 (dV l0)) in *.
  assert (S0 : 0 < r / 100) by lra.
  pose proof (loop_steps dV alpha L e eps m root RP maxiter 0 p1 [p0] (r / 100) S0 eq_refl) as ST.
  destruct (loop_length dV alpha L e eps m root maxiter 0 p1 [p0] (r / 100)) as (q & older & newer & E1 & E2 & A1 & A2 & A3); cbv zeta in *.
  set (all := loop dV alpha L e eps m root maxiter 0 p1 [p0] (r / 100)) in *; clearbody all.
  assert (ST' : steps_ok dV alpha L e all).
  { apply ST. intros nw a b od HE HO. destruct nw as [|x [|y nw]]; cbn in HE; inversion HE; subst; try tauto. destruct nw; discriminate. }
  clear ST. cbn [length] in A1, A2, A3.
  exists all, q, older, newer. split; [exact E1|].
  assert (CL : forall x, Rabs (x - L) / L <= e <-> Rabs (x - L) <= e * L).
  { intros x; split; intros G.
    - apply (Rmult_le_compat_r L) in G; [|lra]. replace (Rabs (x - L) / L * L) with (Rabs (x - L)) in G by (field; lra). exact G.
    - apply (Rmult_le_reg_r L); [exact LP|]. replace (Rabs (x - L) / L * L) with (Rabs (x - L)) by (field; lra). exact G. }
  assert (OV : e <= (p_l q - L) / L <-> L * (1 + e) <= p_l q).
  { split; intros G.
    - apply (Rmult_le_compat_r L) in G; [|lra]. replace ((p_l q - L) / L * L) with (p_l q - L) in G by (field; lra). lra.
    - apply (Rmult_le_reg_r L); [exact LP|]. replace ((p_l q - L) / L * L) with (p_l q - L) by (field; lra). lra. }
  assert (CO : forall nw a b od, all = nw ++ a :: b :: od -> p_rho b < p_rho a /\
       (od <> [] -> follows dV alpha a b /\ ((7 <= length (b :: od))%nat -> e < p_dl b /\ p_l b < L * (1 + e)))).
  { intros nw a b od HE. destruct od as [|c od].
    - split; [|tauto]. rewrite E2 in HE. replace (newer ++ [p1; p0]) with ((newer ++ [p1]) ++ [p0]) in HE by (rewrite <- app_assoc; reflexivity).
      replace (nw ++ [a; b]) with ((nw ++ [a]) ++ [b]) in HE by (rewrite <- app_assoc; reflexivity).
      apply app_inj_tail in HE; destruct HE as [HE <-]. apply app_inj_tail in HE; destruct HE as [_ <-]. exact R0.
    - destruct (ST' nw a b (c :: od) HE ltac:(discriminate)) as [F G]. split.
      + destruct F as (s & S & F & _); lra.
      + intros _; split; [exact F|]. intros Hl; cbn [length] in *. apply rolling_iff; [exact LP|]. destruct G as [G|G]; [exact G|lia]. }
  assert (EX : (length all < 2 + maxiter)%nat -> p_dl q <= e \/ L * (1 + e) <= p_l q).
  { intros Hl. destruct (Rle_dec (p_dl q) e) as [G|G]; [left; exact G|right]. destruct (Rle_dec (L * (1 + e)) (p_l q)) as [G'|G']; [exact G'|].
    assert (X : rolling L e q = true) by (apply rolling_iff; [exact LP|]; split; lra). rewrite A3 in X by lia; discriminate. }
  rewrite E1 in H; unfold classify in H.
  pose proof (CL (p_l q)) as CQ.
  assert (AB : Rabs (p_dl q) <= e -> p_dl q <= e) by (intros G; apply Rle_trans with (2 := G), Rle_abs).
  destruct (Rle_dec (Rabs (p_dl q)) e) as [G1|G1]; [destruct (Rle_dec (Rabs (p_l q - L) / L) e) as [G2|G2]|]; cbn [andb] in H;
    [|destruct (Rle_dec (p_dl q) e) as [G3|G3]; [|destruct (Rle_dec e ((p_l q - L) / L)) as [G4|G4]]
     |destruct (Rle_dec (p_dl q) e) as [G3|G3]; [|destruct (Rle_dec e ((p_l q - L) / L)) as [G4|G4]]];
    inversion H; subst st ps u o; clear H;
    (split; [congruence|]); (split; [exact E2|]); (split; [lia|]); (split; [exact CO|]); (split; [exact EX|]);
    repeat split; intros; try discriminate; try tauto; try lra; try (exfalso; lra).
  all: try (exfalso; tauto).
  all: try (exfalso; destruct H as [H H']; tauto).
Qed.

Lemma integrate_some : forall dV alpha L e eps m root maxiter l0 r l v, exists st ps u o,
  IntegrateBounce dV alpha L e eps m root maxiter l0 (Start r l v) = Some (st, ps, u, o).
Proof.
  intros. unfold IntegrateBounce.
  destruct (loop_length dV alpha L e eps m root maxiter 0 (mkPoint r l v (d2ldrho2 dV alpha l r v)) [mkPoint 0 l0 0 (d2ldrho2 dV alpha l0 0 0)] (r / 100)) as (q & older & newer & E1 & _).
  rewrite E1; unfold classify.
  repeat match goal with |- context [if ?b then _ else _] => destruct b end; do 4 eexists; reflexivity.
Qed.

(** the steps run out before the motion l = rho arrives *)
Lemma float_int : forall n, (Z.of_nat n < 2 ^ 24)%Z -> to_float (INR n) = INR n.
Proof.
  intros n N; unfold to_float; apply round_generic; [apply valid_rnd_N|].
  apply generic_format_FLT. apply (FLT_spec radix2 (-149) 24 (INR n) (Float radix2 (Z.of_nat n) 0)).
  - unfold F2R; cbn; rewrite INR_IZR_INZ; lra.
  - cbn; lia.
  - cbn; lia.
Qed.

Lemma exhausted : forall alpha eps root maxiter, (Z.of_nat maxiter < 2 ^ 23)%Z -> (forall x, 1 <= root x) -> forall n it ps,
  (it + n = maxiter)%nat ->
  exists rest, loop (fun l => INR alpha / l) alpha (10 ^ 10) (/ 2) eps 1 root n it (mkPoint (INR (100 + it)) (INR (100 + it)) 1 0) ps 1 =
    mkPoint (INR (100 + maxiter)) (INR (100 + maxiter)) 1 0 :: rest.
Proof.
  intros alpha eps root maxiter M RT; induction n as [|n IH]; intros it ps E.
  - replace it with maxiter by lia. exists ps; reflexivity.
  - rewrite loop_S.
    assert (LT : INR (100 + it) < 10 ^ 10).
    { apply Rlt_trans with (IZR (2 ^ 24)); [rewrite INR_IZR_INZ; apply IZR_lt; lia|]. change (2 ^ 24)%Z with 16777216%Z; lra. }
    assert (P : 0 < INR (100 + it)) by (apply lt_0_INR; lia).
    assert (X : rolling (10 ^ 10) (/ 2) (mkPoint (INR (100 + it)) (INR (100 + it)) 1 0) = true).
    { apply rolling_iff; cbn [p_dl p_l]; [lra|split; lra]. }
    rewrite X; cbn [orb].
    assert (F1 : to_float (INR (100 + it)) = INR (100 + it)) by (apply float_int; lia).
    unfold advance; cbn [p_rho p_l p_dl p_d2l]. rewrite F1, float_one, uniform_at by lra. cbn [fst snd].
    destruct (Rlt_dec 0 1); [|lra].
    match goal with |- context [Rmin (1 * root ?x) 1] => replace (Rmin (1 * root x) 1) with 1 by (pose proof (RT x); rewrite Rmin_right; lra) end.
    replace (d2ldrho2 (fun l => INR alpha / l) alpha (INR (100 + it) + 1) (INR (100 + it) + 1) 1) with 0
      by (unfold d2ldrho2; destruct (Req_EM_T 1 0); [lra|]; field; lra).
    replace (INR (100 + it) + 1) with (INR (100 + S it)) by (rewrite Nat.add_succ_r, S_INR; reflexivity).
    apply IH; lia.
Qed.
Lemma not_arrived : forall alpha eps root maxiter, (Z.of_nat maxiter < 2 ^ 23)%Z -> (forall x, 1 <= root x) ->
  exists dV L e r l v last rest, 0 < e < 1 /\ 0 < r /\ 0 < l < L /\ e < v /\
  IntegrateBounce dV alpha L e eps 1 root maxiter 1 (Start r l v) = Some (Overshoot, last :: rest, false, false) /\
  p_l last < L / 10 /\ 0 < p_dl last.
Proof.
  intros alpha eps root maxiter M RT.
  destruct (exhausted alpha eps root maxiter M RT maxiter 0 [mkPoint 0 1 0 (d2ldrho2 (fun l => INR alpha / l) alpha 1 0 0)] eq_refl) as [rest E].
  assert (H : INR 100 = 100) by (rewrite INR_IZR_INZ; reflexivity).
  assert (B : INR (100 + maxiter) < 10 ^ 9).
  { apply Rlt_trans with (IZR (2 ^ 24)); [rewrite INR_IZR_INZ; apply IZR_lt; lia|]. change (2 ^ 24)%Z with 16777216%Z; lra. }
  exists (fun l => INR alpha / l), (10 ^ 10), (/ 2), 100, 100, 1, (mkPoint (INR (100 + maxiter)) (INR (100 + maxiter)) 1 0), rest.
  assert (G : p_l (mkPoint (INR (100 + maxiter)) (INR (100 + maxiter)) 1 0) < 10 ^ 10 / 10) by (cbn [p_l]; lra).
  repeat split; try lra; try exact G; try (cbn [p_dl]; lra).
  unfold IntegrateBounce.
  replace (d2ldrho2 (fun l => INR alpha / l) alpha 100 100 1) with 0 by (unfold d2ldrho2; destruct (Req_EM_T 1 0); [lra|]; field).
  replace (100 / 100) with 1 by field.
  change (100 + 0)%nat with 100%nat in E. rewrite H in E. rewrite E. unfold classify; cbn [p_dl p_l].
  rewrite Rabs_R1. destruct (Rle_dec 1 (/ 2)); [lra|]. cbn [andb].
  destruct (Rle_dec (/ 2) ((INR (100 + maxiter) - 10 ^ 10) / 10 ^ 10)) as [C|C]; [exfalso|reflexivity].
  apply (Rmult_le_compat_r (10 ^ 10)) in C; [|lra].
  replace ((INR (100 + maxiter) - 10 ^ 10) / 10 ^ 10 * 10 ^ 10) with (INR (100 + maxiter) - 10 ^ 10) in C by (field; lra). lra.
Qed.

(** the acceleration at rho = 0 *)
Lemma first_acceleration : forall alpha c l0 L e eps m root maxiter r l v st ps u o, (1 <= alpha)%nat -> c <> 0 -> 
  (forall x, 0 < root x) -> 0 < r -> 0 < L -> (1 <= maxiter)%nat ->
  IntegrateBounce (fun x => c + (x - l0) * 0) alpha L e eps m root maxiter l0 (Start r l v) = Some (st, ps, u, o) ->
  exists phi phi' a p rest, rolls alpha (fun x => c + (x - l0) * 0) l0 phi phi' /\ (forall t, 0 < t -> derivable_pt_lim phi' t a) /\
    ps = rest ++ [p] /\ p_rho p = 0 /\ p_l p = l0 /\ p_dl p = 0 /\ p_d2l p = (INR alpha + 1) * a /\ p_d2l p <> a.
Proof.
  intros alpha c l0 L e eps m root maxiter r l v st ps u o A C RP R0 LP MI H.
  destruct (integrate_points _ _ _ _ _ _ _ _ _ _ _ _ _ _ _ _ RP R0 LP H) as (all & last & older & newer & E1 & E2 & E3 & LE & _).
  pose proof (le_INR 1 alpha A) as AI; cbn [INR] in AI.
  set (p0 := mkPoint 0 l0 0 (c + (l0 - l0) * 0)) in *. set (p1 := mkPoint r l v _) in *.
  exists (fun r => l0 + c * r ^ 2 / (2 * (INR alpha + 1))), (fun r => c * r / (INR alpha + 1)), (c / (INR alpha + 1)), p0.
  assert (X : exists rest, ps = rest ++ [p0]).
  { destruct u; [|exists (newer ++ [p1]); rewrite E2, E3, <- app_assoc; reflexivity].
    destruct newer as [|x newer]; [exfalso; rewrite E3 in LE; cbn in LE; lia|].
    rewrite E1 in E3; cbn in E3; inversion E3; subst. exists (newer ++ [p1]); rewrite <- app_assoc; reflexivity. }
  destruct X as [rest X]; exists rest.
  split; [apply free_fall|]. split.
  - intros t T. apply is_derive_Reals; auto_derive; [lra|field; lra].
  - cbn [p_rho p_l p_dl p_d2l p0]. repeat split; try exact X; [field; lra|].
    intros G. apply C. apply (Rmult_eq_compat_r (INR alpha + 1)) in G.
    replace (c / (INR alpha + 1) * (INR alpha + 1)) with c in G by (field; lra).
    assert (Z : c * INR alpha = 0) by lra. apply Rmult_integral in Z; destruct Z; lra.
Qed.

(** the next step size *)
Lemma fifth_power : forall x, 0 < x -> Rpower x (/ 5) ^ 5 = x.
Proof. intros x H. rewrite <- Rpower_pow by apply exp_pos. rewrite Rpower_mult. replace (/ 5 * INR 5) with 1 by (cbn; field). apply Rpower_1, H. Qed.
Lemma next_step : forall dV alpha eps m p step q next,
  let err := snd (RK5_step (AuxFunctionDev dV alpha) (p_l p, p_dl p) (p_dl p, p_d2l p) (to_float (p_rho p)) (to_float step)) in
  let d1 := Rmax (Rabs (fst err)) (Rabs (snd err)) in
  let d0 := eps * Rmax (Rabs (p_l p + p_l q)) (Rabs (p_dl p + p_dl q)) in
  0 < step -> 0 < d1 -> 0 < d0 -> advance dV alpha eps m (fun x => Rpower x (/ 5)) p step = (q, next) -> 0 < next /\
  (0 < m -> next <= m /\ next ^ 5 * d1 <= step ^ 5 * d0 /\ (next < m -> next ^ 5 * d1 = step ^ 5 * d0)) /\
  (m <= 0 -> (2 * next) ^ 5 * d1 = step ^ 5 * d0).
Proof.
  intros dV alpha eps m p step q next err d1 d0 S D1 D0 H. unfold advance in H. subst err.
  destruct (RK5_step (AuxFunctionDev dV alpha) (p_l p, p_dl p) (p_dl p, p_d2l p) (to_float (p_rho p)) (to_float step)) as [y e].
  cbn [snd] in d1. injection H as Q N. subst q. cbn [p_l p_dl] in d0. fold d1 d0 in N.
  assert (P : 0 < d0 / d1) by (apply Rdiv_lt_0_compat; assumption). set (k := Rpower (d0 / d1) (/ 5)) in *.
  assert (K : 0 < k) by apply exp_pos. assert (K5 : k ^ 5 = d0 / d1) by (apply fifth_power, P).
  assert (SK : 0 < step * k) by (apply Rmult_lt_0_compat; assumption).
  assert (E : (step * k) ^ 5 * d1 = step ^ 5 * d0) by (rewrite Rpow_mult_distr, K5; field; lra).
  destruct (Rlt_dec 0 m) as [M|M]; subst next.
  - split; [apply Rmin_glb_lt; assumption|]. split; [|lra]. intros _. split; [apply Rmin_r|]. split.
    + rewrite <- E. apply Rmult_le_compat_r; [lra|]. apply pow_incr. split; [apply Rlt_le, Rmin_glb_lt; assumption|apply Rmin_l].
    + intros L. rewrite Rmin_left; [exact E|]. destruct (Rle_dec (step * k) m); [assumption|]. rewrite Rmin_right in L; lra.
  - split; [lra|]. split; [lra|]. intros _. rewrite <- E. f_equal. f_equal. field.
Qed.
