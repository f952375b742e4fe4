(** Proofs about the transport equations. *)
From Coq Require Import Reals List ZArith Lra Lia.
From Verif Require Import Model.Transport Spec.TransportSpec Spec.WallProfileSpec Proofs.DerivLib.
Import ListNotations.
Open Scope R_scope.

Definition top_av (k : kvals) : averages := Av (v_K1t k) (v_K2t k) (v_K4t k) (v_K5t k) (v_K6t k).
Definition bot_av (k : kvals) : averages := massless (v_K1b k) (v_K4b k) (v_K5b k).
Definition higgs_av (k : kvals) : averages := massless (v_K1h k) (v_K4h k) (v_K5h k).

Lemma velocity_solves k c vw dm S x : 
  v_K1t k * v_K5t k * vw ^ 2 + v_K4t k <> 0 -> v_K1b k * v_K5b k * vw ^ 2 + v_K4b k <> 0 -> v_K1h k * v_K5h k * vw ^ 2 + v_K4h k <> 0 ->
  let d := velocity_rhs k c vw dm S x in
  let kt := v_K1t k in let kb := v_K1b k in
  continuity (top_av k) vw dm (x0 x) (x0 d) (x4 d) (rate_t (c_GY c) (c_GM c) (c_GW c) (c_GSS c) kt kb (x0 x) (x1 x) (x2 x) (x3 x)) /\
  continuity (bot_av k) vw dm (x1 x) (x1 d) (x5 d) (rate_b (c_GY c) (c_GW c) (c_GSS c) kt kb (x0 x) (x1 x) (x2 x) (x3 x)) /\
  continuity (top_av k) vw dm (x2 x) (x2 d) (x6 d) (rate_c (c_GY c) (c_GM c) (c_GSS c) kt kb (x0 x) (x1 x) (x2 x) (x3 x)) /\
  continuity (higgs_av k) vw dm (x3 x) (x3 d) (x7 d) (rate_h (c_GY c) (c_GH c) (x0 x) (x1 x) (x2 x) (x3 x)) /\
  force (top_av k) vw dm (c_GTTot c) (x0 d) (x4 x) (x4 d) (S / 3) /\
  force (bot_av k) vw dm (c_GBTot c) (x1 d) (x5 x) (x5 d) 0 /\
  force (top_av k) vw dm (c_GTTot c) (x2 d) (x6 x) (x6 d) (S / 3) /\
  force (higgs_av k) vw dm (c_GHTot c) (x3 d) (x7 x) (x7 d) 0.
Proof.
  destruct k as [q1 q2 q3 q4 q5 q6 q7 q8 q9 q10 q11 q12 q13], c as [g1 g2 g3 g4 g5 g6 g7 g8], x as [w0 w1 w2 w3 w4 w5 w6 w7]. cbn [v_K1t v_K2t v_K4t v_K5t v_K6t v_K1b v_K4b v_K5b v_K1h v_K4h v_K5h]. intros Nt Nb Nh.
  cbv beta iota zeta delta [velocity_rhs x0 x1 x2 x3 x4 x5 x6 x7 continuity force rate_t rate_b rate_c rate_h sphaleron top_av bot_av higgs_av massless
    a1 a2 a4 a5 a6 v_K1t v_K2t v_K4t v_K5t v_K6t v_K8t v_K9t v_K1b v_K4b v_K5b v_K1h v_K4h v_K5h c_GH c_GY c_GM c_GSS c_GHTot c_GTTot c_GBTot c_GW].
  repeat split; field; try (intro E; apply Nt; rewrite <- E; ring); try (intro E; apply Nb; rewrite <- E; ring); try (intro E; apply Nh; rewrite <- E; ring).
Qed.

(** two equations in two unknowns have one solution when the determinant does not vanish *)
Lemma fluid_unique A vw dm G mu u S r p1 q1 p2 q2 : a1 A * a5 A * vw ^ 2 + a4 A <> 0 ->
  continuity A vw dm mu p1 q1 r -> force A vw dm G p1 u q1 S -> continuity A vw dm mu p2 q2 r -> force A vw dm G p2 u q2 S -> p1 = p2 /\ q1 = q2.
Proof.
  unfold continuity, force. intros N C1 F1 C2 F2.
  assert (E : (a1 A * a5 A * vw ^ 2 + a4 A) * (p1 - p2) = 0).
  { assert (Q : q1 - q2 = - vw * a1 A * (p1 - p2)) by lra.
    replace ((a1 A * a5 A * vw ^ 2 + a4 A) * (p1 - p2)) with (a4 A * (p1 - p2) + vw * a5 A * (vw * a1 A * (p1 - p2))) by ring.
    replace (vw * a1 A * (p1 - p2)) with (- (q1 - q2)) by (rewrite Q; ring). lra. }
  destruct (Rmult_integral _ _ E) as [Z|Z]; [contradiction|]. assert (P : p1 = p2) by lra. split; [exact P|]. subst p2. lra.
Qed.

Lemma coefficients_values k T mws m2 : 0 < T -> v_K1h k <> 0 -> v_K1t k <> 0 -> v_K1b k <> 0 ->
  let c := coefficients k T mws m2 in
  c_GH c = mws / (50 * T) /\ c_GY c = 42 / 10000 * T /\ c_GM c = m2 / (63 * T) /\ c_GSS c = 49 / 100000 * T /\
  c_GHTot c = total_rate (higgs_av k) (20 / T) /\ c_GTTot c = total_rate (top_av k) (6 / T) /\
  c_GBTot c = total_rate (bot_av k) (6 / T) /\ c_GW c = total_rate (higgs_av k) (20 / T).
Proof. intros HT H1 H2 H3. repeat split. Qed.

(** the second-order form, for coefficients that do not depend on the position *)
Lemma second_order_core A vw dm G (mu' u S : R -> R) z du dS :
  a4 A <> 0 -> (forall y, force A vw dm G (mu' y) (u y) 0 (S y)) -> dl u z du -> dl S z dS ->
  dl mu' z (((vw * a6 A * dm + G) * du - dS) / a4 A).
Proof.
  intros N F U D. unfold force in F.
  apply (dl_ext (fun y => ((vw * a6 A * dm + G) * u y - S y) * / a4 A)).
  - intro y. apply Rmult_eq_reg_r with (a4 A); [|exact N]. rewrite Rmult_assoc, Rinv_l by exact N. specialize (F y). lra.
  - eapply dl_eq.
    + apply (dl_mult (fun y => (vw * a6 A * dm + G) * u y - S y) (fun _ => / a4 A)); [|apply dl_const].
      apply (dl_minus (fun y => (vw * a6 A * dm + G) * u y) S); [|exact D].
      apply (dl_mult (fun _ => vw * a6 A * dm + G) u); [apply dl_const|exact U].
    + field. exact N.
Qed.

Lemma second_order_solves k c vw dm (t b r h t' b' r' h' ut ub ur uh S : R -> R) z dS :
  v_K4t k <> 0 -> v_K4b k <> 0 -> v_K4h k <> 0 ->
  dl ut z (rate_t (c_GY c) (c_GM c) (c_GW c) (c_GSS c) (v_K1t k) (v_K1b k) (t z) (b z) (r z) (h z) - vw * v_K1t k * t' z - vw * v_K2t k * dm * t z) ->
  dl ub z (rate_b (c_GY c) (c_GW c) (c_GSS c) (v_K1t k) (v_K1b k) (t z) (b z) (r z) (h z) - vw * v_K1b k * b' z) ->
  dl ur z (rate_c (c_GY c) (c_GM c) (c_GSS c) (v_K1t k) (v_K1b k) (t z) (b z) (r z) (h z) - vw * v_K1t k * r' z - vw * v_K2t k * dm * r z) ->
  dl uh z (rate_h (c_GY c) (c_GH c) (t z) (b z) (r z) (h z) - vw * v_K1h k * h' z) ->
  dl S z dS ->
  (forall y, force (top_av k) vw dm (c_GTTot c) (t' y) (ut y) 0 (S y / 3)) ->
  (forall y, force (bot_av k) vw dm (c_GBTot c) (b' y) (ub y) 0 0) ->
  (forall y, force (top_av k) vw dm (c_GTTot c) (r' y) (ur y) 0 (S y / 3)) ->
  (forall y, force (higgs_av k) vw dm (c_GHTot c) (h' y) (uh y) 0 0) ->
  let d := second_order_rhs k c vw dm dS (mk8 (t z) (b z) (r z) (h z) (t' z) (b' z) (r' z) (h' z)) in
  (x0 d = t' z /\ x1 d = b' z /\ x2 d = r' z /\ x3 d = h' z) /\
  dl t' z (x4 d) /\ dl b' z (x5 d) /\ dl r' z (x6 d) /\ dl h' z (x7 d).
Proof.
  intros Nt Nb Nh Ut Ub Ur Uh DS Ft Fb Fr Fh.
  assert (DS3 : dl (fun y => S y / 3) z (dS / 3)).
  { eapply dl_eq; [apply (dl_mult S (fun _ => / 3) z dS 0 DS (dl_const (/ 3) z))|]. field. }
  pose proof (second_order_core (top_av k) _ _ _ _ _ _ _ _ _ Nt Ft Ut DS3) as T.
  pose proof (second_order_core (bot_av k) _ _ _ _ _ (fun _ => 0) _ _ _ Nb Fb Ub (dl_const 0 z)) as B.
  pose proof (second_order_core (top_av k) _ _ _ _ _ _ _ _ _ Nt Fr Ur DS3) as Rr.
  pose proof (second_order_core (higgs_av k) _ _ _ _ _ (fun _ => 0) _ _ _ Nh Fh Uh (dl_const 0 z)) as H.
  clear Ft Fb Fr Fh Ut Ub Ur Uh DS DS3.
  destruct k as [q1 q2 q3 q4 q5 q6 q7 q8 q9 q10 q11 q12 q13], c as [g1 g2 g3 g4 g5 g6 g7 g8]. cbv beta iota zeta delta [second_order_rhs x0 x1 x2 x3 x4 x5 x6 x7].
  cbn [v_K1t v_K2t v_K4t v_K5t v_K6t v_K1b v_K4b v_K5b v_K1h v_K4h v_K5h] in *.
  split; [repeat split|]. repeat split.
  - eapply dl_eq; [exact T|]. cbv beta iota zeta delta [rate_t sphaleron top_av a1 a2 a4 a5 a6 v_K1t v_K2t v_K4t v_K5t v_K6t v_K1b c_GY c_GM c_GW c_GSS c_GTTot]. field. exact Nt.
  - eapply dl_eq; [exact B|]. cbv beta iota zeta delta [rate_b sphaleron bot_av massless a1 a2 a4 a5 a6 v_K1t v_K1b v_K4b v_K5b c_GY c_GW c_GSS c_GBTot]. field. exact Nb.
  - eapply dl_eq; [exact Rr|]. cbv beta iota zeta delta [rate_c sphaleron top_av a1 a2 a4 a5 a6 v_K1t v_K2t v_K4t v_K5t v_K6t v_K1b c_GY c_GM c_GSS c_GTTot]. field. exact Nt.
  - eapply dl_eq; [exact H|]. cbv beta iota zeta delta [rate_h higgs_av massless a1 a2 a4 a5 a6 v_K1h v_K4h v_K5h c_GY c_GH c_GHTot]. field. exact Nh.
Qed.

(** the source and its derivative *)
Lemma source_form k vw (m2 m2' th' th'' : R -> R) z :
  derivative_of m2 m2' -> derivative_of th' th'' ->
  exists d, dl (fun y => m2 y * th' y) z d /\
  St_of k vw (m2 z) (m2' z) (th' z) (th'' z) = - vw * v_K8t k * d + vw * v_K9t k * th' z * m2 z * m2' z.
Proof.
  intros M T. exists (m2' z * th' z + m2 z * th'' z). split; [apply (dl_mult m2 th'); [apply M|apply T]|]. unfold St_of. ring.
Qed.
Lemma source_derivative k vw (m2 m2' m2'' th' th'' th''' : R -> R) z :
  derivative_of m2 m2' -> derivative_of m2' m2'' -> derivative_of th' th'' -> derivative_of th'' th''' ->
  dl (fun y => St_of k vw (m2 y) (m2' y) (th' y) (th'' y)) z
    (dSt_of k vw (m2 z) (m2' z) (th' z) (th'' z)
     - vw * v_K8t k * (m2 z * th''' z + m2'' z * th' z) + vw * v_K9t k * th' z * m2 z * m2'' z).
Proof.
  intros M0 M1 T1 T2. unfold St_of, dSt_of. cbv zeta.
  eapply dl_eq.
  - apply (dl_plus (fun y => - vw * v_K8t k * (m2 y * th'' y + m2' y * th' y)) (fun y => vw * v_K9t k * th' y * m2 y * m2' y)).
    + apply (dl_mult (fun _ => - vw * v_K8t k) (fun y => m2 y * th'' y + m2' y * th' y)); [apply dl_const|].
      apply (dl_plus (fun y => m2 y * th'' y) (fun y => m2' y * th' y)); [apply (dl_mult m2 th'')|apply (dl_mult m2' th')]; auto.
    + apply (dl_mult (fun y => vw * v_K9t k * th' y * m2 y) m2'); [|apply M1].
      apply (dl_mult (fun y => vw * v_K9t k * th' y) m2); [|apply M0].
      apply (dl_mult (fun _ => vw * v_K9t k) th'); [apply dl_const|apply T1].
  - ring.
Qed.

(** the chain rule for the squared top mass *)
Lemma fold_left_Rplus l a : fold_left Rplus l a = a + fold_right Rplus 0 l.
Proof.
  revert a. induction l as [|x l IH]; intro a; cbn; [ring|]. rewrite IH. ring.
Qed.
Lemma dmtsquared_sum v g : dmtsquared_of v g = fold_right Rplus 0 (map (fun p => fst p * snd p) (combine v g)).
Proof. unfold dmtsquared_of. rewrite fold_left_Rplus. ring. Qed.

(** the W mass *)
Lemma nrepeat_le a res : (1 <= nrepeat res a)%nat <-> exists b, In b res /\ Rabs (a - b) <= / 100000.
Proof.
  unfold nrepeat. split.
  - intro H. destruct (filter _ res) as [|b l] eqn:E; [cbn in H; lia|]. exists b.
    assert (I : In b (filter (fun b => if Rle_dec (Rabs (a - b)) (/ 100000) then true else false) res)) by (rewrite E; now left).
    apply filter_In in I. destruct I as [I J]. destruct (Rle_dec (Rabs (a - b)) (/ 100000)); [auto|discriminate].
  - intros (b & I & J). assert (K : In b (filter (fun b => if Rle_dec (Rabs (a - b)) (/ 100000) then true else false) res)).
    { apply filter_In. split; [exact I|]. destruct (Rle_dec (Rabs (a - b)) (/ 100000)); [reflexivity|contradiction]. }
    destruct (filter _ res); [destruct K|cbn; lia].
Qed.
Lemma W_mass_pattern ph w z : / 100000 < Rabs (z - w) -> / 100000 < Rabs (z - ph) -> get_W_mass [ph; w; w; z] = w.
Proof.
  intros H H2. unfold get_W_mass. cbn [rev app find]. unfold nrepeat. cbn [filter].
  destruct (Rle_dec (Rabs (z - ph)) (/ 100000)) as [A|A]; [lra|].
  destruct (Rle_dec (Rabs (z - w)) (/ 100000)) as [B|B]; [lra|].
  replace (w - w) with 0 by ring. rewrite Rabs_R0.
  assert (P : 0 <= / 100000) by (left; apply Rinv_0_lt_compat; lra).
  destruct (Rle_dec 0 (/ 100000)) as [C|C]; [|contradiction].
  destruct (Rle_dec (Rabs (z - z)) (/ 100000)); destruct (Rle_dec (Rabs (w - ph)) (/ 100000)); destruct (Rle_dec (Rabs (w - z)) (/ 100000)); reflexivity.
Qed.

(** on a kink wall with a mass proportional to the field the derivative of the source is not [dSt] *)
From Verif Require Import Model.WallProfile Proofs.WallProfileProofs.

Definition kink_m2 (z : R) : R := (1 - tanh z) ^ 2.
Definition kink_m2' (z : R) : R := - 2 * (1 - tanh z) * (1 - tanh z * tanh z).
Definition kink_m2'' (z : R) : R := 2 * (1 - tanh z * tanh z) ^ 2 + 4 * (1 - tanh z) * tanh z * (1 - tanh z * tanh z).
Lemma kink_d1 : derivative_of kink_m2 kink_m2'.
Proof.
  intro z. unfold kink_m2, kink_m2'. eapply dl_eq.
  - apply (dl_pow (fun y => 1 - tanh y) 2). apply (dl_minus (fun _ => 1) tanh); [apply dl_const|apply dl_tanh].
  - cbn [INR pred pow]. ring.
Qed.
Lemma kink_d2 : derivative_of kink_m2' kink_m2''.
Proof.
  intro z. unfold kink_m2', kink_m2''. eapply dl_eq.
  - apply (dl_mult (fun y => - 2 * (1 - tanh y)) (fun y => 1 - tanh y * tanh y)).
    + apply (dl_mult (fun _ => - 2) (fun y => 1 - tanh y)); [apply dl_const|]. apply (dl_minus (fun _ => 1) tanh); [apply dl_const|apply dl_tanh].
    + apply (dl_minus (fun _ => 1) (fun y => tanh y * tanh y)); [apply dl_const|]. apply (dl_mult tanh tanh); apply dl_tanh.
  - ring.
Qed.
Definition kink_th3 (z : R) : R := (1 - tanh z * tanh z) ^ 2 - 2 * tanh z ^ 2 * (1 - tanh z * tanh z).
Lemma kink_th : derivative_of (calculate_theta 1 0 1 2) kink_th3.
Proof.
  intro z. apply (dl_ext (fun y => tanh y * (1 - tanh y * tanh y))).
  - intro y. unfold calculate_theta. simpl (_ =? _)%Z. cbn match. cbv zeta. replace (y / 1) with y by field. field.
  - unfold kink_th3. eapply dl_eq.
    + apply (dl_mult tanh (fun y => 1 - tanh y * tanh y)); [apply dl_tanh|].
      apply (dl_minus (fun _ => 1) (fun y => tanh y * tanh y)); [apply dl_const|]. apply (dl_mult tanh tanh); apply dl_tanh.
    + ring.
Qed.
Lemma tanh_0 : tanh 0 = 0.
Proof. unfold tanh. rewrite sinh_0. unfold Rdiv. apply Rmult_0_l. Qed.
Lemma dSt_differs k vw : vw <> 0 -> v_K9t k <> 0 ->
  ~ dl (fun y => St_of k vw (kink_m2 y) (kink_m2' y) (calculate_theta 1 0 1 1 y) (calculate_theta 1 0 1 2 y)) 0
     (dSt_of k vw (kink_m2 0) (kink_m2' 0) (calculate_theta 1 0 1 1 0) (calculate_theta 1 0 1 2 0)).
Proof.
  intros Hv H9 D. pose proof (source_derivative k vw kink_m2 kink_m2' kink_m2'' (calculate_theta 1 0 1 1) (calculate_theta 1 0 1 2) kink_th3 0
    kink_d1 kink_d2 (proj2 (proj2 (theta_profile 1 0 1 Rlt_0_1))) kink_th) as E.
  pose proof (uniqueness_limite _ _ _ _ D E) as U. clear D E.
  assert (T1 : calculate_theta 1 0 1 1 0 = - (1 / 2)).
  { unfold calculate_theta. simpl (_ =? _)%Z. cbn match. cbv zeta. replace (0 / 1) with 0 by field. rewrite tanh_0. field. }
  assert (M0 : kink_m2 0 = 1) by (unfold kink_m2; rewrite tanh_0; ring).
  assert (M2 : kink_m2'' 0 = 2) by (unfold kink_m2''; rewrite tanh_0; ring).
  assert (T3 : kink_th3 0 = 1) by (unfold kink_th3; rewrite tanh_0; ring).
  set (X := dSt_of _ _ _ _ _ _) in U. rewrite T1, M0, M2, T3 in U.
  assert (Z : vw * v_K9t k = 0) by lra. destruct (Rmult_integral _ _ Z); contradiction.
Qed.

Lemma combine_seq (v g : list R) : length v = length g ->
  map (fun p => fst p * snd p) (combine v g) = map (fun i => nth i v 0 * nth i g 0) (seq 0 (length v)).
Proof.
  revert g. induction v as [|a v IH]; intros [|b g] E; try discriminate; [reflexivity|].
  cbn [combine map length seq]. cbn [nth fst snd]. f_equal. rewrite IH by (now injection E). rewrite <- seq_shift, map_map. reflexivity.
Qed.
Lemma mass_chain_rule LW vc F grad : 0 < LW -> (forall v, length v = length vc -> length (grad v) = length vc) ->
  gradient_of (length vc) F grad ->
  derivative_of (fun z => F (calculate_vev LW vc z))
    (fun z => dmtsquared_of (calculate_vev_derivative LW vc z) (grad (calculate_vev LW vc z))).
Proof.
  intros HL HG G z.
  assert (L1 : forall y, length (calculate_vev LW vc y) = length vc) by (intro y; apply map_length).
  assert (L2 : length (calculate_vev_derivative LW vc z) = length vc) by apply map_length.
  rewrite dmtsquared_sum, combine_seq by (rewrite L2, HG; auto). rewrite L2.
  apply (G (calculate_vev LW vc) (fun i => nth i (calculate_vev_derivative LW vc z) 0) z L1).
  intros i Hi. exact (proj1 (proj2 (vev_profile LW vc i HL Hi)) z).
Qed.
