(** Proofs about the wall profiles. *)
From Coq Require Import Reals List ZArith Lra Lia.
From Verif Require Import Model.WallProfile Spec.WallProfileSpec Proofs.DerivLib.
Import ListNotations.
Open Scope R_scope.

Lemma cosh_pos x : 0 < cosh x.
Proof. unfold cosh. pose proof (exp_pos x). pose proof (exp_pos (- x)). lra. Qed.
Lemma cosh_sinh x : cosh x ^ 2 - sinh x ^ 2 = 1.
Proof.
  unfold cosh, sinh. assert (E : exp x * exp (- x) = 1) by (rewrite <- exp_plus, Rplus_opp_r; exact exp_0).
  replace (((exp x + exp (- x)) / 2) ^ 2 - ((exp x - exp (- x)) / 2) ^ 2) with (exp x * exp (- x)) by field. exact E.
Qed.
Lemma tanh_sech x : 1 - tanh x * tanh x = / (cosh x) ^ 2.
Proof.
  unfold tanh. pose proof (cosh_pos x). replace 1 with (cosh x ^ 2 / cosh x ^ 2) at 1 by (field; lra).
  rewrite <- (Rmult_1_l (/ cosh x ^ 2)), <- (cosh_sinh x) at 1. field. lra.
Qed.
Lemma dl_sinh x : dl sinh x (cosh x).
Proof. exact (derivable_pt_lim_sinh x). Qed.
Lemma dl_cosh x : dl cosh x (sinh x).
Proof. exact (derivable_pt_lim_cosh x). Qed.
Lemma dl_tanh x : dl tanh x (1 - tanh x * tanh x).
Proof.
  pose proof (cosh_pos x). eapply dl_eq; [apply (dl_div sinh cosh x _ _ (dl_sinh x) (dl_cosh x)); lra|].
  unfold tanh. field. lra.
Qed.
Lemma dl_scaled L x : L <> 0 -> dl (fun z => tanh (z / L)) x ((1 - tanh (x / L) * tanh (x / L)) / L).
Proof.
  intro H. eapply dl_eq.
  - apply (dl_comp (fun z => z / L) tanh x (/ L) (1 - tanh (x / L) * tanh (x / L))); [|apply dl_tanh].
    eapply dl_eq; [apply (dl_div (fun z => z) (fun _ => L) x 1 0 (dl_id x) (dl_const L x) H)|]. field. exact H.
  - field. exact H.
Qed.

(** limits of the hyperbolic tangent *)
Lemma exp_big M : 0 < M -> M < exp M.
Proof. intro H. pose proof (exp_ineq1 M ltac:(lra)). lra. Qed.
Lemma tanh_exp x : 1 - tanh x = 2 * exp (- x) / (exp x + exp (- x)).
Proof.
  unfold tanh, sinh, cosh. pose proof (exp_pos x). pose proof (exp_pos (- x)). field. lra.
Qed.
Lemma tanh_opp x : tanh (- x) = - tanh x.
Proof.
  unfold tanh, sinh, cosh. rewrite Ropp_involutive. pose proof (exp_pos x). pose proof (exp_pos (- x)). field. lra.
Qed.
Lemma tanh_right eps : 0 < eps -> exists M, 0 < M /\ forall x, M < x -> 0 < 1 - tanh x < eps.
Proof.
  intro H. exists (2 / eps). split; [apply Rdiv_lt_0_compat; lra|]. intros x X.
  assert (P : 0 < 2 / eps) by (apply Rdiv_lt_0_compat; lra).
  rewrite tanh_exp. pose proof (exp_pos x). pose proof (exp_pos (- x)). split.
  - apply Rdiv_lt_0_compat; lra.
  - assert (B : 2 / eps < exp x) by (pose proof (exp_big x ltac:(lra)); lra).
    assert (S : exp (- x) < 1) by (rewrite <- exp_0; apply exp_increasing; lra).
    apply Rmult_lt_reg_r with (exp x + exp (- x)); [lra|]. unfold Rdiv. rewrite Rmult_assoc, Rinv_l by lra. rewrite Rmult_1_r.
    assert (2 < eps * exp x) by (apply Rmult_lt_reg_r with (/ eps); [apply Rinv_0_lt_compat; lra|]; unfold Rdiv in B; replace (eps * exp x * / eps) with (exp x) by (field; lra); lra).
    nra.
Qed.

(** a profile [a + b tanh(z/L)] *)
Lemma kink_limits L a b : 0 < L -> goes_from_to (fun z => a + b * tanh (z / L)) (a - b) (a + b).
Proof.
  intro HL. assert (G : forall eps, 0 < eps -> exists M, 0 < M /\ forall x, M < x -> Rabs b * (1 - tanh x) < eps /\ 0 < 1 - tanh x).
  { intros eps He. pose proof (Rabs_pos b) as Pb.
    destruct (tanh_right (eps / (Rabs b + 1))) as (M & PM & T); [apply Rdiv_lt_0_compat; lra|].
    exists M. split; [exact PM|]. intros x X. destruct (T x X) as [T1 T2]. split; [|exact T1].
    apply Rmult_lt_compat_r with (r := Rabs b + 1) in T2; [|lra]. unfold Rdiv in T2. rewrite Rmult_assoc, Rinv_l in T2 by lra. nra. }
  split; intros eps He; destruct (G eps He) as (M & PM & T).
  - exists (- M * L). intros z Hz.
    assert (X : M < - (z / L)). { apply Rmult_lt_reg_r with L; [exact HL|]. replace (- (z / L) * L) with (- z) by (field; lra). lra. }
    destruct (T _ X) as [T1 T2]. rewrite tanh_opp in T1, T2.
    replace (a + b * tanh (z / L) - (a - b)) with (b * (1 - - tanh (z / L))) by ring.
    rewrite Rabs_mult, (Rabs_pos_eq (1 - - tanh (z / L))) by lra. exact T1.
  - exists (M * L). intros z Hz.
    assert (X : M < z / L). { apply Rmult_lt_reg_r with L; [exact HL|]. unfold Rdiv. rewrite Rmult_assoc, Rinv_l by lra. lra. }
    destruct (T _ X) as [T1 T2].
    replace (a + b * tanh (z / L) - (a + b)) with (- (b * (1 - tanh (z / L)))) by ring.
    rewrite Rabs_Ropp, Rabs_mult, (Rabs_pos_eq (1 - tanh (z / L))) by lra. exact T1.
Qed.
Lemma limits_ext f g a b a' b' : (forall z, f z = g z) -> a = a' -> b = b' -> goes_from_to f a b -> goes_from_to g a' b'.
Proof.
  intros E <- <- [H1 H2]. split; intros eps He.
  - destruct (H1 eps He) as [M H]. exists M. intros z Hz. rewrite <- E. now apply H.
  - destruct (H2 eps He) as [M H]. exists M. intros z Hz. rewrite <- E. now apply H.
Qed.

Lemma nth_map0 (g : R -> R) l i : (i < length l)%nat -> nth i (map g l) 0 = g (nth i l 0).
Proof. intro H. rewrite (nth_indep _ 0 (g 0)) by (rewrite map_length; exact H). apply map_nth. Qed.

Lemma vev_profile L vc i : 0 < L -> (i < length vc)%nat ->
  goes_from_to (component (calculate_vev L vc) i) (nth i vc 0) 0 /\
  derivative_of (component (calculate_vev L vc) i) (component (calculate_vev_derivative L vc) i) /\
  (forall z, component (gen_phi L vc) i z = component (calculate_vev L vc) i z) /\
  (forall z, component (omegaprime L vc) i z = component (calculate_vev_derivative L vc) i z).
Proof.
  intros HL Hi. set (v := nth i vc 0).
  assert (V : forall z, component (calculate_vev L vc) i z = 1 / 2 * v * (1 - tanh (z / L))).
  { intro z. unfold component, calculate_vev. rewrite nth_map0 by exact Hi. reflexivity. }
  assert (D : forall z, component (calculate_vev_derivative L vc) i z = 1 / 2 * v * (- (1 - tanh (z / L) * tanh (z / L)) / L)).
  { intro z. unfold component, calculate_vev_derivative. rewrite nth_map0 by exact Hi. reflexivity. }
  split; [|split; [|split]].
  - apply (limits_ext (fun z => 1 / 2 * v + (- (1 / 2 * v)) * tanh (z / L)) _ (1 / 2 * v - - (1 / 2 * v)) (1 / 2 * v + - (1 / 2 * v))).
    + intro z. rewrite V. ring.
    + unfold v. field.
    + ring.
    + apply kink_limits. exact HL.
  - intro z. eapply dl_ext; [intro y; symmetry; apply V|]. rewrite D.
    eapply dl_eq.
    + apply (dl_mult (fun _ => 1 / 2 * v) (fun y => 1 - tanh (y / L))); [apply dl_const|].
      apply (dl_minus (fun _ => 1) (fun y => tanh (y / L))); [apply dl_const|apply dl_scaled; lra].
    + field. lra.
  - intro z. rewrite V. unfold component, gen_phi. rewrite nth_map0 by exact Hi. unfold v. field.
  - intro z. rewrite D. unfold component, omegaprime. rewrite nth_map0 by exact Hi. fold v.
    rewrite tanh_sech. pose proof (cosh_pos (z / L)). field. lra.
Qed.

Lemma theta_profile L sym brk : 0 < L ->
  goes_from_to (calculate_theta L sym brk 0) brk sym /\
  derivative_of (calculate_theta L sym brk 0) (calculate_theta L sym brk 1) /\
  derivative_of (calculate_theta L sym brk 1) (calculate_theta L sym brk 2).
Proof.
  intro HL. split; [|split].
  - apply (limits_ext (fun z => (brk - 1 / 2 * (brk - sym)) + (- (1 / 2 * (brk - sym))) * tanh (z / L)) _
      (brk - 1 / 2 * (brk - sym) - - (1 / 2 * (brk - sym))) (brk - 1 / 2 * (brk - sym) + - (1 / 2 * (brk - sym)))).
    + intro z. unfold calculate_theta. simpl (_ =? _)%Z. cbn match. ring.
    + field.
    + field.
    + apply kink_limits. exact HL.
  - intro z. unfold calculate_theta. simpl (_ =? _)%Z. cbn match. cbv zeta.
    eapply dl_eq.
    + apply (dl_minus (fun _ => brk) (fun y => 1 / 2 * (brk - sym) * (1 + tanh (y / L)))); [apply dl_const|].
      apply (dl_mult (fun _ => 1 / 2 * (brk - sym)) (fun y => 1 + tanh (y / L))); [apply dl_const|].
      apply (dl_plus (fun _ => 1) (fun y => tanh (y / L))); [apply dl_const|apply dl_scaled; lra].
    + field. lra.
  - intro z. unfold calculate_theta. simpl (_ =? _)%Z. cbn match. cbv zeta.
    eapply dl_eq.
    + apply (dl_mult (fun _ => - (brk - sym) / (2 * L)) (fun y => 1 - tanh (y / L) * tanh (y / L))); [apply dl_const|].
      apply (dl_minus (fun _ => 1) (fun y => tanh (y / L) * tanh (y / L))); [apply dl_const|].
      apply (dl_mult (fun y => tanh (y / L)) (fun y => tanh (y / L))); apply dl_scaled; lra.
    + field. lra.
Qed.

Lemma theta_same L sym brk z : 0 < L -> ~ (Rabs sym < / 10 ^ 12 /\ Rabs brk < / 10 ^ 12) ->
  Calc_theta L sym brk z = (calculate_theta L sym brk 0 z, calculate_theta L sym brk 1 z, calculate_theta L sym brk 2 z).
Proof.
  intros HL N. unfold calculate_theta. simpl (_ =? _)%Z. cbn match. cbv zeta.
  pose proof (cosh_pos (z / L)) as Pc. pose proof (tanh_sech (z / L)) as S.
  assert (E : (brk - (brk - sym) / 2 * (1 + tanh (z / L)), - (brk - sym) / (2 * L * cosh (z / L) ^ 2),
     (brk - sym) * tanh (z / L) / (L * cosh (z / L)) ^ 2) =
    (brk - 1 / 2 * (brk - sym) * (1 + tanh (z / L)), - (brk - sym) / (2 * L) * (1 - tanh (z / L) * tanh (z / L)),
     (brk - sym) * tanh (z / L) / (L * L) * (1 - tanh (z / L) * tanh (z / L)))).
  { rewrite S. repeat apply f_equal2; field; lra. }
  unfold Calc_theta. destruct (Rlt_dec (Rabs sym) (/ 10 ^ 12)) as [A|A]; [destruct (Rlt_dec (Rabs brk) (/ 10 ^ 12)) as [B|B]|].
  - now elim N.
  - exact E.
  - exact E.
Qed.

Lemma theta_small L sym brk z : Rabs sym < / 10 ^ 12 -> Rabs brk < / 10 ^ 12 -> 0 < L ->
  Calc_theta L sym brk z = (0, 0, 0) /\ Rabs (calculate_theta L sym brk 0 z) < / 10 ^ 12.
Proof.
  intros A B HL. split.
  - unfold Calc_theta. destruct (Rlt_dec (Rabs sym) (/ 10 ^ 12)) as [A'|A']; [|contradiction]. destruct (Rlt_dec (Rabs brk) (/ 10 ^ 12)) as [B'|B']; [|contradiction]. reflexivity.
  - unfold calculate_theta. simpl (_ =? _)%Z. cbn match. cbv zeta. set (t := tanh (z / L)).
    assert (T : -1 < t < 1).
    { pose proof (tanh_exp (z / L)) as E1. pose proof (tanh_exp (- (z / L))) as E2. rewrite tanh_opp, Ropp_involutive in E2. fold t in E1, E2.
      pose proof (exp_pos (z / L)). pose proof (exp_pos (- (z / L))).
      assert (0 < 1 - t) by (rewrite E1; apply Rdiv_lt_0_compat; lra). assert (0 < 1 - - t) by (rewrite E2; apply Rdiv_lt_0_compat; lra). lra. }
    replace (brk - 1 / 2 * (brk - sym) * (1 + t)) with (brk * ((1 - t) / 2) + sym * ((1 + t) / 2)) by field.
    eapply Rle_lt_trans; [apply Rabs_triang|]. rewrite !Rabs_mult, (Rabs_pos_eq ((1 - t) / 2)), (Rabs_pos_eq ((1 + t) / 2)) by lra.
    pose proof (Rabs_pos brk). pose proof (Rabs_pos sym). set (e := / 10 ^ 12) in *. nra.
Qed.

(** the vev outside the bubble is not used *)
Lemma symmetric_vev_ignored L vc i w : 0 < L -> (i < length vc)%nat -> w <> 0 ->
  ~ goes_from_to (component (calculate_vev L vc) i) (nth i vc 0) w.
Proof.
  intros HL Hi Hw [_ G]. destruct (vev_profile L vc i HL Hi) as ([_ F] & _).
  assert (P : 0 < Rabs w / 2) by (pose proof (Rabs_pos_lt w Hw); lra).
  destruct (G _ P) as [M1 G1]. destruct (F _ P) as [M2 F1].
  set (z := Rmax M1 M2 + 1). assert (M1 < z) by (unfold z; pose proof (Rmax_l M1 M2); lra). assert (M2 < z) by (unfold z; pose proof (Rmax_r M1 M2); lra).
  specialize (G1 z H). specialize (F1 z H0). set (x := component (calculate_vev L vc) i z) in *.
  assert (T : Rabs w <= Rabs (x - 0) + Rabs (x - w)).
  { replace w with ((x - 0) - (x - w)) at 1 by ring. unfold Rminus at 1. eapply Rle_trans; [apply Rabs_triang|]. rewrite Rabs_Ropp. lra. }
  lra.
Qed.
