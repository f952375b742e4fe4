(** The sound-wave efficiency factor is continuous in the wall velocity. *)
From Coq Require Import Reals Lra Lia Psatz.
From Verif.Model Require Import GW.
From Verif.Proofs Require Import GWProofs.
Open Scope R_scope.

(** ** continuity combinators *)
Lemma cp_const c x : continuity_pt (fun _ => c) x.
Proof. apply continuity_pt_const. now intros ? ?. Qed.
Lemma cp_id x : continuity_pt (fun v => v) x.
Proof. apply derivable_continuous_pt, derivable_pt_id. Qed.
Lemma cp_plus f g x : continuity_pt f x -> continuity_pt g x -> continuity_pt (fun v => f v + g v) x.
Proof. exact (continuity_pt_plus f g x). Qed.
Lemma cp_minus f g x : continuity_pt f x -> continuity_pt g x -> continuity_pt (fun v => f v - g v) x.
Proof. exact (continuity_pt_minus f g x). Qed.
Lemma cp_mult f g x : continuity_pt f x -> continuity_pt g x -> continuity_pt (fun v => f v * g v) x.
Proof. exact (continuity_pt_mult f g x). Qed.
Lemma cp_div f g x : continuity_pt f x -> continuity_pt g x -> g x <> 0 -> continuity_pt (fun v => f v / g v) x.
Proof. exact (continuity_pt_div f g x). Qed.
Lemma cp_pow f n x : continuity_pt f x -> continuity_pt (fun v => f v ^ n) x.
Proof. intro H. induction n as [|n IH]; cbn [pow]; [apply cp_const|now apply cp_mult]. Qed.
Lemma cp_ext_loc f g x d : 0 < d -> (forall y, Rabs (y - x) < d -> f y = g y) -> continuity_pt f x -> continuity_pt g x.
Proof.
  intros D E C eps He. destruct (C eps He) as (a & Ha & Hb). exists (Rmin a d). split; [now apply Rmin_pos|].
  intros y (Hy & Hd). cbn in *. unfold Rfunctions.R_dist in *.
  rewrite <- (E y), <- (E x).
  - apply Hb. split; [exact Hy|]. eapply Rlt_le_trans; [exact Hd|apply Rmin_l].
  - rewrite Rminus_eq_0, Rabs_R0. exact D.
  - eapply Rlt_le_trans; [exact Hd|apply Rmin_r].
Qed.
Lemma cp_cpow a x : 0 < x -> continuity_pt (fun v => cpow v a) x.
Proof.
  intro H. apply (cp_ext_loc (fun v => Rpower v a) _ x x H).
  - intros y D. symmetry. apply cpow_pos. apply Rabs_def2 in D. lra.
  - apply derivable_continuous_pt. exists (a * Rpower x (a - 1)). now apply derivable_pt_lim_power.
Qed.
(** gluing two functions at a point *)
Lemma cp_glue f g h c x :
  (x <= c -> continuity_pt f x) -> (c <= x -> continuity_pt g x) -> f c = g c ->
  (forall y, y < c -> h y = f y) -> (forall y, c <= y -> h y = g y) -> continuity_pt h x.
Proof.
  intros F G E Hf Hg. destruct (Rtotal_order x c) as [L|[->|L]].
  - apply (cp_ext_loc f h x (c - x)); [lra| |apply F; lra]. intros y D. symmetry. apply Hf. apply Rabs_def2 in D. lra.
  - intros eps He. destruct (F ltac:(lra) eps He) as (a & Ha & Fa). destruct (G ltac:(lra) eps He) as (b & Hb & Gb).
    exists (Rmin a b). split; [now apply Rmin_pos|]. intros y (Hy & Hd). cbn in *. unfold Rfunctions.R_dist in *.
    pose proof (Rmin_l a b). pose proof (Rmin_r a b). rewrite (Hg c) by lra.
    destruct (Rlt_le_dec y c) as [L|L].
    + rewrite (Hf y L), <- E. apply Fa. split; [exact Hy|lra].
    + rewrite (Hg y L). apply Gb. split; [exact Hy|lra].
  - apply (cp_ext_loc g h x (x - c)); [lra| |apply G; lra]. intros y D. symmetry. apply Hg. apply Rabs_def2 in D. lra.
Qed.

(** ** signs of the ingredients *)
Section K.
  Variables (alpha cs : R).
  Hypothesis Ha : 0 < alpha.
  Hypothesis Hcs : 0 < cs.
  Hypothesis Hord : cs < xiJ alpha.

  Lemma sqrt_a : 0 < sqrt alpha /\ sqrt alpha * sqrt alpha = alpha.
  Proof. split; [now apply sqrt_lt_R0|apply sqrt_sqrt; lra]. Qed.
  Lemma kA_den : 0 < 1.36 - 0.037 * sqrt alpha + alpha.
  Proof. destruct sqrt_a. nra. Qed.
  Lemma kA_pos v : 0 < v -> 0 < kappaA alpha v.
  Proof.
    intro H. unfold kappaA. apply Rdiv_lt_0_compat; [|exact kA_den].
    apply Rmult_lt_0_compat; [|exact Ha]. apply Rmult_lt_0_compat; [now apply cpow_gt0|lra].
  Qed.
  Lemma kB_pos : 0 < kappaB alpha.
  Proof.
    unfold kappaB. apply Rdiv_lt_0_compat; [now apply cpow_gt0|].
    assert (0 < cpow (0.997 + alpha) (2 / 5)) by (apply cpow_gt0; lra). lra.
  Qed.
  Lemma kC_pos : 0 < kappaC alpha.
  Proof.
    unfold kappaC. apply Rdiv_lt_0_compat; [now apply sqrt_lt_R0|]. pose proof (sqrt_pos (0.98 + alpha)). lra.
  Qed.
  Lemma kD_pos : 0 < kappaD alpha.
  Proof. unfold kappaD. apply Rdiv_lt_0_compat; [exact Ha|]. destruct sqrt_a. nra. Qed.
  Lemma sqrt13 : sqrt (1 / 3) < 2 / 3.
  Proof. rewrite <- (sqrt_pow2 (2 / 3)) by lra. apply sqrt_lt_1; lra. Qed.
  Lemma xiJ_lt1 : xiJ alpha < 1.
  Proof.
    unfold xiJ. pose proof sqrt13. pose proof (sqrt_cj_bounds alpha ltac:(lra)) as B.
    replace (alpha ^ 2 + 2 / 3 * alpha) with (2 / 3 * alpha + alpha * alpha) in B by ring.
    set (s := sqrt (2 / 3 * alpha + alpha * alpha)) in *. set (t := sqrt (1 / 3)) in *.
    apply Rmult_lt_reg_r with (1 + alpha); [lra|]. replace ((s + t) / (1 + alpha) * (1 + alpha)) with (s + t) by (field; lra). lra.
  Qed.
  Lemma xi_pos : 0 < xiJ alpha. Proof. lra. Qed.

  Definition defl (v : R) : R :=
    cpow cs (11 / 5) * kappaA alpha v * kappaB alpha
    / ((cpow cs (11 / 5) - cpow v (11 / 5)) * kappaB alpha + v * cpow cs (6 / 5) * kappaA alpha v).
  Definition hybr (v : R) : R :=
    kappaB alpha + (v - cs) * deltaK alpha
    + (v - cs) ^ 3 / (xiJ alpha - cs) ^ 3 * (kappaC alpha - kappaB alpha - (xiJ alpha - cs) * deltaK alpha).
  Definition deto (v : R) : R :=
    (xiJ alpha - 1) ^ 3 * cpow (xiJ alpha) (5 / 2) * cpow v (- (5 / 2)) * kappaC alpha * kappaD alpha
    / (((xiJ alpha - 1) ^ 3 - (v - 1) ^ 3) * cpow (xiJ alpha) (5 / 2) * kappaC alpha + (v - 1) ^ 3 * kappaD alpha).

  Lemma kappa_regimes v : Getkappa_sw alpha v cs =
    if Rlt_dec v cs then defl v else if Rlt_dec (xiJ alpha) v then deto v else hybr v.
  Proof. reflexivity. Qed.

  Lemma cpow_mono x y a : 0 < x -> x <= y -> 0 <= a -> cpow x a <= cpow y a.
  Proof. intros. rewrite !cpow_pos by lra. now apply Rpower_base_le. Qed.
  Lemma defl_den v : 0 < v <= cs ->
    0 < (cpow cs (11 / 5) - cpow v (11 / 5)) * kappaB alpha + v * cpow cs (6 / 5) * kappaA alpha v.
  Proof.
    intros [V L]. pose proof kB_pos. pose proof (kA_pos v V). pose proof (cpow_gt0 cs (6 / 5) Hcs).
    pose proof (cpow_mono v cs (11 / 5) V L ltac:(lra)).
    assert (0 < v * cpow cs (6 / 5) * kappaA alpha v) by (apply Rmult_lt_0_compat; [apply Rmult_lt_0_compat|]; assumption).
    assert (0 <= (cpow cs (11 / 5) - cpow v (11 / 5)) * kappaB alpha) by (apply Rmult_le_pos; lra). lra.
  Qed.
  Lemma cube_mono a b : a <= b -> a ^ 3 <= b ^ 3.
  Proof.
    intro H. assert (0 <= a * a + a * b + b * b) by nra.
    assert (0 <= (b - a) * (a * a + a * b + b * b)) by (apply Rmult_le_pos; lra). lra.
  Qed.
  Lemma cube_neg a : a < 0 -> a ^ 3 < 0.
  Proof. intro H. assert (0 < a * a) by nra. replace (a ^ 3) with (a * (a * a)) by ring. nra. Qed.
  Lemma deto_den v : xiJ alpha <= v <= 1 ->
    ((xiJ alpha - 1) ^ 3 - (v - 1) ^ 3) * cpow (xiJ alpha) (5 / 2) * kappaC alpha + (v - 1) ^ 3 * kappaD alpha < 0.
  Proof.
    intros [V L]. pose proof xiJ_lt1. pose proof kC_pos. pose proof kD_pos. pose proof (cpow_gt0 _ (5 / 2) xi_pos).
    pose proof (cube_mono (xiJ alpha - 1) (v - 1) ltac:(lra)).
    assert (P : 0 < cpow (xiJ alpha) (5 / 2) * kappaC alpha) by now apply Rmult_lt_0_compat.
    rewrite Rmult_assoc. set (w := cpow (xiJ alpha) (5 / 2) * kappaC alpha) in *.
    destruct (Req_dec v 1) as [->|N].
    - replace ((1 - 1) ^ 3) with 0 by ring. pose proof (cube_neg (xiJ alpha - 1) ltac:(lra)). nra.
    - pose proof (cube_neg (v - 1) ltac:(lra)). nra.
  Qed.

  Lemma defl_cs : defl cs = kappaB alpha.
  Proof.
    unfold defl. pose proof (kA_pos cs Hcs). pose proof (cpow_gt0 cs (6 / 5) Hcs).
    assert (E : cpow cs (11 / 5) = cs * cpow cs (6 / 5)).
    { rewrite !cpow_pos by exact Hcs. replace (11 / 5) with (1 + 6 / 5) by lra. rewrite Rpower_plus, Rpower_1 by exact Hcs. ring. }
    rewrite E. set (c := cpow cs (6 / 5)) in *. set (k := kappaA alpha cs) in *.
    replace ((cs * c - cs * c) * kappaB alpha + cs * c * k) with (cs * c * k) by ring. field. lra.
  Qed.
  Lemma hybr_cs : hybr cs = kappaB alpha.
  Proof. unfold hybr. field. lra. Qed.
  Lemma hybr_xi : hybr (xiJ alpha) = kappaC alpha.
  Proof. unfold hybr. field. lra. Qed.
  Lemma deto_xi : deto (xiJ alpha) = kappaC alpha.
  Proof.
    unfold deto. pose proof kC_pos. pose proof kD_pos. pose proof xiJ_lt1. pose proof xi_pos as X.
    replace ((xiJ alpha - 1) ^ 3 * cpow (xiJ alpha) (5 / 2) * cpow (xiJ alpha) (- (5 / 2)))
      with ((xiJ alpha - 1) ^ 3).
    - set (z := xiJ alpha) in *. set (w := cpow z (5 / 2)). set (q := (z - 1) ^ 3).
      assert (q < 0) by (apply cube_neg; lra).
      replace ((q - q) * w * kappaC alpha + q * kappaD alpha) with (q * kappaD alpha) by ring. field. lra.
    - rewrite !cpow_pos by exact X. rewrite Rmult_assoc, <- Rpower_plus.
      replace (5 / 2 + - (5 / 2)) with 0 by lra. rewrite Rpower_O by exact X. ring.
  Qed.

  Ltac cont := repeat (cbv beta; match goal with
    | |- continuity_pt (fun _ => ?c) _ => apply cp_const
    | |- continuity_pt (fun v => v) _ => apply cp_id
    | |- continuity_pt (fun v => cpow v _) _ => apply cp_cpow; lra
    | |- continuity_pt (fun v => @?f v / @?g v) _ => apply (cp_div f g)
    | |- continuity_pt (fun v => @?f v + @?g v) _ => apply (cp_plus f g)
    | |- continuity_pt (fun v => @?f v - @?g v) _ => apply (cp_minus f g)
    | |- continuity_pt (fun v => @?f v * @?g v) _ => apply (cp_mult f g)
    | |- continuity_pt (fun v => @?f v ^ ?n) _ => apply (cp_pow f n)
    end).

  Lemma defl_cont v : 0 < v <= cs -> continuity_pt defl v.
  Proof.
    intro V. unfold defl, kappaA. pose proof kA_den. pose proof (defl_den v V) as D. unfold kappaA in D. cont; cbv beta; lra.
  Qed.
  Lemma hybr_cont v : continuity_pt hybr v.
  Proof. unfold hybr. assert ((xiJ alpha - cs) ^ 3 <> 0) by (apply pow_nonzero; lra). cont; assumption. Qed.
  Lemma deto_cont v : xiJ alpha <= v <= 1 -> continuity_pt deto v.
  Proof. intro V. unfold deto. pose proof (deto_den v V) as D. pose proof xi_pos. cont; cbv beta; lra. Qed.

  Lemma kappa_cont v : 0 < v < 1 -> continuity_pt (fun v => Getkappa_sw alpha v cs) v.
  Proof.
    intros V. set (up := fun v => if Rlt_dec (xiJ alpha) v then deto v else hybr v).
    assert (UP : continuity_pt up v).
    { apply (cp_glue hybr deto up (xiJ alpha) v).
      - intros _. apply hybr_cont.
      - intro. apply deto_cont. lra.
      - rewrite hybr_xi, deto_xi. reflexivity.
      - intros y L. unfold up. destruct (Rlt_dec _ _); [lra|reflexivity].
      - intros y L. unfold up. destruct (Rlt_dec (xiJ alpha) y) as [|N]; [reflexivity|].
        assert (y = xiJ alpha) by lra. subst y. rewrite hybr_xi, deto_xi. reflexivity. }
    apply (cp_glue defl up _ cs v).
    - intro. apply defl_cont. lra.
    - intros _. exact UP.
    - unfold up. destruct (Rlt_dec _ _); [lra|]. rewrite defl_cs, hybr_cs. reflexivity.
    - intros y L. rewrite kappa_regimes. destruct (Rlt_dec y cs); [reflexivity|lra].
    - intros y L. rewrite kappa_regimes. destruct (Rlt_dec y cs); [lra|reflexivity].
  Qed.
  (** each one-sided formula meets the hybrid one at the regime boundary *)
  Lemma kappa_values : Getkappa_sw alpha cs cs = kappaB alpha /\ Getkappa_sw alpha (xiJ alpha) cs = kappaC alpha.
  Proof.
    split; rewrite kappa_regimes; repeat (destruct (Rlt_dec _ _); try lra); [apply hybr_cs|apply hybr_xi].
  Qed.
  Lemma defl_pos v : 0 < v < cs -> 0 < Getkappa_sw alpha v cs.
  Proof.
    intros [V L]. rewrite kappa_regimes. destruct (Rlt_dec v cs); [|lra]. unfold defl.
    apply Rdiv_lt_0_compat; [|apply defl_den; lra].
    apply Rmult_lt_0_compat; [apply Rmult_lt_0_compat|]; [now apply cpow_gt0|now apply kA_pos|exact kB_pos].
  Qed.
End K.

Lemma neg_div a b : a < 0 -> b < 0 -> 0 < a / b.
Proof. intros. replace (a / b) with ((- a) / (- b)) by (field; lra). apply Rdiv_lt_0_compat; lra. Qed.
Lemma deto_pos alpha cs v : 0 < alpha -> 0 < cs -> cs < xiJ alpha -> xiJ alpha < v <= 1 -> 0 < Getkappa_sw alpha v cs.
Proof.
  intros Ha Hcs Hord [V L]. rewrite kappa_regimes. destruct (Rlt_dec v cs); [lra|]. destruct (Rlt_dec _ _); [|lra]. unfold deto.
  pose proof (deto_den alpha cs Ha Hcs Hord v ltac:(lra)) as D. pose proof (xiJ_lt1 alpha Ha).
  assert (N : (xiJ alpha - 1) ^ 3 * cpow (xiJ alpha) (5 / 2) * cpow v (- (5 / 2)) * kappaC alpha * kappaD alpha < 0).
  { pose proof (cube_neg (xiJ alpha - 1) ltac:(lra)). pose proof (cpow_gt0 (xiJ alpha) (5 / 2) ltac:(lra)).
    pose proof (cpow_gt0 v (- (5 / 2)) ltac:(lra)). pose proof (kC_pos alpha Ha). pose proof (kD_pos alpha Ha).
    assert (P : 0 < cpow (xiJ alpha) (5 / 2) * cpow v (- (5 / 2)) * kappaC alpha * kappaD alpha).
    { apply Rmult_lt_0_compat; [apply Rmult_lt_0_compat; [apply Rmult_lt_0_compat|]|]; assumption. }
    rewrite !Rmult_assoc in *. set (w := cpow (xiJ alpha) (5 / 2) * _) in *. nra. }
  apply neg_div; assumption.
Qed.

Lemma xiJ_gt_sound alpha : 0 < alpha -> sqrt (1 / 3) < xiJ alpha.
Proof.
  intro H. unfold xiJ. set (t := sqrt (1 / 3)). assert (T : 0 <= t < 1).
  { split; [apply sqrt_pos|]. pose proof sqrt13. unfold t. lra. }
  assert (S : alpha <= sqrt (2 / 3 * alpha + alpha * alpha)).
  { rewrite <- (sqrt_pow2 alpha) at 1 by lra. apply sqrt_le_1; nra. }
  set (s := sqrt (2 / 3 * alpha + alpha * alpha)) in *.
  apply Rmult_lt_reg_r with (1 + alpha); [lra|]. replace ((s + t) / (1 + alpha) * (1 + alpha)) with (s + t) by (field; lra). nra.
Qed.
Lemma sqrt13_low : 0.57735026918962576 <= sqrt (1 / 3).
Proof. rewrite <- (sqrt_pow2 0.57735026918962576) by lra. apply sqrt_le_1; lra. Qed.
Lemma Csound_lt_xiJ alpha : 1e-20 <= alpha -> Csound < xiJ alpha.
Proof.
  intro H. unfold xiJ. pose proof sqrt13_low as T. set (t := sqrt (1 / 3)) in *.
  assert (S : 4e-17 + Csound * alpha < sqrt (2 / 3 * alpha + alpha * alpha)).
  { rewrite <- (sqrt_pow2 (4e-17 + Csound * alpha)) by (unfold Csound; lra). unfold Csound. apply sqrt_lt_1; nra. }
  set (s := sqrt (2 / 3 * alpha + alpha * alpha)) in *.
  apply Rmult_lt_reg_r with (1 + alpha); [lra|]. replace ((s + t) / (1 + alpha) * (1 + alpha)) with (s + t) by (field; lra).
  unfold Csound in *. lra.
Qed.
