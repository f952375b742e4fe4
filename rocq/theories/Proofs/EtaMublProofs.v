(** Proofs about the baryon asymmetry. *)
From Coq Require Import Reals List Lra Lia.
From Coquelicot Require Import Coquelicot.
From Verif Require Import Model.EtaMubl Spec.EtaMublSpec.
Import ListNotations.
Open Scope R_scope.

Section Run.
  Variables vw T zmax : R.
  Hypothesis Pv : 0 < vw.
  Hypothesis PT : 0 < T.
  Hypothesis Pz : 0 <= zmax.
  Notation n := (nu vw T).
  Notation pre := (prefac vw T).
  Lemma nu_spec : n = 45 * sphaleron T / (4 * vw).
  Proof. unfold nu, GWS, sphaleron. field. lra. Qed.
  Lemma pre_spec : pre = 405 * sphaleron T / (4 * PI ^ 2 * vw * (10675 / 100) * T).
  Proof. unfold prefac, GWS, sphaleron, gstar. pose proof PI_RGT_0. field. repeat split; lra. Qed.
  Lemma nu_pos : 0 < n.
  Proof. unfold nu, GWS. apply Rdiv_lt_0_compat; [|lra]. apply Rmult_lt_0_compat; [lra|]. apply Rmult_lt_0_compat; lra. Qed.
  Lemma pre_pos : 0 < pre.
  Proof.
    unfold prefac, GWS, gstar. generalize PI_RGT_0. generalize PI. intros q Hq. apply Rdiv_lt_0_compat; [apply Rmult_lt_0_compat; [lra|apply Rmult_lt_0_compat; [lra|exact PT]]|].
    repeat apply Rmult_lt_0_compat; try lra; apply Rinv_0_lt_compat; lra.
  Qed.
  Lemma range_z z : Rmin 0 zmax <= z <= Rmax 0 zmax -> 0 <= z <= zmax.
  Proof. rewrite Rmin_left, Rmax_right by exact Pz. tauto. Qed.
  Lemma damped_cont f : continuous_on f zmax -> forall z, 0 <= z <= zmax -> continuous (fun z => f z * exp (- n * z)) z.
  Proof.
    intros C z Z. apply (continuous_mult f (fun z => exp (- n * z))); [apply C; exact Z|]. apply (ex_derive_continuous (fun z => exp (- n * z))). auto_derive. trivial.
  Qed.
  Lemma damped_int f : continuous_on f zmax -> ex_RInt (fun z => f z * exp (- n * z)) 0 zmax.
  Proof. intros C. apply (ex_RInt_continuous (V := R_CompleteNormedModule)). intros z Z. apply damped_cont; [exact C|apply range_z; exact Z]. Qed.
  Lemma washed mubl e : continuous_on mubl zmax -> baryons mubl vw T zmax e -> RInt (fun z => mubl z * exp (- n * z)) 0 zmax * pre = e 0.
  Proof.
    intros C [E0 E]. rewrite <- nu_spec, <- pre_spec in E.
    assert (D : forall z, 0 <= z <= zmax -> is_derive (fun z => e z * exp (- n * z)) z (- pre * (mubl z * exp (- n * z)))).
    { intros z Z. evar_last; [apply (is_derive_mult e (fun z => exp (- n * z)) z); [exact (E z Z)|auto_derive; [trivial|reflexivity]|intros; apply Rmult_comm]|].
      change (@eq R ((n * e z - pre * mubl z) * exp (- n * z) + e z * (- n * 1 * exp (- n * z))) (- pre * (mubl z * exp (- n * z)))). ring. }
    assert (I : is_RInt (fun z => - pre * (mubl z * exp (- n * z))) 0 zmax (minus (e zmax * exp (- n * zmax)) (e 0 * exp (- n * 0)))).
    { apply (is_RInt_derive (fun z => e z * exp (- n * z))).
      - intros z Z. apply D. apply range_z. exact Z.
      - intros z Z. apply (continuous_scal_r (- pre) (fun z => mubl z * exp (- n * z))). apply damped_cont; [exact C|apply range_z; exact Z]. }
    assert (I2 := is_RInt_scal (V := R_NormedModule) _ _ _ (- pre) _ (RInt_correct (V := R_CompleteNormedModule) _ _ _ (damped_int mubl C))).
    apply (is_RInt_unique (V := R_CompleteNormedModule)) in I. apply (is_RInt_unique (V := R_CompleteNormedModule)) in I2.
    assert (I3 : scal (- pre) (RInt (fun z => mubl z * exp (- n * z)) 0 zmax) = minus (e zmax * exp (- n * zmax)) (e 0 * exp (- n * 0))) by exact (eq_trans (eq_sym I2) I).
    clear I I2. rename I3 into I.
    rewrite E0 in I. replace (- n * 0) with 0 in I by ring. rewrite exp_0 in I.
    change (- pre * RInt (fun z => mubl z * exp (- n * z)) 0 zmax = 0 * exp (- n * zmax) + - (e 0 * 1)) in I. lra.
  Qed.
  Lemma close f g eps : continuous_on f zmax -> continuous_on g zmax -> (forall z, 0 <= z <= zmax -> Rabs (f z - g z) <= eps) ->
    Rabs (RInt (fun z => f z * exp (- n * z)) 0 zmax * pre - RInt (fun z => g z * exp (- n * z)) 0 zmax * pre) <= pre * eps * zmax.
  Proof.
    intros Cf Cg B. assert (If := damped_int f Cf). assert (Ig := damped_int g Cg). rewrite <- Rmult_minus_distr_r, Rabs_mult.
    assert (M : RInt (fun z => minus (f z * exp (- n * z)) (g z * exp (- n * z))) 0 zmax = RInt (fun z => f z * exp (- n * z)) 0 zmax - RInt (fun z => g z * exp (- n * z)) 0 zmax) by (rewrite (RInt_minus (V := R_CompleteNormedModule)) by assumption; reflexivity).
    rewrite <- M.
    assert (L : Rabs (RInt (fun z => minus (f z * exp (- n * z)) (g z * exp (- n * z))) 0 zmax) <= (zmax - 0) * eps).
    { apply abs_RInt_le_const; [exact Pz|apply @ex_RInt_minus; assumption|]. intros z Z. change (Rabs (f z * exp (- n * z) - g z * exp (- n * z)) <= eps).
      rewrite <- Rmult_minus_distr_r, Rabs_mult. rewrite (Rabs_right (exp _)) by (left; apply exp_pos).
      assert (exp (- n * z) <= 1). { rewrite <- exp_0. assert (- n * z <= 0) by (pose proof nu_pos; nra). destruct H as [H|H]; [left; apply exp_increasing; exact H|right; rewrite H; reflexivity]. }
      assert (Q := B z Z). pose proof (Rabs_pos (f z - g z)). pose proof (exp_pos (- n * z)). nra. }
    rewrite (Rabs_right pre) by (left; exact pre_pos). pose proof pre_pos. nra.
  Qed.
  Section Spline.
    Variable boost : list R -> R -> R -> R -> R.
    Variable mubl : R -> R.
    Notation spline := (generate_mubl_spline boost mubl zmax 100).
    Lemma interpolated_close e eps : continuous_on mubl zmax -> continuous_on spline zmax -> (forall z, 0 <= z <= zmax -> Rabs (spline z - mubl z) <= eps) ->
      baryons mubl vw T zmax e -> Rabs (Integrate_mubl_interpolated boost mubl vw T zmax - e 0) <= 405 * sphaleron T / (4 * PI ^ 2 * vw * (10675 / 100) * T) * eps * zmax.
    Proof.
      intros C1 C2 B E. rewrite <- (washed mubl e C1 E), <- pre_spec. exact (close spline mubl eps C2 C1 B).
    Qed.
    Lemma direct e : continuous_on mubl zmax -> baryons mubl vw T zmax e ->
      Integrate_mubl mubl vw T zmax * (405 * sphaleron T / (4 * PI ^ 2 * vw * (10675 / 100) * T)) = e 0.
    Proof. intros C E. rewrite <- pre_spec. exact (washed mubl e C E). Qed.
  End Spline.
End Run.
Lemma knots mubl zmax k : (0 < k)%nat -> length (ydata mubl zmax k) = S k /\ INR k * stepsize zmax k = zmax /\
  forall i, (i <= k)%nat -> nth i (ydata mubl zmax k) 0 = mubl (0 + INR i * stepsize zmax k).
Proof.
  intros K. assert (0 < INR k) by (apply lt_0_INR; exact K). split; [unfold ydata; rewrite map_length, seq_length; reflexivity|]. split; [unfold stepsize; field; lra|].
  intros i I. unfold ydata. rewrite (nth_indep _ 0 (mubl (INR 0 * stepsize zmax k))) by (rewrite map_length, seq_length; lia).
  rewrite (map_nth (fun i => mubl (INR i * stepsize zmax k))). rewrite seq_nth by lia. rewrite Rplus_0_l. reflexivity.
Qed.
(** a solution for vanishing temperature dependence of the wall: constant chemical potential *)
Lemma constant_baryons vw T zmax mu : 0 < vw -> 0 < T -> baryons (fun _ => mu) vw T zmax
  (fun z => 405 * sphaleron T / (4 * PI ^ 2 * vw * (10675 / 100) * T) * mu / (45 * sphaleron T / (4 * vw)) * (1 - exp (45 * sphaleron T / (4 * vw) * (z - zmax)))).
Proof.
  intros Pv PT. unfold baryons. set (p := 405 * sphaleron T / (4 * PI ^ 2 * vw * (10675 / 100) * T)). assert (N : 45 * sphaleron T / (4 * vw) <> 0).
  { unfold sphaleron. apply Rgt_not_eq. apply Rdiv_lt_0_compat; [|lra]. apply Rmult_lt_0_compat; [lra|]. apply Rdiv_lt_0_compat; lra. }
  revert N. generalize (45 * sphaleron T / (4 * vw)). intros m N. split.
  - replace (m * (zmax - zmax)) with 0 by ring. rewrite exp_0. ring.
  - intros z _. auto_derive; [trivial|]. change (z - zmax) with (z + - zmax). generalize (exp (m * (z + - zmax))). intros w. field. exact N.
Qed.
