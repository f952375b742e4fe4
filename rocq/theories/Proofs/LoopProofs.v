(** Proofs about the one-loop mass functions. *)
From Coq Require Import Reals Lra Lia ZArith Bool.
From Verif.Model Require Import Base Loop.
From Verif.Spec Require Import LoopSpec.
From Verif.Proofs Require Import DerivLib ThermalProofs.
Open Scope R_scope.

(** ** C57 *)
Lemma border_small : / 10 ^ 200 < CW_threshold.
Proof.
  unfold CW_threshold. apply Rle_lt_trans with (/ 10 ^ 5).
  - apply Rinv_le_contravar; [apply pow_lt; lra|]. apply Rle_pow; [lra|lia].
  - assert (E : 10 ^ 5 = 100000) by ring. rewrite E. lra.
Qed.
Lemma FCW_ln scale m : CW_threshold <= Rabs m -> FCW scale m = ln (Rabs m) - 2 * ln scale.
Proof.
  intro H. unfold FCW. destruct (Rlt_dec (Rabs m) (/ 10 ^ 200)) as [L|L]; [|reflexivity].
  pose proof border_small. lra.
Qed.
Lemma CWTerm0 scale m cb : CW_threshold <= Rabs m ->
  CWTerm scale m cb 0 = 1 / (64 * PI * PI) * m * m * (ln (Rabs m) - 2 * ln scale - cb).
Proof.
  intro H. unfold CWTerm. destruct (Rlt_dec (Rabs m) CW_threshold); [lra|]. cbn [Z.eqb]. now rewrite FCW_ln.
Qed.
Lemma CWTerm1 scale m cb : CW_threshold <= Rabs m ->
  CWTerm scale m cb 1 = 1 / (32 * PI * PI) * m * (ln (Rabs m) - 2 * ln scale - cb + 1 / 2).
Proof.
  intro H. unfold CWTerm. destruct (Rlt_dec (Rabs m) CW_threshold); [lra|]. cbn [Z.eqb Z.ltb Z.compare]. now rewrite FCW_ln.
Qed.
Lemma near_abs t m y : Rabs (y - m) < Rabs m - t -> t < Rabs y.
Proof. intro H. pose proof (Rabs_triang_inv m (m - y)). replace (m - (m - y)) with y in H0 by ring. rewrite (Rabs_minus_sym m y) in H0. pose proof (Rabs_triang (m - y) y) as K. replace (m - y + y) with m in K by ring. rewrite (Rabs_minus_sym m y) in K. lra. Qed.
Lemma CW_derivative scale m cb : CW_threshold < Rabs m ->
  dl (fun y => CWTerm scale y cb 0) m (CWTerm scale m cb 1).
Proof.
  intro H. assert (PP := PI_RGT_0). assert (T0 : 0 < CW_threshold) by (unfold CW_threshold; lra).
  rewrite CWTerm1 by lra.
  destruct (Rcase_abs m) as [N|P].
  - eapply dl_ext_loc with (eps0 := Rabs m - CW_threshold) (f := fun y => 1 / (64 * PI * PI) * y * y * (ln (- y) - 2 * ln scale - cb)); [lra| |].
    + intros y Hy. pose proof (near_abs _ _ _ Hy). rewrite CWTerm0 by lra.
      assert (y < 0). { rewrite (Rabs_left m) in Hy by lra. unfold Rabs in Hy, H0. destruct (Rcase_abs (y - m)), (Rcase_abs y); lra. }
      now rewrite (Rabs_left y).
    + eapply dl_eq; [dlauto; lra|]. rewrite (Rabs_left m) by lra. field. lra.
  - rewrite (Rabs_right m) in H by lra.
    eapply dl_ext_loc with (eps0 := Rabs m - CW_threshold) (f := fun y => 1 / (64 * PI * PI) * y * y * (ln y - 2 * ln scale - cb)); [rewrite Rabs_right; lra| |].
    + intros y Hy. pose proof (near_abs _ _ _ Hy). rewrite CWTerm0 by lra.
      assert (0 < y). { rewrite (Rabs_right m) in Hy by lra. unfold Rabs in Hy, H0. destruct (Rcase_abs (y - m)), (Rcase_abs y); lra. }
      now rewrite (Rabs_right y) by lra.
    + eapply dl_eq; [dlauto; lra|]. rewrite (Rabs_right m) by lra. field. lra.
Qed.

(** below the cut-off both vanish, and the derivative is right there *)
Lemma CW_derivative_small scale m cb : Rabs m < CW_threshold ->
  dl (fun y => CWTerm scale y cb 0) m (CWTerm scale m cb 1).
Proof.
  intro H. unfold CWTerm at 2. destruct (Rlt_dec (Rabs m) CW_threshold); [|lra].
  eapply dl_ext_loc with (eps0 := CW_threshold - Rabs m) (f := fun _ => 0); [lra| |apply dl_const].
  intros y Hy. unfold CWTerm. destruct (Rlt_dec (Rabs y) CW_threshold) as [L|L]; [reflexivity|].
  pose proof (Rabs_triang (y - m) m) as K. replace (y - m + m) with y in K by ring. lra.
Qed.
Lemma CWTerm0_even scale m cb : CWTerm scale (Rabs m) cb 0 = CWTerm scale m cb 0.
Proof.
  unfold CWTerm, FCW. rewrite Rabs_Rabsolu. destruct (Rlt_dec (Rabs m) CW_threshold); [reflexivity|].
  cbn [Z.eqb]. replace (Rabs m * Rabs m) with (m * m); [|destruct (Rcase_abs m); [rewrite Rabs_left|rewrite Rabs_right]; lra || ring].
  rewrite !Rmult_assoc. f_equal. rewrite <- !Rmult_assoc.
  replace (Rabs m * Rabs m) with (m * m); [reflexivity|]. unfold Rabs. destruct (Rcase_abs m); ring.
Qed.

Section Boson.
  Variables (scale cb : R) (JI : R -> R) (JN : R -> Z -> R).
  Notation bos := (boson scale JI JN).
  Lemma boson0_val m T : bos m T cb 0 = CWTerm scale m cb 0 + (if Req_EM_T T 0 then 0 else T ^ 4 / (2 * PI ^ 2) * JI (m / T ^ 2)).
  Proof. unfold boson. cbn [Z.leb Z.compare Z.eqb]. rewrite CWTerm0_even. destruct (Req_EM_T T 0); [ring|reflexivity]. Qed.
  Lemma boson1_val m T : bos m T cb 1 = CWTerm scale (Rabs m) cb 1 + (if Req_EM_T T 0 then 0 else T ^ 2 / (2 * PI ^ 2) * JN (m / T ^ 2) 1).
  Proof. unfold boson. cbn [Z.leb Z.compare Z.eqb Pos.eqb]. destruct (Req_EM_T T 0); [ring|reflexivity]. Qed.
  Lemma boson_thermal_derivative m T : T <> 0 -> dl JI (m / T ^ 2) (JN (m / T ^ 2) 1) ->
    dl (fun y => T ^ 4 / (2 * PI ^ 2) * JI (y / T ^ 2)) m (T ^ 2 / (2 * PI ^ 2) * JN (m / T ^ 2) 1).
  Proof.
    intros NZ D. assert (PP := PI_RGT_0). assert (T ^ 2 <> 0) by (apply pow_nonzero; exact NZ).
    eapply dl_eq.
    - apply (dl_mult (fun _ => T ^ 4 / (2 * PI ^ 2)) (fun y => JI (y / T ^ 2)) m 0); [apply dl_const|].
      apply (dl_comp (fun y => y / T ^ 2) JI m (/ T ^ 2)); [|exact D].
      eapply dl_ext with (f := fun y => y * / T ^ 2); [reflexivity|]. eapply dl_eq; [apply dl_mult; [apply dl_id|apply dl_const]|]. cbv beta. ring.
    - cbv beta. field. split; [lra|exact NZ].
  Qed.
  (** derivative with respect to the mass *)
  Lemma boson_mass_derivative m T : 0 <= m -> m <> CW_threshold ->
    (T <> 0 -> dl JI (m / T ^ 2) (JN (m / T ^ 2) 1)) ->
    dl (fun y => bos y T cb 0) m (bos m T cb 1).
  Proof.
    intros P NE D. eapply dl_ext; [intro y; symmetry; apply boson0_val|]. rewrite boson1_val. rewrite (Rabs_right m) by lra.
    assert (C : dl (fun y => CWTerm scale y cb 0) m (CWTerm scale m cb 1)).
    { destruct (Rlt_dec m CW_threshold); [apply CW_derivative_small|apply CW_derivative]; rewrite Rabs_right; lra. }
    apply dl_plus; [exact C|].
    destruct (Req_EM_T T 0) as [Z|NZ]; [apply dl_const|]. now apply boson_thermal_derivative, D.
  Qed.
  (** for a negative squared mass the zero-temperature part of the reported derivative has the wrong sign *)
  Lemma boson_mass_derivative_neg m T : m < - CW_threshold ->
    (T <> 0 -> dl JI (m / T ^ 2) (JN (m / T ^ 2) 1)) ->
    dl (fun y => bos y T cb 0) m (bos m T cb 1 + 2 * CWTerm scale m cb 1).
  Proof.
    intros N D. eapply dl_ext; [intro y; symmetry; apply boson0_val|]. rewrite boson1_val.
    assert (T0 : 0 < CW_threshold) by (unfold CW_threshold; lra).
    assert (O : CWTerm scale (Rabs m) cb 1 = - CWTerm scale m cb 1).
    { rewrite !CWTerm1; rewrite ?Rabs_Rabsolu; rewrite ?(Rabs_left m); try lra. }
    rewrite O.
    assert (C : dl (fun y => CWTerm scale y cb 0) m (CWTerm scale m cb 1)) by (apply CW_derivative; rewrite Rabs_left; lra).
    eapply dl_eq with (d := CWTerm scale m cb 1 + (if Req_EM_T T 0 then 0 else T ^ 2 / (2 * PI ^ 2) * JN (m / T ^ 2) 1)); [|ring].
    apply dl_plus; [exact C|].
    destruct (Req_EM_T T 0) as [Z|NZ]; [apply dl_const|]. now apply boson_thermal_derivative, D.
  Qed.
  (** derivative with respect to the temperature: only the thermal part depends on it *)
  Lemma boson_T_derivative m T : T <> 0 -> (forall x, JI x = JN x 0) -> dl JI (m / T ^ 2) (JN (m / T ^ 2) 1) ->
    dl (fun t => bos m t cb 0) T (bos m T cb (-1)).
  Proof.
    intros NZ E D. assert (PP := PI_RGT_0).
    assert (HT : 0 < Rabs T) by (now apply Rabs_pos_lt).
    eapply dl_ext_loc with (eps0 := Rabs T) (f := fun t => CWTerm scale m cb 0 + t ^ 4 / (2 * PI ^ 2) * JI (m / t ^ 2)); [exact HT| |].
    - intros t Ht. rewrite boson0_val. destruct (Req_EM_T t 0) as [Z|_]; [|reflexivity].
      subst t. rewrite Rminus_0_l, Rabs_Ropp in Ht. lra.
    - assert (T ^ 2 <> 0) by (apply pow_nonzero; exact NZ).
      eapply dl_eq.
      + apply dl_plus; [apply dl_const|].
        apply (dl_mult (fun t => t ^ 4 / (2 * PI ^ 2)) (fun t => JI (m / t ^ 2)) T (4 * T ^ 3 / (2 * PI ^ 2))).
        * eapply dl_eq; [dlauto|].
          -- apply Rmult_integral_contrapositive. split; [lra|]. apply pow_nonzero. lra.
          -- cbn [pred INR]. cbv beta. field. lra.
        * apply (dl_comp (fun t => m / t ^ 2) JI T (-2 * m / T ^ 3)); [|exact D].
          eapply dl_eq; [dlauto; exact H|]. cbn [pred INR]. field. exact NZ.
      + cbv beta. unfold boson. cbn [Z.leb Z.compare Z.eqb Pos.eqb].
        destruct (Req_EM_T T 0); [contradiction|]. rewrite E. field. split; [|exact NZ]. lra.
  Qed.
End Boson.

(** ** C58 *)
Lemma tends_limit f x l : tends_to f x l <-> limit1_in f (fun y => y <> x) l x.
Proof.
  unfold tends_to, limit1_in, limit_in. simpl. unfold R_dist. split; intros H eps He; destruct (H eps He) as (d & P & Q); exists d; split; [exact P| |exact P|].
  - intros y [A B]. now apply Q.
  - intros y A B. apply Q. now split.
Qed.
Lemma right_limit f x l : tends_right f x l <-> limit1_in f (fun y => x < y) l x.
Proof.
  unfold tends_right, limit1_in, limit_in. simpl. unfold R_dist. split; intros H eps He; destruct (H eps He) as (d & P & Q); exists d; split; [exact P| |exact P|].
  - intros y [A B]. apply Q. apply Rabs_def2 in B. lra.
  - intros y A. apply Q. split; [tauto|]. apply Rabs_def1; lra.
Qed.
Lemma tends_ext f g x l eps : 0 < eps -> (forall y, y <> x -> Rabs (y - x) < eps -> f y = g y) -> tends_to f x l -> tends_to g x l.
Proof.
  intros P E H e He. destruct (H e He) as (d & D & Q). exists (Rmin d eps). split; [now apply Rmin_pos|].
  intros y N B. rewrite <- E; [apply Q|exact N|]; [exact N| |]; eapply Rlt_le_trans; [exact B|apply Rmin_l|exact B|apply Rmin_r].
Qed.
Lemma right_ext f g x l eps : 0 < eps -> (forall y, x < y < x + eps -> f y = g y) -> tends_right f x l -> tends_right g x l.
Proof.
  intros P E H e He. destruct (H e He) as (d & D & Q). exists (Rmin d eps). split; [now apply Rmin_pos|].
  intros y B. pose proof (Rmin_l d eps). pose proof (Rmin_r d eps). rewrite <- E by lra. apply Q. lra.
Qed.
Lemma slope_limit F a d : dl F a d -> tends_to (fun b => (F a - F b) / (a - b)) a d.
Proof.
  intros D e He. destruct (D e He) as (delta & Q). exists delta. split; [apply cond_pos|].
  intros y N B. specialize (Q (y - a)). replace (a + (y - a)) with y in Q by ring.
  replace ((F a - F y) / (a - y)) with ((F y - F a) / (y - a)) by (field; lra). apply Q; [lra|exact B].
Qed.
Lemma sep0 t m : 0 < t -> separated t m 0 -> 0 < m -> t <= m.
Proof. intros T [E|H] P; [lra|]. rewrite Rminus_0_r, Rabs_right in H; lra. Qed.

Section Base.
  Variable scale : R.
  Hypothesis SP : 0 < scale.
  Notation L := (logscale scale).
  Notation LM := (LogM scale).
  Lemma logscale_pos x : 0 < x -> L x = ln x - 2 * ln scale.
  Proof.
    intro P. unfold logscale, Rdiv. assert (0 < scale ^ 2) by (now apply pow_lt).
    rewrite ln_mult; [|exact P|now apply Rinv_0_lt_compat]. rewrite ln_Rinv by assumption.
    replace (scale ^ 2) with (scale * scale) by ring. rewrite ln_mult by assumption. ring.
  Qed.
  Lemma LogM_pos m : 0 < m -> LM m = Some (L m).
  Proof.
    intro P. unfold LogM, lnopt. destruct (Req_EM_T m 0); [lra|]. destruct (Rlt_dec 0 m); [|lra].
    cbn [option_map]. now rewrite logscale_pos.
  Qed.

  (** two-point function *)
  Lemma fbase_sym A B : A = B \/ 1 / 100000 < Rabs (A - B) -> fbase scale A B = fbase scale B A.
  Proof.
    intros [->|H]; [reflexivity|]. unfold fbase. rewrite (Rabs_minus_sym B A).
    destruct (Req_EM_T A 0) as [ZA|NA], (Req_EM_T B 0) as [ZB|NB].
    - reflexivity.
    - destruct (Rlt_dec (1 / 100000) (Rabs (A - B))); [reflexivity|lra].
    - destruct (Rlt_dec (1 / 100000) (Rabs (A - B))); [reflexivity|lra].
    - destruct (Rlt_dec (1 / 100000) (Rabs (A - B))); [|lra].
      destruct (LM A), (LM B); cbn [lift2]; try reflexivity. f_equal. field.
      assert (A - B <> 0). { intro E. rewrite E, Rabs_R0 in H. lra. }
      lra.
  Qed.
  Lemma fbase_value A B : 0 < A -> 0 < B -> 1 / 100000 < Rabs (A - B) ->
    fbase scale A B = Some (two_point L A B).
  Proof.
    intros PA PB H. unfold fbase. destruct (Req_EM_T A 0); [lra|]. destruct (Rlt_dec _ _); [|lra].
    destruct (Req_EM_T B 0); [lra|]. rewrite !LogM_pos by assumption. cbn [lift2]. unfold two_point. f_equal. f_equal. ring.
  Qed.
  Lemma F_deriv a : 0 < a -> dl (fun x => x * L x) a (1 + L a).
  Proof.
    intro P. eapply dl_ext_loc with (eps0 := a) (f := fun x => x * (ln x - 2 * ln scale)); [exact P| |].
    - intros y Hy. rewrite logscale_pos; [reflexivity|]. now apply near_pos with a.
    - eapply dl_eq; [dlauto; exact P|]. rewrite logscale_pos by exact P. field. lra.
  Qed.
  Lemma fbase_degenerate a : 0 < a -> exists v, fbase scale a a = Some v /\ tends_to (fun b => two_point L a b) a v.
  Proof.
    intro P. exists (1 + L a). split.
    - unfold fbase. destruct (Req_EM_T a 0); [lra|]. rewrite Rminus_diag_eq, Rabs_R0 by reflexivity.
      destruct (Rlt_dec _ _); [lra|]. now rewrite LogM_pos.
    - unfold two_point. apply (slope_limit (fun x => x * L x)). now apply F_deriv.
  Qed.
  Lemma F_zero : tends_right (fun b => b * L b) 0 0.
  Proof.
    intros e He. destruct (sqrt_small (2 + Rabs (2 * ln scale)) e) as (d & [D1 D2] & Q); [|exact He|].
    - pose proof (Rabs_pos (2 * ln scale)). lra.
    - exists d. split; [exact D1|]. intros y H. rewrite Rminus_0_r. rewrite logscale_pos by lra.
      eapply Rle_lt_trans; [|apply (Q y); lra].
      replace (y * (ln y - 2 * ln scale)) with (y * ln y + - (y * (2 * ln scale))) by ring.
      eapply Rle_trans; [apply Rabs_triang|]. rewrite Rabs_Ropp, (Rabs_mult y (2 * ln scale)), (Rabs_pos_eq y) by lra.
      rewrite Rmult_plus_distr_r. apply Rplus_le_compat; [apply h_ln_bound; lra|].
      rewrite Rmult_comm. apply Rmult_le_compat_l; [apply Rabs_pos|]. apply sqrt_ge; lra.
  Qed.
  Lemma lim_eq f D l l' x : limit1_in f D l x -> l = l' -> limit1_in f D l' x.
  Proof. now intros H <-. Qed.
  Lemma lim_const_right c x : limit1_in (fun _ => c) (fun y => x < y) c x.
  Proof. exact (limit_free (fun _ => c) (fun y => x < y) 0 x). Qed.
  Lemma lim_id_right x : limit1_in (fun y => y) (fun y => x < y) x x.
  Proof. apply lim_x. Qed.
  Lemma fbase_massless a : 1 / 100000 < a -> exists v, fbase scale a 0 = Some v /\ tends_right (fun b => two_point L a b) 0 v.
  Proof.
    intro P. exists (L a). split.
    - unfold fbase. destruct (Req_EM_T a 0); [lra|]. rewrite Rminus_0_r, Rabs_right by lra. destruct (Rlt_dec _ _); [|lra].
      destruct (Req_EM_T 0 0); [|lra]. rewrite LogM_pos by lra. reflexivity.
    - apply right_limit. unfold two_point.
      apply lim_eq with (l := (a * L a - 0) * / (a - 0)); [|field; lra].
      apply (limit_mul (fun b => a * L a - b * L b) (fun b => / (a - b))).
      + apply (limit_minus (fun _ => a * L a) (fun b => b * L b)); [apply lim_const_right|]. apply right_limit, F_zero.
      + apply (limit_inv (fun b => a - b)); [|lra]. apply (limit_minus (fun _ => a) (fun b => b)); [apply lim_const_right|apply lim_id_right].
  Qed.

  (** three-point function *)
  Lemma Thres_pos : 0 < Thres.
  Proof. unfold Thres. lra. Qed.
  Lemma snap0_sep m : separated Thres m 0 -> snap0 m = m.
  Proof.
    intros [->|H]; unfold snap0; destruct (Rlt_dec _ _) as [l|]; try reflexivity.
    rewrite Rminus_0_r in H. lra.
  Qed.
  Lemma snap_sep a b : separated Thres a b -> snap a b = a.
  Proof. intros [->|H]; unfold snap; destruct (Rlt_dec _ _) as [l|]; try reflexivity. lra. Qed.
  Notation all_sep := (masses_apart Thres).
  Lemma tri_sep a b c : all_sep a b c ->
    fbaseTri scale a b c = match tri_branch scale a b c with Some r => Ok r | None => Throw RuntimeError end.
  Proof.
    intros (A & B & C & AB & AC & BC). unfold fbaseTri. rewrite !(snap0_sep _ A), !(snap0_sep _ B), !(snap0_sep _ C).
    now rewrite (snap_sep a b AB), (snap_sep a c AC), (snap_sep b c BC).
  Qed.
  Lemma sep_sym t a b : separated t a b -> separated t b a.
  Proof. intros [->|H]; [now left|right]. now rewrite Rabs_minus_sym. Qed.
  Ltac eqs := repeat match goal with
    | |- context [Req_EM_T ?x ?y] => destruct (Req_EM_T x y); try (exfalso; lra); cbn [andb negb] end.
  Ltac fin := repeat match goal with
    | |- context [LogM scale ?x] => destruct (LogM scale x)
    | |- context [lnopt ?x] => destruct (lnopt x) end;
    cbn [option_map lift2]; try reflexivity; try (f_equal; field; repeat split; lra).
  Lemma tri_branch_ab a b c : tri_branch scale a b c = tri_branch scale b a c.
  Proof. unfold tri_branch, is0, eqb. eqs; subst; try reflexivity; fin. Qed.
  Lemma tri_branch_bc a b c : tri_branch scale a b c = tri_branch scale a c b.
  Proof. unfold tri_branch, is0, eqb. eqs; subst; try reflexivity; fin. Qed.
  Lemma tri_sym_ab a b c : all_sep a b c -> fbaseTri scale a b c = fbaseTri scale b a c.
  Proof.
    intro H. rewrite tri_sep by exact H. rewrite tri_sep; [now rewrite tri_branch_ab|].
    unfold masses_apart in *. pose proof (sep_sym Thres a b). tauto.
  Qed.
  Lemma tri_sym_bc a b c : all_sep a b c -> fbaseTri scale a b c = fbaseTri scale a c b.
  Proof.
    intro H. rewrite tri_sep by exact H. rewrite tri_sep; [now rewrite tri_branch_bc|].
    unfold masses_apart in *. pose proof (sep_sym Thres b c). tauto.
  Qed.

  Lemma tri_general a b c : all_sep a b c -> 0 < a -> 0 < b -> 0 < c -> a <> b -> a <> c -> b <> c ->
    fbaseTri scale a b c = Ok (three_point L a b c).
  Proof.
    intros S0 PA PB PC AB AC BC. rewrite tri_sep by exact S0. unfold tri_branch, is0, eqb. eqs. cbn [andb negb].
    rewrite !LogM_pos by assumption. cbn [lift2 option_map]. reflexivity.
  Qed.
  Definition pair_value (a c : R) : R := (a - c + c * ln (c / a)) / (a - c) ^ 2.
  Lemma pair_limit a c : 0 < a -> 0 < c -> a <> c -> tends_to (fun b => three_point L a b c) a (pair_value a c).
  Proof.
    intros PA PC AC. pose (F := fun x => x * L x). pose (g := fun x => (F x - F c) / (x - c)).
    assert (D : dl g a (pair_value a c)).
    { eapply dl_eq.
      - apply (dl_div (fun x => F x - F c) (fun x => x - c) a (1 + L a - 0) (1 - 0)).
        + apply dl_minus; [now apply F_deriv|apply dl_const].
        + apply dl_minus; [apply dl_id|apply dl_const].
        + lra.
      - unfold pair_value, F, Rdiv at 2. rewrite !logscale_pos by assumption. unfold Rdiv. rewrite ln_mult; [|exact PC|now apply Rinv_0_lt_compat].
        rewrite ln_Rinv by exact PA. field. lra. }
    apply slope_limit in D. eapply tends_ext with (eps := Rabs (a - c)); [|intros b N B|exact D].
    - apply Rabs_pos_lt. lra.
    - cbv beta. assert (BC : b <> c). { intros ->. rewrite Rabs_minus_sym in B. lra. }
      unfold g, F, three_point. field. repeat split; lra.
  Qed.
  Lemma tri_pair a c : all_sep a a c -> 0 < a -> 0 < c -> a <> c ->
    exists v, fbaseTri scale a a c = Ok v /\ tends_to (fun b => three_point L a b c) a v.
  Proof.
    intros S0 PA PC AC. exists (pair_value a c). split; [|now apply pair_limit].
    rewrite tri_sep by exact S0. unfold tri_branch, is0, eqb. eqs. cbn [andb negb]. unfold lnopt.
    destruct (Rlt_dec 0 (c / a)) as [_|N]; [reflexivity|]. destruct N. now apply Rdiv_lt_0_compat.
  Qed.
  Lemma hfun_mvt a c : 0 < a -> 0 < c -> c <> a ->
    exists x, 0 < x /\ x <> a /\ Rabs (x - a) < Rabs (c - a) /\ pair_value a c = (ln x - ln a) / (2 * (x - a)).
  Proof.
    intros PA PC N. pose (h := fun t => a - t + t * (ln t - ln a)).
    pose (phi := fun t => h t * (c - a) ^ 2 - h c * (t - a) ^ 2).
    pose (phi' := fun t => (ln t - ln a) * (c - a) ^ 2 - h c * (2 * (t - a))).
    assert (D : forall t, 0 < t -> dl phi t (phi' t)).
    { intros t T. unfold phi, phi', h. eapply dl_eq; [dlauto; exact T|]. cbn [pred INR]. field. lra. }
    assert (Z1 : phi a = 0) by (unfold phi, h; ring). assert (Z2 : phi c = 0) by (unfold phi, h; ring).
    assert (V : h c = pair_value a c * (c - a) ^ 2).
    { unfold pair_value, h, Rdiv. rewrite ln_mult; [|exact PC|now apply Rinv_0_lt_compat]. rewrite ln_Rinv by exact PA. field. lra. }
    assert (M : exists x, (a < x < c \/ c < x < a) /\ phi' x = 0).
    { destruct (Rlt_dec a c) as [Lt|Ge].
      - destruct (MVT_cor2 phi phi' a c Lt) as (x & E & B); [intros t T; apply D; lra|]. exists x. split; [now left|].
        rewrite Z1, Z2 in E. assert (phi' x * (c - a) = 0) by lra. apply Rmult_integral in H as [H|H]; lra.
      - destruct (MVT_cor2 phi phi' c a) as (x & E & B); [lra|intros t T; apply D; lra|]. exists x. split; [now right|].
        rewrite Z1, Z2 in E. assert (phi' x * (a - c) = 0) by lra. apply Rmult_integral in H as [H|H]; lra. }
    destruct M as (x & B & E). exists x. split; [lra|]. split; [lra|]. split; [unfold Rabs; destruct (Rcase_abs (x - a)), (Rcase_abs (c - a)); lra|].
    unfold phi' in E. rewrite V in E.
    assert (E2 : ((ln x - ln a) - pair_value a c * (2 * (x - a))) * (c - a) ^ 2 = 0) by (rewrite <- E; ring).
    apply Rmult_integral in E2 as [E2|E2]; [|exfalso; revert E2; apply pow_nonzero; lra].
    assert (E3 : ln x - ln a = pair_value a c * (2 * (x - a))) by lra. rewrite E3. field. lra.
  Qed.
  Lemma pair_equal a : 0 < a -> tends_to (fun c => pair_value a c) a (1 / (2 * a)).
  Proof.
    intros PA e He. assert (D : dl ln a (/ a)) by now apply derivable_pt_lim_ln.
    destruct (D (2 * e) ltac:(lra)) as (d & Q). exists (Rmin d a). split; [apply Rmin_pos; [apply cond_pos|exact PA]|].
    intros c N B. assert (PC : 0 < c). { apply near_pos with a; [exact PA|]. eapply Rlt_le_trans; [exact B|apply Rmin_r]. }
    destruct (hfun_mvt a c PA PC N) as (x & PX & NX & BX & ->).
    specialize (Q (x - a) ltac:(lra)). replace (a + (x - a)) with x in Q by ring.
    assert (Bd : Rabs (x - a) < d). { eapply Rlt_trans; [exact BX|]. eapply Rlt_le_trans; [exact B|apply Rmin_l]. }
    specialize (Q Bd).
    replace ((ln x - ln a) / (2 * (x - a)) - 1 / (2 * a)) with (/ 2 * ((ln x - ln a) / (x - a) - / a)) by (field; lra).
    rewrite Rabs_mult, (Rabs_pos_eq (/ 2)) by lra. lra.
  Qed.
  Lemma tri_equal a : all_sep a a a -> 0 < a ->
    exists v W, fbaseTri scale a a a = Ok v /\
      (forall c, 0 < c -> c <> a -> tends_to (fun b => three_point L a b c) a (W c)) /\ tends_to W a v.
  Proof.
    intros S0 PA. exists (1 / (2 * a)), (pair_value a). split; [|split].
    - rewrite tri_sep by exact S0. unfold tri_branch, is0, eqb. eqs. reflexivity.
    - intros c PC N. apply pair_limit; auto.
    - now apply pair_equal.
  Qed.
  Lemma tri_massless a b : all_sep a b 0 -> 0 < a -> 0 < b -> a <> b ->
    exists v, fbaseTri scale a b 0 = Ok v /\ tends_right (fun c => three_point L a b c) 0 v.
  Proof.
    intros S0 PA PB AB.
    exists (a * L a * / ((a - b) * (a - 0)) + b * L b * / ((b - a) * (b - 0)) + 0 * / ((0 - a) * (0 - b))). split.
    - rewrite tri_sep by exact S0. unfold tri_branch, is0, eqb. eqs. cbn [andb negb].
      rewrite !LogM_pos by assumption. unfold LogM. destruct (Req_EM_T 0 0); [|lra]. cbn [lift2 option_map]. f_equal. field. lra.
    - apply right_limit. unfold three_point.
      assert (C1 : forall x k, k <> 0 -> x <> 0 -> limit1_in (fun c => / (k * (x - c))) (fun y => 0 < y) (/ (k * (x - 0))) 0).
      { intros x k K X. apply (limit_inv (fun c => k * (x - c))); [|apply Rmult_integral_contrapositive; split; lra].
        apply (limit_mul (fun _ => k)); [apply lim_const_right|]. apply (limit_minus (fun _ => x) (fun y => y)); [apply lim_const_right|apply lim_id_right]. }
      apply (limit_plus (fun c => a * L a / ((a - b) * (a - c)) + b * L b / ((b - a) * (b - c))) (fun c => c * L c / ((c - a) * (c - b)))).
      + apply (limit_plus (fun c => a * L a / ((a - b) * (a - c))) (fun c => b * L b / ((b - a) * (b - c)))).
        * apply (limit_mul (fun _ => a * L a) (fun c => / ((a - b) * (a - c)))); [apply lim_const_right|apply C1; lra].
        * apply (limit_mul (fun _ => b * L b) (fun c => / ((b - a) * (b - c)))); [apply lim_const_right|apply C1; lra].
      + apply (limit_mul (fun c => c * L c) (fun c => / ((c - a) * (c - b)))).
        * apply right_limit, F_zero.
        * apply (limit_inv (fun c => (c - a) * (c - b))); [|apply Rmult_integral_contrapositive; split; lra].
          apply (limit_mul (fun c => c - a) (fun c => c - b)).
          -- apply (limit_minus (fun c => c) (fun _ => a)); [apply lim_id_right|apply lim_const_right].
          -- apply (limit_minus (fun c => c) (fun _ => b)); [apply lim_id_right|apply lim_const_right].
  Qed.
  Lemma ratio_zero a : 0 < a -> tends_right (fun c => c * ln (c / a)) 0 0.
  Proof.
    intros PA e He. destruct (sqrt_small (2 + Rabs (ln a)) e) as (d & [D1 D2] & Q); [|exact He|].
    - pose proof (Rabs_pos (ln a)). lra.
    - exists d. split; [exact D1|]. intros y H. rewrite Rminus_0_r. unfold Rdiv. rewrite ln_mult; [|lra|now apply Rinv_0_lt_compat]. rewrite ln_Rinv by exact PA.
      eapply Rle_lt_trans; [|apply (Q y); lra].
      replace (y * (ln y + - ln a)) with (y * ln y + - (y * ln a)) by ring.
      eapply Rle_trans; [apply Rabs_triang|]. rewrite Rabs_Ropp, (Rabs_mult y (ln a)), (Rabs_pos_eq y) by lra.
      rewrite Rmult_plus_distr_r. apply Rplus_le_compat; [apply h_ln_bound; lra|].
      rewrite Rmult_comm. apply Rmult_le_compat_l; [apply Rabs_pos|]. apply sqrt_ge; lra.
  Qed.
  Lemma tri_pair_massless a : all_sep a a 0 -> 0 < a ->
    exists v W, fbaseTri scale a a 0 = Ok v /\
      (forall c, 0 < c -> c <> a -> tends_to (fun b => three_point L a b c) a (W c)) /\ tends_right W 0 v.
  Proof.
    intros S0 PA. exists (1 / a), (pair_value a). split; [|split].
    - rewrite tri_sep by exact S0. unfold tri_branch, is0, eqb. eqs. reflexivity.
    - intros c PC N. apply pair_limit; auto.
    - apply right_limit. unfold pair_value. apply lim_eq with (l := (a - 0 + 0) * / ((a - 0) * (a - 0))); [|field; lra].
      apply (limit_mul (fun c => a - c + c * ln (c / a)) (fun c => / (a - c) ^ 2)).
      + apply (limit_plus (fun c => a - c) (fun c => c * ln (c / a))).
        * apply (limit_minus (fun _ => a) (fun c => c)); [apply lim_const_right|apply lim_id_right].
        * apply right_limit. now apply ratio_zero.
      + apply (limit_inv (fun c => (a - c) ^ 2)); [|apply Rmult_integral_contrapositive; split; lra].
        apply lim_eq with (l := (a - 0) * ((a - 0) * 1)); [|ring].
        apply (limit_mul (fun c => a - c) (fun c => (a - c) * 1)).
        * apply (limit_minus (fun _ => a) (fun c => c)); [apply lim_const_right|apply lim_id_right].
        * apply (limit_mul (fun c => a - c) (fun _ => 1)); [|apply lim_const_right].
          apply (limit_minus (fun _ => a) (fun c => c)); [apply lim_const_right|apply lim_id_right].
  Qed.
  Lemma tri_perm a b c : all_sep a b c ->
    fbaseTri scale b a c = fbaseTri scale a b c /\ fbaseTri scale a c b = fbaseTri scale a b c /\
    fbaseTri scale c b a = fbaseTri scale a b c /\ fbaseTri scale b c a = fbaseTri scale a b c /\
    fbaseTri scale c a b = fbaseTri scale a b c.
  Proof.
    intro H. assert (S1 := sep_sym Thres).
    assert (H1 : all_sep b a c) by (unfold masses_apart in *; pose proof (S1 a b); tauto).
    assert (H2 : all_sep a c b) by (unfold masses_apart in *; pose proof (S1 b c); tauto).
    assert (H3 : all_sep c a b) by (unfold masses_apart in *; pose proof (S1 b c); pose proof (S1 a c); tauto).
    assert (E1 : fbaseTri scale b a c = fbaseTri scale a b c) by (symmetry; now apply tri_sym_ab).
    assert (E2 : fbaseTri scale a c b = fbaseTri scale a b c) by (symmetry; now apply tri_sym_bc).
    assert (E3 : fbaseTri scale c a b = fbaseTri scale a b c) by (rewrite <- E2; symmetry; now apply tri_sym_ab).
    assert (E4 : fbaseTri scale b c a = fbaseTri scale a b c) by (rewrite <- E1; symmetry; now apply tri_sym_bc).
    assert (E5 : fbaseTri scale c b a = fbaseTri scale a b c) by (rewrite <- E3; symmetry; now apply tri_sym_bc).
    repeat split; assumption.
  Qed.
End Base.

(** the identification of close masses depends on the order *)
Lemma tri_order_matters scale d : 0 < d < Thres ->
  fbaseTri scale 1 1 (1 + d) = Ok (1 / (2 * (1 + d))) /\ fbaseTri scale (1 + d) 1 1 = Ok (1 / (2 * 1)).
Proof.
  intros [P Q]. assert (T : Thres < / 10) by (unfold Thres; lra).
  assert (Z : forall m, / 10 < m -> snap0 m = m).
  { intros m M. unfold snap0. destruct (Rlt_dec _ _) as [H|H]; [rewrite Rabs_right in H; lra|reflexivity]. }
  assert (S1 : forall a b, - Thres < a - b < Thres -> snap a b = b).
  { intros a b AB. unfold snap. destruct (Rlt_dec _ _) as [H|H]; [reflexivity|]. destruct H. apply Rabs_def1; lra. }
  unfold fbaseTri. rewrite !(Z (1 + d)), !(Z 1) by lra. split.
  - rewrite (S1 1 1) by lra. rewrite (S1 1 (1 + d)) by lra.
    unfold tri_branch, is0, eqb. destruct (Req_EM_T (1 + d) 0); [lra|]. destruct (Req_EM_T (1 + d) (1 + d)); [|lra]. reflexivity.
  - rewrite (S1 (1 + d) 1) by lra. rewrite (S1 1 1) by lra.
    unfold tri_branch, is0, eqb. destruct (Req_EM_T 1 0); [lra|]. destruct (Req_EM_T 1 1); [|lra]. reflexivity.
Qed.
Lemma fbase_order_matters scale b : 0 < b <= 1 / 100000 ->
  fbase scale 0 b = Some 1 /\ fbase scale b 0 = Some (1 + (ln b - 2 * ln scale)).
Proof.
  intros [P Q]. unfold fbase. rewrite Rminus_0_l, Rabs_Ropp, Rminus_0_r, Rabs_right by lra.
  destruct (Req_EM_T 0 0); [|lra]. destruct (Req_EM_T b 0); [lra|]. destruct (Rlt_dec _ _); [lra|].
  split; [f_equal; lra|]. unfold LogM, lnopt. destruct (Req_EM_T b 0); [lra|]. destruct (Rlt_dec 0 b); [reflexivity|lra].
Qed.
