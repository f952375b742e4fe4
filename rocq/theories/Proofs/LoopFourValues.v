(** Values of the four-point loop function: divided differences and their limits. *)
From Coq Require Import Reals Lra Lia ZArith List Bool Permutation.
From Verif.Model Require Import Base Loop LoopFour.
From Verif.Spec Require Import LoopSpec LoopFourSpec.
From Verif.Proofs Require Import DerivLib ThermalProofs LoopProofs LoopFourBranch LoopFourProofs.
Import ListNotations.
Open Scope R_scope.

(** right limits of sums, products and quotients *)
Lemma rl_const c x : tends_right (fun _ => c) x c.
Proof. apply right_limit, lim_const_right. Qed.
Lemma rl_id x : tends_right (fun y => y) x x.
Proof. apply right_limit, lim_id_right. Qed.
Lemma rl_plus f g x l m : tends_right f x l -> tends_right g x m -> tends_right (fun y => f y + g y) x (l + m).
Proof. rewrite !right_limit. apply (limit_plus f g). Qed.
Lemma rl_minus f g x l m : tends_right f x l -> tends_right g x m -> tends_right (fun y => f y - g y) x (l - m).
Proof. rewrite !right_limit. apply (limit_minus f g). Qed.
Lemma rl_mult f g x l m : tends_right f x l -> tends_right g x m -> tends_right (fun y => f y * g y) x (l * m).
Proof. rewrite !right_limit. apply (limit_mul f g). Qed.
Lemma rl_div f g x l m : tends_right f x l -> tends_right g x m -> m <> 0 -> tends_right (fun y => f y / g y) x (l / m).
Proof. rewrite !right_limit. intros F G N. apply (limit_mul f (fun y => / g y)); [exact F|]. now apply (limit_inv g). Qed.
Lemma rl_eq f x l l' : tends_right f x l -> l = l' -> tends_right f x l'.
Proof. now intros H <-. Qed.
Ltac rl := lazymatch goal with
  | |- tends_right (fun x => @?f x + @?g x) _ _ => eapply (rl_plus f g); [rl|rl]
  | |- tends_right (fun x => @?f x - @?g x) _ _ => eapply (rl_minus f g); [rl|rl]
  | |- tends_right (fun x => @?f x / @?g x) _ _ => eapply (rl_div f g); [rl|rl|]
  | |- tends_right (fun x => x * logscale ?s x) _ _ => eassumption
  | |- tends_right (fun x => @?f x * @?g x) _ _ => eapply (rl_mult f g); [rl|rl]
  | |- tends_right (fun x => x) _ _ => apply rl_id
  | |- tends_right (fun x => ?c) _ _ => apply rl_const
  end.
Lemma tt_ext_val f x l l' : tends_to f x l -> l = l' -> tends_to f x l'.
Proof. now intros H <-. Qed.

Section Values.
  Variable scale : R.
  Hypothesis SP : 0 < scale.
  Notation L := (logscale scale).
  Notation br := (four_branch scale).
  Lemma L_pos x : 0 < x -> LogM scale x = Some (L x).
  Proof. now apply LogM_pos. Qed.
  Ltac pick_branch a b c d :=
    rewrite four_sep by assumption; rewrite branch_bools;
    repeat match goal with
    | |- context [is0 ?x] => destruct (is0_case x) as [(? & ->)|(? & ->)]; [try (exfalso; lra)|try (exfalso; lra)]
    | |- context [eqb ?x ?y] => destruct (eqb_case x y) as [(? & ->)|(? & ->)]; [try (exfalso; lra)|try (exfalso; lra)] end;
    cbv beta iota delta [four_bools pick andb negb of_branch]; rewrite ?L_pos by assumption; cbn [obind].
  Definition pair4 (a c d : R) : R :=
    (c * (a - d) * (a - d) * L c - d * (a - c) * (a - c) * L d + (c - d) * ((a - c) * (a - d) + (- a * a + c * d) * L a)) /
    ((a - c) * (a - c) * (a - d) * (a - d) * (c - d)).
  Definition two4 (a c : R) : R := (2 * (a - c) + (a + c) * (L c - L a)) / ((a - c) * (a - c) * (a - c)).
  Definition triple4 (a d : R) : R :=
    (- a * a + d * d + 2 * a * d * (L a - L d)) / (2 * a * (a - d) * (a - d) * (a - d)).

  Lemma four_general a b c d : masses_apart4 Thres4 a b c d -> 0 < a -> 0 < b -> 0 < c -> 0 < d ->
    a <> b -> a <> c -> a <> d -> b <> c -> b <> d -> c <> d ->
    fbaseFour scale a b c d = Ok (four_point L a b c d).
  Proof. intros. pick_branch a b c d. reflexivity. Qed.
  Lemma four_pair_value a c d : masses_apart4 Thres4 a a c d -> 0 < a -> 0 < c -> 0 < d -> a <> c -> a <> d -> c <> d ->
    fbaseFour scale a a c d = Ok (pair4 a c d).
  Proof. intros. pick_branch a a c d. reflexivity. Qed.
  Lemma four_two_value a c : masses_apart4 Thres4 a a c c -> 0 < a -> 0 < c -> a <> c ->
    fbaseFour scale a a c c = Ok (two4 a c).
  Proof. intros. pick_branch a a c c. reflexivity. Qed.
  Lemma four_triple_value a d : masses_apart4 Thres4 a a a d -> 0 < a -> 0 < d -> a <> d ->
    fbaseFour scale a a a d = Ok (triple4 a d).
  Proof. intros. pick_branch a a a d. reflexivity. Qed.
  Lemma four_equal_value a : masses_apart4 Thres4 a a a a -> 0 < a -> fbaseFour scale a a a a = Ok (- 1 / (6 * a * a)).
  Proof. intros. pick_branch a a a a. reflexivity. Qed.
  Lemma four_0_value a b c : masses_apart4 Thres4 a b c 0 -> 0 < a -> 0 < b -> 0 < c -> a <> b -> a <> c -> b <> c ->
    fbaseFour scale a b c 0 = Ok 0.
  Proof. intros. pick_branch a b c 0. reflexivity. Qed.
  Lemma four_0_pair_value a c : masses_apart4 Thres4 a a c 0 -> 0 < a -> 0 < c -> a <> c ->
    fbaseFour scale a a c 0 = Ok ((a - c + a * L c - a * L a) / (a * (a - c) * (a - c))).
  Proof. intros. pick_branch a a c 0. reflexivity. Qed.
  Lemma four_0_triple_value a : masses_apart4 Thres4 a a a 0 -> 0 < a -> fbaseFour scale a a a 0 = Ok (- 1 / (2 * a * a)).
  Proof. intros. pick_branch a a a 0. reflexivity. Qed.
  Lemma four_00_value a b : masses_apart4 Thres4 a b 0 0 -> 0 < a -> 0 < b -> a <> b ->
    fbaseFour scale a b 0 0 = Ok (1 / (a * b) + (b * L a - a * L b) / (a * b * (a - b))).
  Proof. intros. pick_branch a b 0 0. reflexivity. Qed.
  Lemma four_00_pair_value a : masses_apart4 Thres4 a a 0 0 -> 0 < a -> fbaseFour scale a a 0 0 = Ok ((2 - L a) / (a * a)).
  Proof. intros. pick_branch a a 0 0. reflexivity. Qed.
  Lemma four_000_value a : masses_apart4 Thres4 a 0 0 0 -> 0 < a -> fbaseFour scale a 0 0 0 = Ok (L a / (a * a)).
  Proof. intros. pick_branch a 0 0 0. reflexivity. Qed.

  (** limits *)
  Lemma ln_ratio c a : 0 < c -> 0 < a -> ln (c / a) = L c - L a.
  Proof.
    intros PC PA. rewrite !logscale_pos by assumption. unfold Rdiv. rewrite ln_mult; [|exact PC|now apply Rinv_0_lt_compat].
    rewrite ln_Rinv by exact PA. ring.
  Qed.
  Lemma pair4_limit a c d : 0 < a -> 0 < c -> 0 < d -> a <> c -> a <> d -> c <> d ->
    tends_to (fun b => four_point L a b c d) a (pair4 a c d).
  Proof.
    intros PA PC PD AC AD CD. pose (F := fun x => x * L x).
    pose (g := fun x => ((F x - F c) / (x - c) - (F c - F d) / (c - d)) / (x - d)).
    assert (D : dl g a (pair4 a c d)).
    { eapply dl_eq.
      - apply (dl_div (fun x => (F x - F c) / (x - c) - (F c - F d) / (c - d)) (fun x => x - d) a
          (((1 + L a - 0) * (a - c) - (1 - 0) * (F a - F c)) / (a - c) ^ 2 - 0) (1 - 0)).
        + apply (dl_minus (fun x => (F x - F c) / (x - c)) (fun _ => (F c - F d) / (c - d))); [|apply dl_const].
          apply (dl_div (fun x => F x - F c) (fun x => x - c) a (1 + L a - 0) (1 - 0)).
          * apply dl_minus; [now apply F_deriv|apply dl_const].
          * apply dl_minus; [apply dl_id|apply dl_const].
          * lra.
        + apply dl_minus; [apply dl_id|apply dl_const].
        + lra.
      - unfold pair4, F. field. repeat split; lra. }
    apply slope_limit in D.
    eapply tends_ext with (eps := Rmin (Rabs (a - c)) (Rabs (a - d))); [|intros b N B|exact D].
    - apply Rmin_pos; apply Rabs_pos_lt; lra.
    - cbv beta. assert (BC : b <> c). { intros ->. rewrite Rabs_minus_sym in B. pose proof (Rmin_l (Rabs (a - c)) (Rabs (a - d))). lra. }
      assert (BD : b <> d). { intros ->. rewrite Rabs_minus_sym in B. pose proof (Rmin_r (Rabs (a - c)) (Rabs (a - d))). lra. }
      unfold g, F, four_point. field. repeat split; lra.
  Qed.
  Lemma pair4_slope a c d : 0 < a -> 0 < c -> 0 < d -> a <> c -> a <> d -> c <> d ->
    pair4 a c d = (pair_value a c - pair_value a d) / (c - d).
  Proof.
    intros PA PC PD AC AD CD. unfold pair4, pair_value. rewrite (ln_ratio c a), (ln_ratio d a) by assumption. field. repeat split; lra.
  Qed.
  Lemma two4_limit a c : 0 < a -> 0 < c -> a <> c -> tends_to (fun d => pair4 a c d) c (two4 a c).
  Proof.
    intros PA PC AC.
    assert (D : dl (pair_value a) c (two4 a c)).
    { eapply dl_ext_loc with (eps0 := c) (f := fun x => (a - x + x * (ln x - ln a)) / (a - x) ^ 2); [exact PC| |].
      - intros y Hy. assert (0 < y) by (now apply near_pos with c). unfold pair_value. rewrite (ln_ratio y a) by assumption.
        rewrite !logscale_pos by assumption. f_equal. ring.
      - eapply dl_eq; [dlauto; try exact PC; apply pow_nonzero; lra|]. cbn [pred INR]. unfold two4. rewrite !logscale_pos by assumption.
        field. repeat split; lra. }
    apply slope_limit in D. eapply tends_ext with (eps := Rmin c (Rabs (a - c))); [|intros d N B|exact D].
    - apply Rmin_pos; [exact PC|]. apply Rabs_pos_lt. lra.
    - cbv beta. assert (PD : 0 < d). { apply near_pos with c; [exact PC|]. eapply Rlt_le_trans; [exact B|apply Rmin_l]. }
      assert (AD : a <> d). { intros ->. pose proof (Rmin_r c (Rabs (d - c))). lra. }
      symmetry. apply pair4_slope; auto.
  Qed.
  Lemma triple4_eq a d : 0 < a -> 0 < d -> a <> d -> triple4 a d = (1 / (2 * a) - pair_value a d) / (a - d).
  Proof. intros PA PD AD. unfold triple4, pair_value. rewrite (ln_ratio d a) by assumption. field. repeat split; lra. Qed.
  Lemma triple4_limit a d : 0 < a -> 0 < d -> a <> d -> tends_to (fun c => pair4 a c d) a (triple4 a d).
  Proof.
    intros PA PD AD.
    apply tends_ext with (eps := Rmin a (Rabs (a - d))) (f := fun c => (pair_value a c - pair_value a d) * / (c - d)).
    - apply Rmin_pos; [exact PA|]. apply Rabs_pos_lt. lra.
    - intros c N B. assert (PC : 0 < c). { apply near_pos with a; [exact PA|]. eapply Rlt_le_trans; [exact B|apply Rmin_l]. }
      assert (CD : c <> d). { intros ->. rewrite Rabs_minus_sym in B. pose proof (Rmin_r a (Rabs (a - d))). lra. }
      symmetry. apply pair4_slope; auto.
    - rewrite triple4_eq by assumption. apply tends_limit.
      apply (limit_mul (fun c => pair_value a c - pair_value a d) (fun c => / (c - d))).
      + apply (limit_minus (pair_value a) (fun _ => pair_value a d)).
        * apply tends_limit. now apply pair_equal.
        * exact (limit_free (fun _ => pair_value a d) (fun y => y <> a) 0 a).
      + apply (limit_inv (fun c => c - d)); [|lra]. apply (limit_minus (fun c => c) (fun _ => d)); [apply lim_x|].
        exact (limit_free (fun _ => d) (fun y => y <> a) 0 a).
  Qed.
  (** all four equal: a mean value form of the triple value *)
  Lemma cauchy_step (N N' : R -> R) n a d : (1 <= n)%nat -> 0 < a -> 0 < d -> d <> a -> N a = 0 -> (forall t, 0 < t -> dl N t (N' t)) ->
    exists x, 0 < x /\ x <> a /\ Rabs (x - a) < Rabs (d - a) /\ N d / (a - d) ^ n = - (N' x / (INR n * (a - x) ^ pred n)).
  Proof.
    intros N1 PA PD NE Z D0. pose (phi := fun t => N t * (a - d) ^ n - N d * (a - t) ^ n).
    pose (phi' := fun t => N' t * (a - d) ^ n + N d * (INR n * (a - t) ^ pred n)).
    assert (D : forall t, 0 < t -> dl phi t (phi' t)).
    { intros t T. unfold phi. eapply dl_eq.
      - apply (dl_minus (fun t => N t * (a - d) ^ n) (fun t => N d * (a - t) ^ n)).
        + apply (dl_mult N (fun _ => (a - d) ^ n)); [now apply D0|apply dl_const].
        + apply (dl_mult (fun _ => N d) (fun t => (a - t) ^ n)); [apply dl_const|].
          apply (dl_pow (fun t => a - t) n t (0 - 1)), dl_minus; [apply dl_const|apply dl_id].
      - cbv beta. unfold phi'. ring. }
    assert (Z1 : phi a = 0). { unfold phi. rewrite Z, (Rminus_diag_eq a a), pow_ne_zero by (auto; lia). ring. }
    assert (Z2 : phi d = 0) by (unfold phi; ring).
    assert (M : exists x, (a < x < d \/ d < x < a) /\ phi' x = 0).
    { destruct (Rlt_dec a d) as [Lt|Ge].
      - destruct (MVT_cor2 phi phi' a d Lt) as (x & E & B); [intros t T; apply D; lra|]. exists x. split; [now left|].
        rewrite Z1, Z2 in E. assert (H : phi' x * (d - a) = 0) by lra. apply Rmult_integral in H as [H|H]; lra.
      - destruct (MVT_cor2 phi phi' d a) as (x & E & B); [lra|intros t T; apply D; lra|]. exists x. split; [now right|].
        rewrite Z1, Z2 in E. assert (H : phi' x * (a - d) = 0) by lra. apply Rmult_integral in H as [H|H]; lra. }
    destruct M as (x & B & E). exists x. split; [lra|]. split; [lra|]. split; [unfold Rabs; destruct (Rcase_abs (x - a)), (Rcase_abs (d - a)); lra|].
    unfold phi' in E.
    assert (P1 : (a - d) ^ n <> 0) by (apply pow_nonzero; lra). assert (P2 : (a - x) ^ pred n <> 0) by (apply pow_nonzero; lra).
    assert (P3 : INR n <> 0) by (apply not_0_INR; lia).
    assert (E2 : N d * (INR n * (a - x) ^ pred n) = - N' x * (a - d) ^ n) by lra.
    apply Rmult_eq_reg_r with (r := (a - d) ^ n * (INR n * (a - x) ^ pred n)).
    - replace (N d / (a - d) ^ n * ((a - d) ^ n * (INR n * (a - x) ^ pred n))) with (N d * (INR n * (a - x) ^ pred n)) by (field; exact P1).
      rewrite E2. field. auto.
    - repeat apply Rmult_integral_contrapositive_currified; assumption.
  Qed.
  Lemma triple4_mvt a d : 0 < a -> 0 < d -> d <> a ->
    exists y, 0 < y /\ Rabs (y - a) < Rabs (d - a) /\ triple4 a d = - (1 / (6 * a * y)).
  Proof.
    intros PA PD NE.
    pose (N0 := fun t => - a * a + t * t + 2 * a * t * (ln a - ln t)).
    pose (N1 := fun t => 2 * t + 2 * a * (ln a - ln t) - 2 * a).
    pose (N2 := fun t => 2 - 2 * a / t).
    assert (D0 : forall t, 0 < t -> dl N0 t (N1 t)). { intros t T. unfold N0, N1. eapply dl_eq; [dlauto; exact T|]. cbv beta. field. lra. }
    assert (D1 : forall t, 0 < t -> dl N1 t (N2 t)). { intros t T. unfold N1, N2. eapply dl_eq; [dlauto; exact T|]. cbv beta. field. lra. }
    destruct (cauchy_step N0 N1 3 a d) as (x & PX & NX & BX & EX); [lia|auto|auto|auto|unfold N0; ring|exact D0|].
    destruct (cauchy_step N1 N2 2 a x) as (y & PY & NY & BY & EY); [lia|auto|auto|auto|unfold N1; ring|exact D1|].
    exists y. split; [exact PY|]. split; [lra|].
    assert (E : triple4 a d = N0 d / (a - d) ^ 3 / (2 * a)).
    { unfold triple4, N0. rewrite !logscale_pos by assumption. field. split; lra. }
    rewrite E, EX. cbn [pred].
    replace (N1 x / (INR 3 * (a - x) ^ 2)) with (N1 x / (a - x) ^ 2 / 3) by (cbn [INR]; field; lra).
    rewrite EY. unfold N2. cbn [pred INR]. field. repeat split; lra.
  Qed.
  Lemma equal4_limit a : 0 < a -> tends_to (fun d => triple4 a d) a (- 1 / (6 * a * a)).
  Proof.
    intro PA.
    assert (D : tends_to (fun y => - (1 / (6 * a * y))) a (- 1 / (6 * a * a))).
    { apply tends_limit. apply lim_eq with (l := - (1 * / (6 * a * a))); [|field; lra].
      apply (limit_Ropp (fun y => 1 / (6 * a * y))). apply (limit_mul (fun _ => 1) (fun y => / (6 * a * y))).
      - exact (limit_free (fun _ => 1) (fun y => y <> a) 0 a).
      - apply (limit_inv (fun y => 6 * a * y)); [|apply Rmult_integral_contrapositive; split; lra].
        apply (limit_mul (fun _ => 6 * a) (fun y => y)); [|apply lim_x]. exact (limit_free (fun _ => 6 * a) (fun y => y <> a) 0 a). }
    intros e He. destruct (D e He) as (dl0 & P & Q). exists (Rmin dl0 a). split; [now apply Rmin_pos|].
    intros d N B. assert (PD : 0 < d). { apply near_pos with a; [exact PA|]. eapply Rlt_le_trans; [exact B|apply Rmin_r]. }
    destruct (triple4_mvt a d PA PD N) as (y & PY & BY & ->).
    destruct (Req_dec y a) as [->|NY].
    - replace (- (1 / (6 * a * a)) - - 1 / (6 * a * a)) with 0 by (field; lra). now rewrite Rabs_R0.
    - apply Q; [exact NY|]. eapply Rlt_trans; [exact BY|]. eapply Rlt_le_trans; [exact B|apply Rmin_l].
  Qed.

  (** vanishing masses *)
  Lemma FZ : tends_right (fun x => x * L x) 0 0.
  Proof. exact (F_zero scale SP). Qed.
  Lemma massless4_limit a b c : 0 < a -> 0 < b -> 0 < c -> a <> b -> a <> c -> b <> c ->
    tends_right (fun x => four_point L a b c x) 0
      (L a / ((a - b) * (a - c)) + L b / ((b - a) * (b - c)) + L c / ((c - a) * (c - b))).
  Proof.
    intros PA PB PC AB AC BC. pose proof FZ. unfold four_point. eapply rl_eq.
    - rl; repeat apply Rmult_integral_contrapositive_currified; lra.
    - field. repeat split; lra.
  Qed.
  Lemma massless4_pair_limit a c : 0 < a -> 0 < c -> a <> c ->
    tends_right (fun x => pair4 a c x) 0 ((a - c + a * L c - a * L a) / (a * (a - c) * (a - c))).
  Proof.
    intros PA PC AC. pose proof FZ.
    eapply right_ext with (eps := 1) (f := fun x => (c * (a - x) * (a - x) * L c - (x * L x) * (a - c) * (a - c) + (c - x) * ((a - c) * (a - x) + (c * x - a * a) * L a)) / ((a - c) * (a - c) * (a - x) * (a - x) * (c - x))); [lra| |].
    - intros y _. unfold pair4. f_equal. ring.
    - eapply rl_eq; [rl; repeat apply Rmult_integral_contrapositive_currified; lra|]. field. repeat split; lra.
  Qed.
  Lemma massless4_triple_limit a : 0 < a -> tends_right (fun x => triple4 a x) 0 (- 1 / (2 * a * a)).
  Proof.
    intros PA. pose proof FZ.
    eapply right_ext with (eps := 1) (f := fun x => (x * x - a * a + (2 * a * x * L a - 2 * a * (x * L x))) / (2 * a * (a - x) * (a - x) * (a - x))); [lra| |].
    - intros y _. unfold triple4. f_equal. ring.
    - eapply rl_eq; [rl; repeat apply Rmult_integral_contrapositive_currified; lra|]. field. repeat split; lra.
  Qed.
  (** two vanishing masses: after the logarithm of the vanishing mass is removed *)
  Lemma massless4_two_limit a b : 0 < a -> 0 < b -> a <> b ->
    tends_right (fun x => pair4 x a b - L x / (a * b)) 0 (1 / (a * b) + (b * L a - a * L b) / (a * b * (a - b))).
  Proof.
    intros PA PB AB. pose proof FZ.
    eapply right_ext with (eps := Rmin a b) (f := fun x => (a * (x - b) * (x - b) * L a - b * (x - a) * (x - a) * L b + (a - b) * ((x - a) * (x - b))) / ((x - a) * (x - a) * (x - b) * (x - b) * (a - b))
       + (x * L x) * (2 * a * b * (a + b) - x * (a * b + (a + b) * (a + b) + 2 * a * b) + 2 * (a + b) * x * x - x * x * x) / (a * b * (x - a) * (x - a) * (x - b) * (x - b))).
    - apply Rmin_pos; assumption.
    - intros y Y. pose proof (Rmin_l a b). pose proof (Rmin_r a b). unfold pair4. field. repeat split; lra.
    - eapply rl_eq; [rl; repeat apply Rmult_integral_contrapositive_currified; lra|]. field. repeat split; lra.
  Qed.
  Lemma massless4_two_pair_limit a : 0 < a ->
    tends_right (fun x => two4 a x - L x / (a * a)) 0 ((2 - L a) / (a * a)).
  Proof.
    intros PA. pose proof FZ.
    eapply right_ext with (eps := a) (f := fun x => (2 * (a - x) - (a + x) * L a) / ((a - x) * (a - x) * (a - x))
       + (x * L x) * (a * a + 3 * a * a - 3 * a * x + x * x) / (a * a * (a - x) * (a - x) * (a - x))).
    - assumption.
    - intros y Y. unfold two4. field. repeat split; lra.
    - eapply rl_eq; [rl; repeat apply Rmult_integral_contrapositive_currified; lra|]. field. repeat split; lra.
  Qed.
  Lemma massless4_three_limit a : 0 < a ->
    tends_right (fun x => triple4 x a + 1 / (2 * a * x) + L x / (a * a)) 0 ((L a - 3 / 2) / (a * a)).
  Proof.
    intros PA. pose proof FZ.
    eapply right_ext with (eps := a) (f := fun x => (x - 3 * a) / (2 * a * (x - a) * (x - a)) - a * L a / ((x - a) * (x - a) * (x - a))
       + (x * L x) * (x * x - 3 * a * x + 3 * a * a) / (a * a * (x - a) * (x - a) * (x - a))).
    - assumption.
    - intros y Y. unfold triple4. field. repeat split; lra.
    - eapply rl_eq; [rl; repeat apply Rmult_integral_contrapositive_currified; lra|]. field. repeat split; lra.
  Qed.
End Values.
