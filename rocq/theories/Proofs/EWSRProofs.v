(** Proofs about the check for symmetry restoration at high temperature. *)
From Coq Require Import Reals List ZArith Lia Lra Bool.
From Verif.Model Require Import Base Action EWSR.
From Verif.Spec Require Import NumDerivSpec EWSRSpec.
From Verif.Proofs Require Import ActionProofs NumDerivProofs.
Import ListNotations.
Open Scope R_scope.

Lemma near1_agrees b a : near1 b a = true <-> agrees b a.
Proof.
  unfold near1, agrees. destruct b as [x|], a as [y|]; try (split; [discriminate|intros (? & ? & ? & ? & _); congruence]).
  unfold Reqb, Rltb. destruct (Req_EM_T y 0) as [Y|Y]; cbn [negb andb].
  - split; [discriminate|]. intros (x' & y' & E1 & E2 & N & _). congruence.
  - assert (E : Rabs (x / y - 1) = Rabs (x - y) / Rabs y).
    { replace (x / y - 1) with ((x - y) / y) by (field; exact Y). unfold Rdiv. rewrite Rabs_mult, Rabs_inv. reflexivity. }
    assert (P : 0 < Rabs y) by (now apply Rabs_pos_lt).
    rewrite E. destruct (Rlt_dec _ _) as [L|L].
    + split; [intros _|reflexivity]. exists x, y. do 3 (split; [auto|]).
      apply (Rmult_lt_compat_r (Rabs y)) in L; [|exact P]. unfold Rdiv in L at 1. rewrite Rmult_assoc, Rinv_l, Rmult_1_r in L by lra. lra.
    + split; [discriminate|]. intros (x' & y' & E1 & E2 & _ & B). exfalso. apply L. injection E1 as <-. injection E2 as <-.
      apply (Rmult_lt_reg_r (Rabs y)); [exact P|]. unfold Rdiv at 1. rewrite Rmult_assoc, Rinv_l, Rmult_1_r by lra. lra.
Qed.

Definition ok (steps : list ewsr_step) (j : Z) : Prop :=
  agrees (eig steps j) (eig steps (j - 1)) /\ agrees (eig steps j) (eig steps (j - 2)).

Lemma eig_nth steps i s : nth_error steps i = Some s -> eig steps (Z.of_nat i) = ev s.
Proof.
  intro H. unfold eig. replace (Z.of_nat i =? -1)%Z with false by (symmetry; apply Z.eqb_neq; lia).
  replace (Z.of_nat i =? -2)%Z with false by (symmetry; apply Z.eqb_neq; lia). now rewrite Nat2Z.id, H.
Qed.

Lemma loop_spec : forall rest pre,
  let steps := pre ++ rest in
  (forall j, (j < length pre)%nat -> ~ ok steps (Z.of_nat j)) ->
  match ewsr_loop rest (eig steps (Z.of_nat (length pre) - 1)) (eig steps (Z.of_nat (length pre) - 2)) with
  | Some s => exists i, settles steps i /\ nth_error steps i = Some s
  | None => forall i, ~ settles steps i
  end.
Proof.
  induction rest as [|s rest IH]; intros pre steps N; cbn [ewsr_loop].
  - intros i (L & O & _). unfold steps in L. rewrite app_nil_r in L. exact (N i L O).
  - assert (E : nth_error steps (length pre) = Some s).
    { unfold steps. rewrite nth_error_app2, Nat.sub_diag by lia. reflexivity. }
    rewrite <- (eig_nth steps _ s E).
    destruct (near1 _ _ && near1 _ _) eqn:B.
    + apply andb_true_iff in B as [B1 B2]. apply near1_agrees in B1, B2.
      exists (length pre). split; [|exact E]. split; [unfold steps; rewrite app_length; cbn; lia|]. split; [split; assumption|exact N].
    + assert (NN : forall j, (j < length (pre ++ [s]))%nat -> ~ ok steps (Z.of_nat j)).
      { intros j J. rewrite app_length in J. cbn in J. destruct (Nat.eq_dec j (length pre)) as [->|]; [|apply N; lia].
        intros [A1 A2]. apply near1_agrees in A1, A2. rewrite A1, A2 in B. discriminate. }
      specialize (IH (pre ++ [s])). cbv zeta in IH. rewrite <- app_assoc in IH. cbn [app] in IH. fold steps in IH. specialize (IH NN).
      rewrite app_length in IH. cbn [length] in IH.
      replace (Z.of_nat (length pre + 1) - 1)%Z with (Z.of_nat (length pre)) in IH by lia.
      replace (Z.of_nat (length pre + 1) - 2)%Z with (Z.of_nat (length pre) - 1)%Z in IH by lia. exact IH.
Qed.

Lemma settles_unique steps i j : settles steps i -> settles steps j -> i = j.
Proof.
  intros (L1 & O1 & N1) (L2 & O2 & N2). destruct (Nat.lt_trichotomy i j) as [H|[H|H]]; [|exact H|].
  - exfalso. exact (N2 i H O1).
  - exfalso. exact (N1 j H O2).
Qed.

Lemma settles_nonzero steps i s : settles steps i -> nth_error steps i = Some s -> exists e, ev s = Some e /\ e <> 0.
Proof.
  intros (L & (A & _) & _) E. rewrite (eig_nth _ _ _ E) in A. destruct A as (x & y & E1 & E2 & Y & B).
  exists x. split; [exact E1|]. intros ->. unfold Rminus in B. rewrite Rplus_0_l, Rabs_Ropp in B.
  assert (0 < Rabs y) by (now apply Rabs_pos_lt). lra.
Qed.

Lemma check_spec ewvev steps :
  ((forall i, ~ settles steps i) -> IsThereEWSymmetryRestoration ewvev steps = (0%Z, None)) /\
  forall i s e, settles steps i -> nth_error steps i = Some s -> ev s = Some e ->
    (e < 0 -> IsThereEWSymmetryRestoration ewvev steps = ((-1)%Z, None)) /\
    (0 < e -> stat s = None -> IsThereEWSymmetryRestoration ewvev steps = (0%Z, None)) /\
    (forall x, 0 < e -> stat s = Some x -> ewvev x <= 1 / 2 -> IsThereEWSymmetryRestoration ewvev steps = (3%Z, Some x)) /\
    (forall x, 0 < e -> stat s = Some x -> 1 / 2 < ewvev x -> IsThereEWSymmetryRestoration ewvev steps = (2%Z, Some x)) /\
    e <> 0.
Proof.
  assert (G := loop_spec steps [] ltac:(intros j J; cbn in J; lia)). cbv zeta in G.
  change (eig ([] ++ steps) (Z.of_nat (length (@nil ewsr_step)) - 1)) with (Some (10 ^ 100)) in G.
  change (eig ([] ++ steps) (Z.of_nat (length (@nil ewsr_step)) - 2)) with (Some (10 ^ 200)) in G.
  change ([] ++ steps) with steps in G.
  unfold IsThereEWSymmetryRestoration.
  destruct (ewsr_loop steps (Some (10 ^ 100)) (Some (10 ^ 200))) as [s|].
  - destruct G as (i & Si & Ei). split; [intro N; exfalso; exact (N i Si)|].
    intros i' s' e Si' Ei' Ev'. assert (i' = i) by (eapply settles_unique; eauto). subst i'.
    rewrite Ei in Ei'. injection Ei' as <-. rewrite Ev'.
    destruct (settles_nonzero _ _ _ Si Ei) as (e' & Ee & Ne). rewrite Ev' in Ee. injection Ee as <-.
    unfold Rltb, Reqb, Rleb. destruct (Rlt_dec e 0), (Req_EM_T e 0).
    all: repeat split; try lra; try (intros; reflexivity).
    all: intros; try (exfalso; lra).
    + rewrite H0. reflexivity.
    + rewrite H0. destruct (Rle_dec (ewvev x) (1 / 2)); [reflexivity|contradiction].
    + rewrite H0. destruct (Rle_dec (ewvev x) (1 / 2)); [lra|reflexivity].
  - split; [reflexivity|]. intros i s e Si. exfalso. exact (G i Si).
Qed.

Lemma never_flat ewvev steps : fst (IsThereEWSymmetryRestoration ewvev steps) <> 1%Z.
Proof.
  assert (G := loop_spec steps [] ltac:(intros j J; cbn in J; lia)). cbv zeta in G.
  change (eig ([] ++ steps) (Z.of_nat (length (@nil ewsr_step)) - 1)) with (Some (10 ^ 100)) in G.
  change (eig ([] ++ steps) (Z.of_nat (length (@nil ewsr_step)) - 2)) with (Some (10 ^ 200)) in G.
  change ([] ++ steps) with steps in G.
  unfold IsThereEWSymmetryRestoration.
  destruct (ewsr_loop steps (Some (10 ^ 100)) (Some (10 ^ 200))) as [s|]; [|discriminate].
  destruct G as (i & Si & Ei). destruct (settles_nonzero _ _ _ Si Ei) as (e & -> & N).
  unfold Rltb, Reqb, Rleb. destruct (Rlt_dec e 0); [discriminate|]. destruct (Req_EM_T e 0); [contradiction|].
  destruct (stat s) as [x|]; [|discriminate]. destruct (Rle_dec _ _); discriminate.
Qed.

Lemma flat_fails ewvev steps : Forall (fun s => ev s = Some 0) steps -> IsThereEWSymmetryRestoration ewvev steps = (0%Z, None).
Proof.
  intro F. apply check_spec. intros i Si. destruct Si as (L & O & N).
  destruct (nth_error steps i) as [s|] eqn:E; [|apply nth_error_None in E; lia].
  destruct (settles_nonzero steps i s (conj L (conj O N)) E) as (e & Ee & Ne).
  rewrite Forall_forall in F. rewrite (F s (nth_error_In _ _ E)) in Ee. injection Ee as <-. congruence.
Qed.

(** the status does not see the sign of the stored point *)
Definition mirror (s : ewsr_step) : ewsr_step := {| ev := ev s; stat := option_map (map Ropp) (stat s) |}.
Lemma loop_mirror : forall steps a b, ewsr_loop (map mirror steps) a b = option_map mirror (ewsr_loop steps a b).
Proof.
  induction steps as [|s steps IH]; intros a b; [reflexivity|]. cbn [map ewsr_loop]. change (ev (mirror s)) with (ev s).
  destruct (near1 (ev s) a && near1 (ev s) b); [reflexivity|apply IH].
Qed.
Lemma status_mirror ewvev steps : (forall x, ewvev (map Ropp x) = ewvev x) ->
  fst (IsThereEWSymmetryRestoration ewvev (map mirror steps)) = fst (IsThereEWSymmetryRestoration ewvev steps).
Proof.
  intro E. unfold IsThereEWSymmetryRestoration. rewrite loop_mirror.
  destruct (ewsr_loop steps _ _) as [s|]; [|reflexivity]. cbn [option_map]. change (ev (mirror s)) with (ev s).
  destruct (ev s) as [e|]; [|reflexivity]. destruct (Rltb e 0); [reflexivity|]. destruct (Reqb e 0); [reflexivity|].
  unfold mirror. cbn [stat]. destruct (stat s) as [x|]; [|reflexivity]. cbn [option_map fst]. now rewrite E.
Qed.

(** ** Quadratic functions *)
Lemma sumR_zero n : sumR n (fun _ => 0) = 0.
Proof. induction n as [|n IH]; cbn; [reflexivity|]. rewrite IH. lra. Qed.

Lemma sumR_swap n m f : sumR n (fun i => sumR m (fun j => f i j)) = sumR m (fun j => sumR n (fun i => f i j)).
Proof.
  induction n as [|n IH]; cbn [sumR]; [symmetry; apply sumR_zero|]. rewrite IH, <- sumR_plus. reflexivity.
Qed.

Lemma quad_min n c g H x : symmetric n H -> positive n H -> solves n H g x ->
  forall y, quad n c g H (fun i => - x i) <= quad n c g H y.
Proof.
  intros Sy Po So y. specialize (Po (fun i => y i + x i)). unfold quad.
  assert (E : sumR n (fun i => sumR n (fun j => H i j * (y i + x i) * (y j + x j))) =
              sumR n (fun i => sumR n (fun j => H i j * y i * y j)) + 2 * sumR n (fun i => g i * y i) + sumR n (fun i => g i * x i)).
  { assert (E1 : forall i, (i < n)%nat -> sumR n (fun j => H i j * (y i + x i) * (y j + x j)) =
        sumR n (fun j => H i j * y i * y j) + sumR n (fun j => H i j * x i * y j) + g i * y i + g i * x i).
    { intros i Hi. rewrite (sumR_ext n _ (fun j => (H i j * y i * y j + H i j * x i * y j) + (y i + x i) * (H i j * x j))) by (intros; lra).
      rewrite !sumR_plus, sumR_scal, (So i Hi). lra. }
    rewrite (sumR_ext n _ _ E1). rewrite !sumR_plus.
    assert (E2 : sumR n (fun i => sumR n (fun j => H i j * x i * y j)) = sumR n (fun i => g i * y i)).
    { rewrite sumR_swap. apply sumR_ext. intros j Hj.
      rewrite (sumR_ext n _ (fun i => y j * (H j i * x i))) by (intros i Hi; rewrite (Sy i j Hi Hj); lra).
      rewrite sumR_scal, (So j Hj). lra. }
    rewrite E2. lra. }
  cbv beta in Po. rewrite E in Po.
  rewrite (sumR_ext n (fun i => g i * - x i) (fun i => (-1) * (g i * x i))) by (intros; lra). rewrite sumR_scal.
  assert (E3 : sumR n (fun i => sumR n (fun j => H i j * - x i * - x j)) = sumR n (fun i => g i * x i)).
  { apply sumR_ext. intros i Hi. rewrite (sumR_ext n _ (fun j => x i * (H i j * x j))) by (intros; lra). rewrite sumR_scal, (So i Hi). lra. }
  rewrite E3. lra.
Qed.

Lemma stored_minimum n c g H x : symmetric n H -> positive n H -> solves n H g x -> (forall i, (i < n)%nat -> g i = 0) ->
  forall y, quad n c g H x <= quad n c g H y.
Proof.
  intros Sy Po So G y. unfold quad.
  assert (Z : forall v, sumR n (fun i => g i * v i) = 0).
  { intro v. rewrite (sumR_ext n _ (fun _ => 0)) by (intros i Hi; rewrite (G i Hi); lra). apply sumR_zero. }
  rewrite !Z.
  rewrite (sumR_ext n (fun i => sumR n (fun j => H i j * x i * x j)) (fun _ => 0)).
  - rewrite sumR_zero. specialize (Po y). lra.
  - intros i Hi. rewrite (sumR_ext n _ (fun j => x i * (H i j * x j))) by (intros; lra). rewrite sumR_scal, (So i Hi), (G i Hi). lra.
Qed.

Lemma quad_example :
  symmetric 1 (fun _ _ => 1) /\ positive 1 (fun _ _ => 1) /\ solves 1 (fun _ _ => 1) (fun _ => 1) (fun _ => 1) /\
  solves 1 (fun _ _ => 1) (fun _ => 0) (fun _ => 0) /\ (forall x : list R, length (map Ropp x) = length x).
Proof.
  split; [intros i j _ _; reflexivity|]. split; [intro y; cbn; nra|]. split; [intros i _; cbn; lra|]. split; [intros i _; cbn; lra|].
  intro x. apply map_length.
Qed.

Lemma stored_minimum_refuted :
  exists n c g H x y, symmetric n H /\ positive n H /\ solves n H g x /\ quad n c g H y < quad n c g H x.
Proof.
  exists 1%nat, 0, (fun _ => 1), (fun _ _ => 1), (fun _ => 1), (fun _ => -1).
  destruct quad_example as (A & B & C & _). split; [exact A|]. split; [exact B|]. split; [exact C|]. unfold quad. cbn. lra.
Qed.

Lemma agrees_same e : e <> 0 -> agrees (Some e) (Some e).
Proof. intro H. exists e, e. do 3 (split; [auto|]). rewrite Rminus_diag_eq, Rabs_R0 by reflexivity. assert (0 < Rabs e) by (now apply Rabs_pos_lt). lra. Qed.
Lemma steady_one e x : Rabs e = 1 -> settles (repeat {| ev := Some e; stat := x |} 3) 2.
Proof.
  intro A. assert (N : e <> 0) by (intros ->; rewrite Rabs_R0 in A; lra).
  assert (P : 10 <= 10 ^ 100). { rewrite <- (pow_1 10) at 1. apply Rle_pow; [lra|lia]. }
  assert (far : ~ agrees (Some e) (Some (10 ^ 100))).
  { generalize dependent (10 ^ 100). intros b P (a & b' & Ea & Eb & _ & B). injection Ea as <-. injection Eb as <-.
    assert (T := Rabs_triang_inv b e). rewrite (Rabs_minus_sym e) in B. rewrite A, (Rabs_pos_eq b) in * by lra. lra. }
  split; [cbn; lia|]. split.
  - split; apply agrees_same; exact N.
  - intros j J. destruct j as [|[|j]]; [| |lia].
    + intros [B _]. exact (far B).
    + intros [_ B]. exact (far B).
Qed.
Lemma steady_settles :
  settles (repeat {| ev := Some 1; stat := Some [246] |} 3) 2 /\ settles (repeat {| ev := Some (-1); stat := Some [246] |} 3) 2.
Proof. split; apply steady_one; [apply Rabs_R1|]. rewrite Rabs_left by lra. lra. Qed.
