(** The tree-level vacua set by set_gen. *)
From Coq Require Import Reals Lra Lia ZArith List Permutation Bool.
From Verif.Model Require Import Base Potential Tables Vacua.
From Verif.Model Require PotSM PotCxSM PotR2HDM PotC2HDM PotN2HDM PotCPintheDark.
From Verif.Spec Require Import NumDerivSpec PotentialSpec ScalarSpec WardSpec.
From Verif.Proofs Require Import Contract Contract2 TabTac VacTac.
From Verif.Proofs Require PotSMProofs PotCxSMProofs PotR2HDMProofs PotC2HDMProofs PotN2HDMProofs PotCPintheDarkProofs.
Import ListNotations.
Local Open Scope R_scope.

Lemma placed_at (n : nat) order v (w : list R) : placed 0 n order v w ->
  forall i, (i < n)%nat -> nth i w 0 = fold_right (fun e a => if Nat.eqb i (fst e) then snd e else a) 0 (combine order v) \/ ~ NoDup order \/ length order <> length v.
Proof.
  intros (L & A & B) i I. destruct (in_dec Nat.eq_dec i order) as [In_|NI].
  - destruct (Nat.eq_dec (length order) (length v)) as [LE|]; [|auto]. destruct (ListDec.NoDup_dec Nat.eq_dec order) as [ND|]; [|auto]. left.
    apply In_nth_error in In_ as (k & K). pose proof (A _ _ K) as E. clear A B.
    assert (X : nth_error v k = Some (nth i w 0)) by (rewrite <- E; apply nth_error_nth'; rewrite L; exact I).
    clear E L. revert v k K LE X. induction order as [|o order IH]; intros v k K LE X; [destruct k; discriminate|].
    destruct v as [|y v]; [discriminate|]. cbn [combine fold_right fst snd]. destruct k as [|k].
    + cbn in K, X. injection K as ->. injection X as ->. now rewrite Nat.eqb_refl.
    + cbn in K, X. inversion ND; subst. destruct (Nat.eqb_spec i o) as [->|]; [exfalso; apply nth_error_In in K; contradiction|].
      apply (IH ltac:(assumption) v k); auto.
  - left. rewrite (nth_error_nth w i 0 (B i I NI)). clear - NI. revert v. induction order as [|o order IH]; intro v; [reflexivity|].
    destruct v; [reflexivity|]. cbn [combine fold_right fst snd]. cbn in NI. destruct (Nat.eqb_spec i o) as [->|]; [tauto|]. apply IH. tauto.
Qed.
Definition spread (n : nat) (order : list nat) (v : list R) : list R :=
  map (fun i => fold_right (fun e a => if Nat.eqb i (fst e) then snd e else a) 0 (combine order v)) (seq 0 n).
Lemma placed_spread n order v w : NoDup order -> length order = length v -> placed 0 n order v w -> w = spread n order v.
Proof.
  intros ND LE P. apply (nth_ext _ _ 0 0); [transitivity n; [apply P|unfold spread; now rewrite map_length, seq_length]|].
  intros i I. assert (L : length w = n) by apply P. rewrite L in I. unfold spread.
  set (F := fun i => fold_right (fun e a => if Nat.eqb i (fst e) then snd e else a) 0 (combine order v)).
  rewrite (nth_indep (map F (seq 0 n)) 0 (F 0%nat)) by (rewrite map_length, seq_length; exact I).
  rewrite map_nth, seq_nth by exact I. cbn [Nat.add].
  destruct (placed_at n order v w P i I) as [E|[X|X]]; [exact E|contradiction|contradiction].
Qed.
Lemma spread_placed n order v : NoDup order -> length order = length v -> Forall (fun o => (o < n)%nat) order -> placed 0 n order v (spread n order v).
Proof.
  intros ND LE F. assert (A : forall i, (i < n)%nat -> nth_error (spread n order v) i = Some (fold_right (fun e a => if Nat.eqb i (fst e) then snd e else a) 0 (combine order v))).
  { intros i I. unfold spread. rewrite (map_nth_error _ i (seq 0 n) (d := i)); [reflexivity|].
    rewrite (nth_error_nth' (seq 0 n) 0%nat) by (now rewrite seq_length). now rewrite seq_nth. }
  split; [unfold spread; now rewrite map_length, seq_length|]. split.
  - intros k o K. rewrite A by (rewrite Forall_forall in F; apply F; eapply nth_error_In; exact K). clear A F.
    revert v k K LE. induction order as [|o' order IH]; intros v k K LE; [destruct k; discriminate|]. destruct v as [|y v]; [discriminate|].
    inversion ND; subst. cbn [combine fold_right fst snd]. destruct k as [|k]; cbn in K |- *.
    + injection K as ->. now rewrite Nat.eqb_refl.
    + destruct (Nat.eqb_spec o o') as [->|]; [exfalso; apply nth_error_In in K; contradiction|]. apply IH; auto.
  - intros i I NI. rewrite A by exact I. f_equal. clear A F. revert v LE. induction order as [|o order IH]; intros v LE; [reflexivity|]. destruct v; [reflexivity|].
    cbn [combine fold_right fst snd]. cbn in NI. inversion ND; subst. destruct (Nat.eqb_spec i o) as [->|]; [tauto|]. apply IH; auto.
Qed.

Ltac nodup := repeat constructor; cbn; intuition discriminate.
Ltac support := let k := fresh in let E := fresh in intros k E; do 9 (destruct k as [|k]; [try discriminate E; reflexivity|]); destruct k; reflexivity.
Lemma beta_facts t : 0 < CosBeta t /\ CosBetaSquared t = CosBeta t * CosBeta t /\ SinBetaSquared t = t * t * (CosBeta t * CosBeta t) /\
  CosBeta t * CosBeta t * (1 + t * t) = 1 /\ SinBeta t = Rabs t * CosBeta t /\ SinBeta_signed t = t * CosBeta t.
Proof.
  assert (P : 0 < 1 + t * t) by (pose proof (Rle_0_sqr t); unfold Rsqr in *; lra).
  assert (P2 : 0 < CosBetaSquared t) by (unfold CosBetaSquared; apply Rdiv_lt_0_compat; lra).
  assert (Q : CosBeta t * CosBeta t = CosBetaSquared t) by (unfold CosBeta; apply sqrt_sqrt; lra).
  assert (C0 : 0 < CosBeta t) by (now apply sqrt_lt_R0).
  assert (SA : SinBeta t = Rabs t * CosBeta t).
  { unfold SinBeta, SinBetaSquared, CosBeta. rewrite sqrt_mult by (try apply Rle_0_sqr; lra). f_equal. apply sqrt_Rsqr_abs. }
  split; [exact C0|]. split; [now symmetry|]. split; [unfold SinBetaSquared; now rewrite Q|]. split.
  - rewrite Q. unfold CosBetaSquared. field. lra.
  - split; [exact SA|]. unfold SinBeta_signed. destruct (Rlt_dec t 0); rewrite SA.
    + rewrite Rabs_left by assumption. ring.
    + rewrite Rabs_right by lra. ring.
Qed.

Lemma mass_rows n M K ds w : (forall i j, (i < n)%nat -> (j < n)%nat -> M i j = K i j) ->
  (forall g i, (i < n)%nat -> sumR n (fun j => K i j * rotated g ds (fun k => nth k w 0) j) = 0) -> goldstones_massless n ds M w.
Proof. intros A B g i I. etransitivity; [|exact (B g i I)]. apply NumDerivProofs.sumR_ext. intros j J. rewrite (A i j I J). reflexivity. Qed.

(** the statements needed of a vacuum vector, shared by all models *)
Definition vacuum_at n (T : tensors) ds w v0sq : Prop := proper_vacuum Ok Ok n ds (tree n T) (mass_matrix n T) w v0sq.
Ltac vac_core n G v S ds solve_it :=
  let HS := fresh "HS" in let Kg := fresh "Kg" in let Kh := fresh "Kh" in
  assert (HS : forall k, inb S k = false -> nth k v 0 = 0) by support;
  match type of G with good _ _ ?t1 ?t2 ?t3 ?t4 =>
    compute_as Kg (grad_row n t1 t2 t3 t4 v S);
    compute_as Kh (hess_rows n t2 t3 t4 v S) end;
  split; [|split];
  [ let i := fresh "i" in let I := fresh "I" in intros i I;
    rewrite (tree_grad_row _ _ _ _ _ _ G v eq_refl _ HS _ Kg i I); f_equal; clear Kg Kh; unfold n in I; cases_lt i I; cbn [nth]; solve_it
  | evalat; solve_it
  | let M := fresh "M" in let E := fresh "E" in let A := fresh "A" in
    destruct (tree_hess_rows _ _ _ _ _ _ G v eq_refl _ HS _ Kh) as (M & E & A); exists M; split; [exact E|];
    apply (mass_rows _ _ _ _ _ A); clear - Kh; let g := fresh "g" in let i := fresh "i" in let I := fresh "I" in intros g i I; unfold n in I;
    cases_lt i I; destruct g; evalat; solve_it ].

Lemma SM_core lam v0 : vacuum_at PotSM.N (PotSM.SetCurvatureArrays (PotSM.mkP (- lam * v0 ^ 2) lam)) slots_SM [0; 0; v0; 0] (v0 ^ 2).
Proof.
  pose proof (PotSMProofs.tree_ok (PotSM.mkP (- lam * v0 ^ 2) lam)) as G.
  vac_core PotSM.N G [0; 0; v0; 0] [2%nat] slots_SM ltac:(field).
Qed.

Lemma R2HDM_core k t v1 L1 L2 L3 L4 L5 :
  vacuum_at PotR2HDM.N (PotR2HDM.SetCurvatureArrays (PotR2HDM.mkP
      (k * t * t - t * t * (v1 * v1) * (L4 + L5 + L3) / 2 - v1 * v1 * L1 / 2) (k - v1 * v1 * (L4 + L5 + L3) / 2 - t * t * (v1 * v1) * L2 / 2)
      (k * t) L1 L2 L3 L4 L5))
    slots_2HDM [0; 0; 0; 0; v1; 0; t * v1; 0] (v1 * v1 * (1 + t * t)).
Proof.
  match goal with |- vacuum_at _ (PotR2HDM.SetCurvatureArrays ?p) _ _ _ => pose proof (PotR2HDMProofs.tree_ok p) as G end.
  vac_core PotR2HDM.N G [0; 0; 0; 0; v1; 0; t * v1; 0] [4; 6]%nat slots_2HDM ltac:(field).
Qed.
Lemma C2HDM_core k t v1 L1 L2 L3 L4 L5 I5 :
  vacuum_at PotC2HDM.N (PotC2HDM.SetCurvatureArrays (PotC2HDM.mkP
      (k * t * t - t * t * (v1 * v1) * (L4 + L5 + L3) / 2 - v1 * v1 * L1 / 2) (k - v1 * v1 * (L4 + L5 + L3) / 2 - t * t * (v1 * v1) * L2 / 2)
      (k * t) (t * (v1 * v1) * I5 / 2) L1 L2 L3 L4 L5 I5))
    slots_2HDM [0; 0; 0; 0; v1; 0; t * v1; 0] (v1 * v1 * (1 + t * t)).
Proof.
  match goal with |- vacuum_at _ (PotC2HDM.SetCurvatureArrays ?p) _ _ _ => pose proof (PotC2HDMProofs.tree_ok p) as G end.
  vac_core PotC2HDM.N G [0; 0; 0; 0; v1; 0; t * v1; 0] [4; 6]%nat slots_2HDM ltac:(field).
Qed.
Lemma N2HDM_core k t v1 vs L1 L2 L3 L4 L5 L6 L7 L8 :
  vacuum_at PotN2HDM.N (PotN2HDM.SetCurvatureArrays (PotN2HDM.mkP
      (k * t * t - t * t * (v1 * v1) * (L3 + L4 + L5) / 2 - v1 * v1 * L1 / 2 - vs * vs * L7 / 2)
      (k - v1 * v1 * (L3 + L4 + L5) / 2 - t * t * (v1 * v1) * L2 / 2 - vs * vs * L8 / 2)
      (k * t) L1 L2 L3 L4 L5 (- L6 * vs * vs / 2 - L7 * (v1 * v1) / 2 - L8 * (t * t * (v1 * v1)) / 2) L6 L7 L8))
    slots_N2HDM [0; 0; 0; 0; 0; 0; v1; t * v1; vs] (v1 * v1 * (1 + t * t)).
Proof.
  match goal with |- vacuum_at _ (PotN2HDM.SetCurvatureArrays ?p) _ _ _ => pose proof (PotN2HDMProofs.tree_ok p) as G end.
  vac_core PotN2HDM.N G [0; 0; 0; 0; 0; 0; v1; t * v1; vs] [6; 7; 8]%nat slots_N2HDM ltac:(field).
Qed.
Lemma CPintheDark_core v0 m22 ms ra ia L1 L2 L3 L4 L5 L6 L7 L8 :
  vacuum_at PotCPintheDark.N (PotCPintheDark.SetCurvatureArrays (PotCPintheDark.mkP (- L1 * v0 ^ 2 / 2) m22 ms ra ia L1 L2 L3 L4 L5 L6 L7 L8))
    slots_2HDM [0; 0; 0; 0; v0; 0; 0; 0; 0] (v0 ^ 2).
Proof.
  match goal with |- vacuum_at _ (PotCPintheDark.SetCurvatureArrays ?p) _ _ _ => pose proof (PotCPintheDarkProofs.tree_ok p) as G end.
  vac_core PotCPintheDark.N G [0; 0; 0; 0; v0; 0; 0; 0; 0] [4]%nat slots_2HDM ltac:(field).
Qed.
Lemma sqrt2_nonzero : sqrt 2 <> 0.
Proof. apply Rgt_not_eq, sqrt_lt_R0. lra. Qed.
Lemma CxSM_core h s a lam d2' b2 d2 rb ib :
  vacuum_at PotCxSM.N (PotCxSM.SetCurvatureArrays (PotCxSM.mkP (- lam * h ^ 2 / 2 - d2' * (s ^ 2 + a ^ 2) / 2) lam d2' b2 d2 rb ib
      (- (d2' * h ^ 2 * s / 4 + b2 * s / 2 + d2 * s * (s ^ 2 + a ^ 2) / 4 + (rb * s - ib * a) / 2) / sqrt 2)
      ((d2' * h ^ 2 * a / 4 + b2 * a / 2 + d2 * a * (s ^ 2 + a ^ 2) / 4 - (rb * a + ib * s) / 2) / sqrt 2)))
    slots_CxSM [0; 0; 0; h; s; a] (h ^ 2).
Proof.
  match goal with |- vacuum_at _ (PotCxSM.SetCurvatureArrays ?p) _ _ _ => pose proof (PotCxSMProofs.tree_ok p) as G end.
  vac_core PotCxSM.N G [0; 0; 0; h; s; a] [3; 4; 5]%nat slots_CxSM ltac:(first [ring|field; exact sqrt2_nonzero]).
Qed.
