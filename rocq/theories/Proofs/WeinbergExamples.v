(** Concrete models for the derivatives of the one-loop potential. *)
From Coq Require Import Reals List Lra Lia Lia ZArith FunctionalExtensionality.
From Coquelicot Require Import Coquelicot.
From Verif Require Import Model.Base Model.Loop Model.OneLoop Model.EigenDeriv Model.Weinberg Spec.EigenSpec Spec.WeinbergSpec Proofs.DerivLib Proofs.LoopProofs Proofs.OneLoopProofs Proofs.EigenProofs Proofs.EigenBranch Proofs.EigenExamples Proofs.Spectral Proofs.WeinbergSector Proofs.WeinbergProofs Proofs.WeinbergRun.
Import ListNotations.
Open Scope R_scope.

(** no components *)
Lemma diag0 : forall M dec, fst dec = [] -> diagonalises 0 M dec.
Proof. intros M dec E. unfold diagonalises. rewrite E. repeat split; intros; lia. Qed.
Lemma ok0 : forall M, masses_ok 0 M. Proof. intros M lam X F. split; intros; lia. Qed.
Lemma smooth0 : forall M t, smoothly_diagonalisable 0 M t.
Proof. intros M t. exists (fun _ _ => 0), (fun _ _ _ => RtoC 0), (fun _ => 0), (fun _ _ => RtoC 0). split; [intros; lia|intro s; split; intros; lia]. Qed.
(** one component *)
Lemma frame1 : forall M lam X, eigenframe 1 M lam X -> RtoC (lam 0%nat) = M 0%nat 0%nat.
Proof.
  intros M lam X [E [O _]]. specialize (E 0%nat 0%nat ltac:(lia) ltac:(lia)). specialize (O 0%nat 0%nat ltac:(lia) ltac:(lia)).
  unfold totalC in *. cbn [seq map fold_right] in *. unfold delta in O. cbn [Nat.eqb] in O. rewrite Cplus_0_r in E, O.
  transitivity (Cmult (RtoC (lam 0%nat)) (Cmult (Cconj (X 0%nat 0%nat)) (X 0%nat 0%nat))); [rewrite O; ring|].
  transitivity (Cmult (M 0%nat 0%nat) (Cmult (Cconj (X 0%nat 0%nat)) (X 0%nat 0%nat))); [|rewrite O; ring].
  transitivity (Cmult (Cconj (X 0%nat 0%nat)) (Cmult (RtoC (lam 0%nat)) (X 0%nat 0%nat))); [ring|]. rewrite <- E. ring.
Qed.
Lemma ok1 : forall M x, M 0%nat 0%nat = RtoC x -> (x = 0 \/ 1 / 10000 < x) -> masses_ok 1 M.
Proof.
  intros M x E X lam Y F. apply frame1 in F. rewrite E in F. pose proof (f_equal fst F) as L. cbn in L. split.
  - intros p P. assert (P0 : p = 0%nat) by lia. rewrite P0, L. exact X.
  - intros p q P Q. assert (p = 0%nat) by lia. assert (q = 0%nat) by lia. left. congruence.
Qed.
Lemma nn1 : forall M x, M 0%nat 0%nat = RtoC x -> 0 <= x -> never_negative 1 M.
Proof. intros M x E X lam Y F p P. apply frame1 in F. rewrite E in F. pose proof (f_equal fst F) as L. cbn in L. assert (P0 : p = 0%nat) by lia. rewrite P0, L. exact X. Qed.
Lemma smooth1 : forall (Mf : R -> cmat) lam t lam', (forall s, Mf s 0%nat 0%nat = RtoC (lam s)) -> dl lam t lam' -> smoothly_diagonalisable 1 Mf t.
Proof.
  intros Mf lam t lam' E D. exists (fun _ => lam), (fun _ _ _ => RtoC 1), (fun _ => lam'), (fun _ _ => RtoC 0). split.
  - intros p P. apply branch1; assumption.
  - intro s. split; intros p q P Q; assert (p = 0%nat) by lia; assert (q = 0%nat) by lia; subst; unfold totalC, delta; cbn [seq map fold_right Nat.eqb]; rewrite Cconj_R; ring.
Qed.

(** * one field of each kind *)
Definition single : curvature :=
  mkCurvature 1 1 1 1 (fun _ _ => -1) (fun _ _ _ => 0) (fun _ _ _ _ => 6) (fun _ _ _ _ => 2) (fun _ _ => RtoC 0) (fun _ _ _ => RtoC 1) (fun _ _ => RtoC 0) (fun _ _ _ => RtoC 2).
Definition rsolver1 (n : nat) (M : nat -> nat -> R) : list R * (nat -> nat -> R) := ([M 0%nat 0%nat], fun _ _ => 1).
Lemma single_higgs : forall u, MassHiggs single u 0%nat 0%nat = 3 * u 0%nat ^ 2 - 1.
Proof. intro u. unfold MassHiggs. cbn. field. Qed.
Lemma single_gauge : forall u, MassGauge single u 0%nat 0%nat = u 0%nat ^ 2.
Proof. intro u. unfold MassGauge. cbn. field. Qed.
Lemma single_quark : forall u, MassQuark single u 0%nat 0%nat = RtoC (u 0%nat ^ 2).
Proof. intro u. unfold MassQuark, FermionMassMatrix, MIJ. cbn [single NHiggs NQuarks QF2 QF2H1 csum]. apply injective_projections; cbn; ring. Qed.
Lemma single_lepton : forall u, MassLepton single u 0%nat 0%nat = RtoC (4 * u 0%nat ^ 2).
Proof. intro u. unfold MassLepton, FermionMassMatrix, MIJ. cbn [single NHiggs NLepton LF2 LF2H1 csum]. apply injective_projections; cbn; ring. Qed.
Lemma single_solves : solves rsolver1 solver1 single.
Proof.
  intro u. split; [|split; [|split; [|split; [|split]]]].
  - apply (diag1 (cast (MassHiggs single u)) eq_refl).
  - apply (diag1 (cast (MassGauge single u)) eq_refl).
  - apply (diag1 (cast (MassHiggs single u)) eq_refl).
  - apply (diag1 (cast (MassGauge single u)) eq_refl).
  - apply diag1. rewrite single_quark. reflexivity.
  - apply diag1. rewrite single_lepton. reflexivity.
Qed.
Lemma single_sym : symmetric_curvature single.
Proof. unfold symmetric_curvature. repeat split. Qed.
Lemma single_good : good_masses single (fun _ => 2).
Proof.
  split; [|split; [|split]].
  - apply (ok1 _ 11); [unfold cast; rewrite single_higgs; f_equal; ring|lra].
  - apply (ok1 _ 4); [unfold cast; rewrite single_gauge; f_equal; ring|lra].
  - apply (ok1 _ 4); [rewrite single_quark; f_equal; ring|lra].
  - apply (ok1 _ 16); [rewrite single_lepton; f_equal; ring|lra].
Qed.
Lemma single_smooth : forall u, smooth_along single u 0.
Proof.
  intro u. assert (S : forall t, entry_set u 0 t 0%nat = t) by reflexivity.
  split; [|split; [|split]].
  - eapply (smooth1 _ (fun t => 3 * t ^ 2 - 1)); [intro s; unfold cast; rewrite single_higgs, S; reflexivity|].
    apply (dl_minus (fun t => 3 * t ^ 2) (fun _ => 1)); [apply (dl_mult (fun _ => 3) (fun t => t ^ 2)); [apply dl_const|apply (dl_pow (fun s => s) 2 _ 1 (dl_id _))]|apply dl_const].
  - eapply (smooth1 _ (fun t => t ^ 2)); [intro s; unfold cast; rewrite single_gauge, S; reflexivity|]. apply (dl_pow (fun s => s) 2 _ 1 (dl_id _)).
  - eapply (smooth1 _ (fun t => t ^ 2)); [intro s; rewrite single_quark, S; reflexivity|]. apply (dl_pow (fun s => s) 2 _ 1 (dl_id _)).
  - eapply (smooth1 _ (fun t => 4 * t ^ 2)); [intro s; rewrite single_lepton, S; reflexivity|].
    apply (dl_mult (fun _ => 4) (fun t => t ^ 2)); [apply dl_const|apply (dl_pow (fun s => s) 2 _ 1 (dl_id _))].
Qed.
Lemma ten10 : / 10 ^ 10 <= 1.
Proof. lra. Qed.
Lemma single_plain : plain_rotation rsolver1 single (fun _ => 2).
Proof. intros a p A P. right. unfold rsolver1. cbn [snd]. rewrite Rabs_R1. exact ten10. Qed.
Lemma single_real : real_fermions solver1 single (fun _ => 2).
Proof. split; intros; reflexivity. Qed.
Lemma single_never : forall u, never_negative (NGauge single) (cast (MassGauge single u)).
Proof. intro u. apply (nn1 _ (u 0%nat ^ 2)); [unfold cast; rewrite single_gauge; reflexivity|apply pow2_ge_0]. Qed.

(** * two quarks whose eigenvectors are not real *)
Definition Yukawa (a b : nat) : C := if Nat.eqb a b then RtoC (if Nat.eqb a 0 then 3 / 2 else - 3 / 2) else (0, 1 / 2).
Definition twoquarks : curvature :=
  mkCurvature 1 0 2 0 (fun _ _ => 1) (fun _ _ _ => 0) (fun _ _ _ _ => 0) (fun _ _ _ _ => 0) (fun _ _ => RtoC 0) (fun a b _ => Yukawa a b) (fun _ _ => RtoC 0) (fun _ _ _ => RtoC 0).
Definition mixed (a b : nat) : C := if Nat.eqb a b then RtoC (5 / 2) else if Nat.eqb a 0 then (0, 3 / 2) else (0, - (3 / 2)).
Lemma two_higgs : forall u, MassHiggs twoquarks u 0%nat 0%nat = 1.
Proof. intro u. unfold MassHiggs. cbn. field. Qed.
Lemma two_quark : forall u a b, (a < 2)%nat -> (b < 2)%nat -> MassQuark twoquarks u a b = Cmult (RtoC (u 0%nat ^ 2)) (mixed a b).
Proof.
  intros u a b A B. unfold MassQuark, FermionMassMatrix, MIJ. cbn [twoquarks NHiggs NQuarks QF2 QF2H1 csum].
  two a; two b; unfold Yukawa, mixed; cbn [Nat.eqb]; apply injective_projections; cbn; field.
Qed.
Definition roots (p : nat) : R := if Nat.eqb p 0 then 1 else 4.
Definition vectors (p a : nat) : C := if Nat.eqb a 0 then RtoC (/ sqrt 2) else (0, if Nat.eqb p 0 then / sqrt 2 else - / sqrt 2).
Lemma half_sqrt : / sqrt 2 * / sqrt 2 = 1 / 2.
Proof. assert (sqrt 2 * sqrt 2 = 2) by (apply sqrt_sqrt; lra). assert (sqrt 2 <> 0) by (intro Z; rewrite Z in *; lra). rewrite <- Rinv_mult, H. field. Qed.
Ltac half := pose proof half_sqrt as HS; revert HS; generalize (/ sqrt 2); intros s HS.
Lemma vectors_basis : orthobasis 2 vectors.
Proof.
  split; intros p q P Q; two p; two q; unfold totalC, delta, vectors; cbn [seq map fold_right Nat.eqb]; half; apply injective_projections; cbn; nra.
Qed.
Lemma vectors_frame : forall (M : cmat) x, (forall a b, (a < 2)%nat -> (b < 2)%nat -> M a b = Cmult (RtoC x) (mixed a b)) -> eigenframe 2 M (fun p => x * roots p) vectors.
Proof.
  intros M x E. split; [|exact vectors_basis]. intros a p A P. unfold totalC. cbn [seq map fold_right]. rewrite !E by lia. unfold mixed, vectors, roots.
  two a; two p; cbn [Nat.eqb]; apply injective_projections; cbn; field; intro Z; pose proof half_sqrt as HS; rewrite Z, Rinv_0 in HS; lra.
Qed.
Lemma two_frame : forall M lam X p, (forall a b, (a < 2)%nat -> (b < 2)%nat -> M a b = mixed a b) -> eigenframe 2 M lam X -> (p < 2)%nat ->
  (lam p = 1 \/ lam p = 4) /\ fst (X p 0%nat) ^ 2 + fst (X p 1%nat) ^ 2 = 1 / 2.
Proof.
  intros M lam X p EM [E [O _]] P. pose proof (E 0%nat p ltac:(lia) P) as E0. pose proof (E 1%nat p ltac:(lia) P) as E1. specialize (O p p P P).
  unfold totalC in *. cbn [seq map fold_right] in *. rewrite !EM in E0, E1 by lia. unfold mixed in E0, E1. cbn [Nat.eqb] in E0, E1. unfold delta in O. rewrite Nat.eqb_refl in O.
  destruct (X p 0%nat) as [a b], (X p 1%nat) as [c d]. cbn [fst]. set (l := lam p) in *.
  pose proof (f_equal fst E0) as A1. pose proof (f_equal snd E0) as A2. pose proof (f_equal fst E1) as A3. pose proof (f_equal snd E1) as A4. pose proof (f_equal fst O) as A5. cbn in A1, A2, A3, A4, A5. clear E0 E1 O.
  assert (B1 : (5 / 2 - l) * a = 3 / 2 * d) by lra. assert (B2 : (5 / 2 - l) * b = - (3 / 2) * c) by lra. assert (B3 : (5 / 2 - l) * c = - (3 / 2) * b) by lra. assert (B4 : (5 / 2 - l) * d = 3 / 2 * a) by lra.
  assert (N1 : a * a + b * b + c * c + d * d = 1) by lra. clear A1 A2 A3 A4 A5.
  assert (Q : (l - 1) * (l - 4) = 0).
  { set (k := 5 / 2 - l) in *. assert (K : (k * k - 9 / 4) * (a * a + b * b + c * c + d * d) = 0).
    { replace ((k * k - 9 / 4) * (a * a + b * b + c * c + d * d)) with (k * (k * a) * a + k * (k * b) * b + k * (k * c) * c + k * (k * d) * d - 9 / 4 * (a * a + b * b + c * c + d * d)) by ring.
      rewrite B1, B2, B3, B4. replace (k * (3 / 2 * d) * a + k * (- (3 / 2) * c) * b + k * (- (3 / 2) * b) * c + k * (3 / 2 * a) * d) with (3 / 2 * a * (k * d) - 3 / 2 * b * (k * c) - 3 / 2 * c * (k * b) + 3 / 2 * d * (k * a)) by ring.
      rewrite B1, B2, B3, B4. field. }
    rewrite N1 in K. unfold k in K. lra. }
  apply Rmult_integral in Q. destruct Q as [Q|Q].
  - assert (L : l = 1) by lra. split; [left; exact L|]. rewrite L in *. assert (a = d) by lra. assert (b = - c) by lra. subst. nra.
  - assert (L : l = 4) by lra. split; [right; exact L|]. rewrite L in *. assert (a = - d) by lra. assert (b = c) by lra. subst. nra.
Qed.
Lemma two_good : good_masses twoquarks (fun _ => 1).
Proof.
  split; [|split; [|split]].
  - apply (ok1 _ 1); [unfold cast; rewrite two_higgs; reflexivity|lra].
  - apply ok0.
  - intros lam X F. assert (E : forall a b, (a < 2)%nat -> (b < 2)%nat -> MassQuark twoquarks (fun _ => 1) a b = mixed a b) by (intros a b A B; rewrite two_quark by assumption; rewrite pow1; apply Cmult_1_l).
    pose proof (fun p P => proj1 (two_frame _ lam X p E F P)) as T. split.
    + intros p P. destruct (T p P) as [-> | ->]; lra.
    + intros p q P Q. destruct (T p P) as [-> | ->], (T q Q) as [-> | ->]; [left; reflexivity|right; rewrite Rabs_left; lra|right; rewrite Rabs_right; lra|left; reflexivity].
  - apply ok0.
Qed.
Lemma two_smooth : forall u, smooth_along twoquarks u 0.
Proof.
  intro u. split; [|split; [|split]].
  - apply (smooth1 _ (fun _ => 1) _ 0); [intro s; unfold cast; rewrite two_higgs; reflexivity|apply dl_const].
  - apply smooth0.
  - exists (fun p t => t ^ 2 * roots p), (fun p _ => vectors p), (fun p => INR 2 * u 0%nat ^ 1 * 1 * roots p + u 0%nat ^ 2 * 0), (fun _ _ => RtoC 0). split.
    + intros p P. assert (F : forall s, eigenframe 2 (MassQuark twoquarks (entry_set u 0 s)) (fun p => s ^ 2 * roots p) vectors) by (intro s; apply vectors_frame; intros a b A B; rewrite two_quark by assumption; reflexivity).
      split; [apply (dl_mult (fun t => t ^ 2) (fun _ => roots p)); [apply (dl_pow (fun s => s) 2 _ 1 (dl_id _))|apply dl_const]|]. split; [intros; apply hd_const|]. split.
      * intros s a A. apply (proj1 (F s) a p A P).
      * intro s. destruct vectors_basis as [O _]. transitivity (delta p p); [exact (O p p P P)|]. unfold delta. rewrite Nat.eqb_refl. reflexivity.
    + intro s. exact vectors_basis.
  - apply smooth0.
Qed.
Lemma two_sym : symmetric_curvature twoquarks.
Proof. unfold symmetric_curvature. repeat split. intros a b c. cbn. unfold Yukawa. rewrite (Nat.eqb_sym b a). destruct (Nat.eqb_spec a b) as [->|]; reflexivity. Qed.
Definition rsolver2 (n : nat) (M : nat -> nat -> R) : list R * (nat -> nat -> R) := (map (fun i => M i i) (seq 0 n), fun _ _ => 1).
Definition csolver2 (n : nat) (M : cmat) : list R * cmat :=
  if Nat.eqb n 2 then ([fst (M 0%nat 0%nat) - snd (M 0%nat 1%nat); fst (M 0%nat 0%nat) + snd (M 0%nat 1%nat)], fun a p => vectors p a)
  else (map (fun i => fst (M i i)) (seq 0 n), fun _ _ => RtoC 1).
Lemma two_solves : solves rsolver2 csolver2 twoquarks.
Proof.
  intro u. cbn [twoquarks NHiggs NGauge NQuarks NLepton]. split; [|split; [|split; [|split; [|split]]]].
  - apply (diag1 (cast (MassHiggs twoquarks u)) eq_refl).
  - apply diag0. reflexivity.
  - apply (diag1 (cast (MassHiggs twoquarks u)) eq_refl).
  - apply diag0. reflexivity.
  - pose proof (vectors_frame (MassQuark twoquarks u) (u 0%nat ^ 2) ltac:(intros; apply two_quark; assumption)) as [F [O C]].
    unfold csolver2. cbn [Nat.eqb]. rewrite !two_quark by lia. unfold mixed. cbn [Nat.eqb]. pose proof (pow2_ge_0 (u 0%nat)) as U.
    assert (E : forall p, (p < 2)%nat -> nth p [fst (Cmult (RtoC (u 0%nat ^ 2)) (RtoC (5 / 2))) - snd (Cmult (RtoC (u 0%nat ^ 2)) (0, 3 / 2)); fst (Cmult (RtoC (u 0%nat ^ 2)) (RtoC (5 / 2))) + snd (Cmult (RtoC (u 0%nat ^ 2)) (0, 3 / 2))] 0 = u 0%nat ^ 2 * roots p).
    { intros p P. two p; unfold roots; cbn [nth Nat.eqb]; cbn; lra. }
    unfold diagonalises. cbn [fst snd]. split; [reflexivity|]. split; [|split; [|split; assumption]].
    + intros i j H. rewrite !E by lia. apply Rmult_le_compat_l; [exact U|]. two j; [assert (i = 0%nat) by lia; subst; lra|]. two i; unfold roots; cbn [Nat.eqb]; lra.
    + intros a p A P. rewrite E by exact P. apply F; assumption.
  - apply diag0. reflexivity.
Qed.

Section Refuted.
  Variable rsolver : nat -> (nat -> nat -> R) -> list R * (nat -> nat -> R).
  Variable csolver : nat -> cmat -> list R * cmat.
  Variables (DH DG : nat -> nat -> R) (JIb JIf : R -> R) (JNb JNf : R -> Z -> R) (parwani : bool).
  Hypothesis SOLVE : solves rsolver csolver twoquarks.
  Let v : nat -> R := fun _ => 1.
  Lemma two_plain : plain_rotation rsolver twoquarks v.
  Proof using SOLVE.
    intros a p A P. cbn [twoquarks NHiggs] in *. assert (a = 0%nat) by lia. assert (p = 0%nat) by lia. subst a p. cbv zeta. right.
    destruct (SOLVE v) as [[_ [_ [_ [O _]]]] _]. specialize (O 0%nat 0%nat ltac:(cbn; lia) ltac:(cbn; lia)). cbn [twoquarks NHiggs snd] in O. unfold totalC, delta, cast in O. cbn [seq map fold_right Nat.eqb] in O. rewrite Cconj_R in O.
    pose proof (f_equal fst O) as E. cbn in E. set (x := snd (rsolver 1%nat (MassHiggs twoquarks v)) 0%nat 0%nat) in *.
    assert (X : Rabs x = 1). { assert (Q : Rabs x * Rabs x = 1) by (rewrite <- Rabs_mult; replace (x * x) with 1 by lra; apply Rabs_R1). pose proof (Rabs_pos x). nra. }
    rewrite X. exact ten10.
  Qed.
  Lemma two_quark_frame : eigenframe 2 (MassQuark twoquarks v) (evs csolver 2 (MassQuark twoquarks) v) (vecs csolver 2 (MassQuark twoquarks) v).
  Proof using SOLVE. apply (csolver_frame csolver 2 (MassQuark twoquarks)). intro u. destruct (SOLVE u) as [_ [_ [_ [_ [A _]]]]]. exact A. Qed.
  Lemma at_one : forall a b, (a < 2)%nat -> (b < 2)%nat -> MassQuark twoquarks v a b = mixed a b.
  Proof using. intros a b A B. rewrite two_quark by assumption. unfold v. rewrite pow1. apply Cmult_1_l. Qed.
  Lemma two_herm : forall u, hermitian 2 (MassQuark twoquarks u).
  Proof using. intro u. apply (HermQ twoquarks two_sym u). Qed.
  (** sums over the spectrum, with a matrix *)
  Lemma two_sum : forall f D, rsum 2 (fun p => f (evs csolver 2 (MassQuark twoquarks) v p) * fst (sandwich 2 D (vecs csolver 2 (MassQuark twoquarks) v p) (vecs csolver 2 (MassQuark twoquarks) v p)))
    = f 1 * fst (sandwich 2 D (vectors 0) (vectors 0)) + f 4 * fst (sandwich 2 D (vectors 1) (vectors 1)).
  Proof using SOLVE.
    intros f D. pose proof (vectors_frame (MassQuark twoquarks v) 1 ltac:(intros a b A B; rewrite at_one by assumption; symmetry; apply Cmult_1_l)) as FX.
    pose proof (frame_sum 2 (MassQuark twoquarks v) (two_herm v) _ _ _ _ f D two_quark_frame FX) as E. pose proof (f_equal fst E) as EF. rewrite !csum_fst in EF.
    rewrite (rsum_ext 2 _ (fun p => fst (Cmult (RtoC (f (evs csolver 2 (MassQuark twoquarks) v p))) (sandwich 2 D (vecs csolver 2 (MassQuark twoquarks) v p) (vecs csolver 2 (MassQuark twoquarks) v p))))) by (intros; rewrite fst_scal; reflexivity).
    rewrite EF. cbn [rsum]. rewrite !fst_scal. unfold roots. cbn [Nat.eqb]. rewrite !Rmult_1_l. ring.
  Qed.
  Lemma two_lambda3 : forall a b, (a < 2)%nat -> (b < 2)%nat -> fermion3 twoquarks v 2 (QF2 twoquarks) (QF2H1 twoquarks) a b 0 = Cmult (RtoC 2) (mixed a b).
  Proof using.
    intros a b A B. unfold fermion3, MIJ. cbn [twoquarks NHiggs QF2 QF2H1 csum]. unfold v.
    two a; two b; unfold Yukawa, mixed; cbn [Nat.eqb]; apply injective_projections; cbn; field.
  Qed.
  Lemma two_gradient : gradient csolver twoquarks 1 0 v = (-6) * (2 * CWTerm 1 1 C_CWcbFermion 1 + 8 * CWTerm 1 4 C_CWcbFermion 1).
  Proof using SOLVE.
    transitivity (3 * 0 + 1 * (0 + CWTerm 1 (evs csolver 1 (fun u => cast (MassHiggs twoquarks u)) v 0) C_CWcbHiggs 1 * fst (sandwich 1 (fun _ _ => RtoC (0 + (0 + 0 * 1))) (vecs csolver 1 (fun u => cast (MassHiggs twoquarks u)) v 0) (vecs csolver 1 (fun u => cast (MassHiggs twoquarks u)) v 0)))
      + (-6) * rsum 2 (fun p => CWTerm 1 (evs csolver 2 (MassQuark twoquarks) v p) C_CWcbFermion 1 * fst (sandwich 2 (fun a b => fermion3 twoquarks v 2 (QF2 twoquarks) (QF2H1 twoquarks) a b 0) (vecs csolver 2 (MassQuark twoquarks) v p) (vecs csolver 2 (MassQuark twoquarks) v p))) + (-2) * 0); [reflexivity|].
    rewrite (two_sum (fun x => CWTerm 1 x C_CWcbFermion 1)).
    assert (S1 : sandwich 1 (fun _ _ => RtoC (0 + (0 + 0 * 1))) (vecs csolver 1 (fun u => cast (MassHiggs twoquarks u)) v 0) (vecs csolver 1 (fun u => cast (MassHiggs twoquarks u)) v 0) = RtoC 0).
    { unfold sandwich. cbn [csum]. replace (0 + (0 + 0 * 1)) with 0 by ring. ring. }
    rewrite S1. cbn [fst RtoC].
    assert (S2 : forall p, (p < 2)%nat -> fst (sandwich 2 (fun a b => fermion3 twoquarks v 2 (QF2 twoquarks) (QF2H1 twoquarks) a b 0) (vectors p) (vectors p)) = 2 * roots p).
    { intros p P. unfold sandwich. cbn [csum]. rewrite !two_lambda3 by lia. unfold mixed, vectors, roots. two p; cbn [Nat.eqb]; half; cbn; nra. }
    rewrite !S2 by lia. unfold roots. cbn [Nat.eqb]. ring.
  Qed.
  Lemma two_program : FirstDeriv 1 (HiggsRotation rsolver twoquarks v) 1 (physical rsolver csolver twoquarks v) 0 = epsilon * (-3 * (5 / 2 * (4 * (ln 4 - 1) - 1))).
  Proof using SOLVE.
    rewrite (FirstDeriv_back 1 (HiggsRotation rsolver twoquarks v) 1 (physical rsolver csolver twoquarks v) (HR_orth rsolver csolver twoquarks SOLVE two_sym v two_good two_plain) 0 ltac:(lia)).
    unfold physical. rewrite !parts_cons, parts_nil.
    transitivity (epsilon * (3 / 2 * 0) + (epsilon * (1 / 2 * (0 + mlog 1 (higgs_sector rsolver twoquarks v) 0 * Re (e3 (higgs_sector rsolver twoquarks v) 0 0 0)))
      + (epsilon * (-3 * rsum 2 (fun a => mlog 1 (quark_sector csolver twoquarks v) a * Re (e3 (quark_sector csolver twoquarks v) 0 a a))) + (epsilon * (-1 * 0) + 0)))); [reflexivity|].
    assert (Z : Re (e3 (higgs_sector rsolver twoquarks v) 0 0 0) = 0).
    { unfold e3, sandwich. cbn [higgs_sector size lambda3 twoquarks NHiggs csum L3 L4 rsum]. replace (0 + (0 + 0 * v 0%nat)) with 0 by ring. unfold Re.
      match goal with |- fst ?z = 0 => replace z with (RtoC 0) by ring end. reflexivity. }
    rewrite Z.
    assert (Q : forall a, (a < 2)%nat -> Re (e3 (quark_sector csolver twoquarks v) 0 a a) = 5 / 2).
    { intros a A. destruct (two_frame _ _ _ a at_one two_quark_frame A) as [_ H]. unfold vecs in H.
      unfold e3, sandwich, Xr. cbn [quark_sector fermion_sector size lambda3 rot twoquarks NQuarks csum]. rewrite !two_lambda3 by lia. unfold mixed. cbn [Nat.eqb].
      set (x := snd (csolver 2%nat (MassQuark twoquarks v)) 0%nat a) in *. set (y := snd (csolver 2%nat (MassQuark twoquarks v)) 1%nat a) in *. unfold Re. rewrite !Cconj_R. cbn. cbn in H. nra. }
    rewrite (rsum_ext 2 _ (fun a => 5 / 2 * mlog 1 (quark_sector csolver twoquarks v) a)) by (intros a A; rewrite (Q a A); ring).
    assert (S : rsum 2 (mlog 1 (quark_sector csolver twoquarks v)) = 4 * (ln 4 - 1) - 1).
    { set (g := fun x : R => if Req_EM_T x 0 then 0 else x * (ln (x / 1 ^ 2) - C_CWcbFermion + 1 / 2)).
      rewrite (rsum_ext 2 _ (fun p => g (evs csolver 2 (MassQuark twoquarks) v p) * fst (sandwich 2 (fun a b => delta a b) (vecs csolver 2 (MassQuark twoquarks) v p) (vecs csolver 2 (MassQuark twoquarks) v p)))).
      - rewrite two_sum. assert (D : forall p, (p < 2)%nat -> fst (sandwich 2 (fun a b => delta a b) (vectors p) (vectors p)) = 1).
        { intros p P. unfold sandwich, delta, vectors. cbn [csum Nat.eqb]. two p; cbn [Nat.eqb]; half; cbn; nra. }
        rewrite !D by lia. unfold g. destruct (Req_EM_T 1 0); [lra|]. destruct (Req_EM_T 4 0); [lra|]. rewrite pow1. replace (1 / 1) with 1 by field. replace (4 / 1) with 4 by field. rewrite ln_1. unfold C_CWcbFermion. field.
      - intros p P. destruct two_quark_frame as [_ [O _]]. specialize (O p p P P). unfold delta in O at 1. rewrite Nat.eqb_refl in O.
        assert (D : sandwich 2 (fun a b => delta a b) (vecs csolver 2 (MassQuark twoquarks) v p) (vecs csolver 2 (MassQuark twoquarks) v p) = RtoC 1).
        { rewrite <- O. unfold sandwich, delta, totalC. cbn [csum seq map fold_right Nat.eqb]. ring. }
        rewrite D. cbn [fst RtoC]. unfold mlog. cbn [quark_sector fermion_sector mass2 cwconst twoquarks NQuarks]. unfold g, evs. ring. }
    rewrite (rsum_scal 2 (5 / 2)), S. ring.
  Qed.
  Lemma two_result : exists r d, FirstDerivative rsolver csolver twoquarks v 1 true = Ok (Some r) /\
    derivable_pt_lim (fun t => V1LoopZero csolver twoquarks DH DG 1 JIb JIf JNb JNf parwani (entry_set v 0 t)) 1 d /\ 1 / 1000 < Rabs (nth 0 r 0 - d).
  Proof using SOLVE.
    exists [clip NumZero (FirstDeriv 1 (HiggsRotation rsolver twoquarks v) 1 (physical rsolver csolver twoquarks v) 0)], (gradient csolver twoquarks 1 0 v). split; [|split].
    - unfold FirstDerivative, WeinbergFirstDerivative.
      assert (T : tachyon (physical rsolver csolver twoquarks v) = false).
      { unfold tachyon, physical. cbn [existsb gauge_sector higgs_sector quark_sector lepton_sector fermion_sector size mass2 twoquarks NHiggs NGauge NQuarks NLepton seq].
        pose proof (fun p P => proj1 (two_frame _ _ _ p at_one two_quark_frame P)) as E. unfold evs in E.
        pose proof (frame1 _ _ _ (rframeH rsolver csolver twoquarks SOLVE v)) as F. unfold cast in F. rewrite two_higgs in F. pose proof (f_equal fst F) as F1. cbn in F1.
        change (NHiggs twoquarks) with 1%nat in F1.
        assert (C1 : clip ZeroMass (nth 0 (fst (rsolver 1%nat (MassHiggs twoquarks v))) 0) = 1) by (rewrite F1; apply clip_mass; right; lra). rewrite C1.
        destruct (Rlt_dec 1 0); [lra|].
        destruct (Rlt_dec (nth 0 (fst (csolver 2%nat (MassQuark twoquarks v))) 0) 0) as [L|]; [destruct (E 0%nat ltac:(lia)) as [X|X]; lra|].
        destruct (Rlt_dec (nth 1 (fst (csolver 2%nat (MassQuark twoquarks v))) 0) 0) as [L|]; [destruct (E 1%nat ltac:(lia)) as [X|X]; lra|]. reflexivity. }
      rewrite T. reflexivity.
    - apply (potential_gradient rsolver csolver twoquarks DH DG 1 JIb JIf JNb JNf parwani SOLVE two_sym v 0 ltac:(cbn; lia) (two_smooth v) (clear_v rsolver csolver twoquarks SOLVE two_sym v two_good)).
    - cbn [nth]. rewrite two_program, two_gradient.
      assert (W : forall x, 1 <= x -> CWTerm 1 x C_CWcbFermion 1 = 1 / (32 * PI * PI) * x * (ln x - 1)).
      { intros x X. assert (CT : CW_threshold <= 1) by (unfold CW_threshold; lra). rewrite CWTerm1 by (rewrite Rabs_right; lra). rewrite Rabs_right by lra. rewrite ln_1. unfold C_CWcbFermion. pose proof PI_RGT_0. field. lra. }
      rewrite !W by lra. rewrite ln_1. unfold epsilon. pose proof PI_RGT_0 as P0. pose proof PI_4 as P4.
      assert (L : 1 < ln 4). { rewrite <- (ln_exp 1). apply ln_increasing; [apply exp_pos|]. pose proof exp_le_3. lra. }
      set (e := 1 / (16 * PI * PI)). assert (E0 : 1 / 256 <= e).
      { unfold e. apply Rmult_le_reg_r with (16 * PI * PI); [nra|]. replace (1 / (16 * PI * PI) * (16 * PI * PI)) with 1 by (field; lra). nra. }
      replace (1 / (32 * PI * PI)) with (e / 2) by (unfold e; field; lra).
      set (x := e * (-3 * (5 / 2 * (4 * (ln 4 - 1) - 1)))). set (d := -6 * (2 * (e / 2 * 1 * (0 - 1)) + 8 * (e / 2 * 4 * (ln 4 - 1)))).
      assert (A : x - d = e * (66 * ln 4 - 64.5)) by (unfold x, d; clearbody e; lra).
      assert (B : 1 / 256 * 1.5 <= e * (66 * ln 4 - 64.5)) by (apply Rmult_le_compat; lra).
      assert (C : Rabs (clip NumZero x - x) <= / 10 ^ 10). { unfold clip, NumZero. destruct (Rlt_dec (Rabs x) (/ 10 ^ 10)); [rewrite Rminus_0_l, Rabs_Ropp; lra|rewrite Rminus_eq_0, Rabs_R0; left; apply Rinv_0_lt_compat, pow_lt; lra]. }
      apply Rabs_le_between in C. assert (T : / 10 ^ 10 <= 1 / 10000) by lra. eapply Rlt_le_trans; [|apply Rle_abs]. lra.
  Qed.
End Refuted.
