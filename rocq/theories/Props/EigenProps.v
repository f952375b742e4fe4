(** C119: squared masses and their derivatives. *)
From Coq Require Import Reals List Lra Lia ZArith.
From Coquelicot Require Import Coquelicot.
From Verif Require Import Model.Base Model.OneLoop Model.EigenDeriv Spec.EigenSpec Proofs.DerivLib Proofs.EigenProofs Proofs.EigenBranch Proofs.EigenExamples.
Import ListNotations.
Open Scope R_scope.

(** A matrix that is not square is reported; otherwise n eigenvalues and n
    derivatives are returned. *)
Theorem C119_shape : forall solver rows cols M D,
  (rows <> cols -> FirstDerivativeOfEigenvalues solver rows cols M D = Throw RuntimeError) /\
  (rows = cols -> exists r, FirstDerivativeOfEigenvalues solver rows cols M D = Ok r /\ length r = (2 * rows)%nat).
Proof.
  intros solver rows cols M D. unfold FirstDerivativeOfEigenvalues. split; intro H.
  - destruct (Nat.eqb_spec cols rows); [congruence|reflexivity].
  - destruct (Nat.eqb_spec cols rows); [|congruence]. eexists. split; [reflexivity|apply returned_length].
Qed.

(** For an eigenvalue that differs from the others by more than 1e-6: the
    returned numbers are the eigenvalue and the derivative of its branch
    (0 for numbers below 1e-6). *)
Theorem C119_isolated : forall solver n Mf D lam x t lam' x' p r,
  diagonalises n (Mf t) (solver n (Mf t)) -> hermitian n (Mf t) -> (p < n)%nat ->
  branch n Mf lam x t lam' x' ->
  (forall a b, (a < n)%nat -> (b < n)%nat -> has_derivative (fun s => Mf s a b) t (D a b)) ->
  lam t = nth p (fst (solver n (Mf t))) 0 ->
  FirstDerivativeOfEigenvalues solver n n (Mf t) D = Ok r ->
  (forall j, (j < n)%nat -> j <> p -> / 10 ^ 6 < Rabs (nth p r 0 - nth j r 0)) ->
  cut_of (lam t) (nth p r 0) /\ cut_of lam' (nth (n + p) r 0).
Proof.
  intros solver n Mf D lam x t lam' x' p r DG H P B DM L E A. unfold FirstDerivativeOfEigenvalues in E. rewrite Nat.eqb_refl in E.
  assert (r = eigen_derivatives solver n (Mf t) D) by congruence. subst r. apply (isolated_derivative solver n Mf D lam x t lam' x' p); assumption.
Qed.

(** Sums over the spectrum with weights that agree on eigenvalues within 1e-6
    of each other (as for functions of exactly degenerate eigenvalues) are right
    up to the cut, with degeneracies. *)
Theorem C119_sums : forall solver n M D w,
  diagonalises n M (solver n M) ->
  (forall p k A, (p + k <= n)%nat -> (1 < k)%nat ->
     (forall a b, (a < k)%nat -> (b < k)%nat -> A a b = totalC n (fun c => totalC n (fun d => Cmult (Cmult (Cconj (snd (solver n M) c (p + a)%nat)) (D c d)) (snd (solver n M) d (p + b)%nat)))) ->
     diagonalises k A (solver k A)) ->
  let r := eigen_derivatives solver n M D in
  (forall i j, (i < n)%nat -> (j < n)%nat -> Rabs (nth i r 0 - nth j r 0) <= / 10 ^ 6 -> w i = w j) ->
  Rabs (totalR n (fun i => w i * nth (n + i) r 0)
        - totalR n (fun i => w i * fst (totalC n (fun c => totalC n (fun d => Cmult (Cmult (Cconj (snd (solver n M) c i)) (D c d)) (snd (solver n M) d i))))))
    <= / 10 ^ 6 * totalR n (fun i => Rabs (w i)).
Proof. exact weighted_sum. Qed.
(** In particular the derivatives add up to the trace. *)
Theorem C119_trace : forall solver n M D,
  diagonalises n M (solver n M) ->
  (forall p k A, (p + k <= n)%nat -> (1 < k)%nat ->
     (forall a b, (a < k)%nat -> (b < k)%nat -> A a b = totalC n (fun c => totalC n (fun d => Cmult (Cmult (Cconj (snd (solver n M) c (p + a)%nat)) (D c d)) (snd (solver n M) d (p + b)%nat)))) ->
     diagonalises k A (solver k A)) ->
  let r := eigen_derivatives solver n M D in
  Rabs (totalR n (fun i => nth (n + i) r 0) - fst (totalC n (fun a => D a a))) <= / 10 ^ 6 * INR n.
Proof. exact total_derivative. Qed.

Example C119_nonvacuous_sums : let M := diag2 1 (1 + / 10 ^ 7) in
  diagonalises 2 M (solver2 2 M) /\
  (forall p k A, (p + k <= 2)%nat -> (1 < k)%nat ->
     (forall a b, (a < k)%nat -> (b < k)%nat -> A a b = totalC 2 (fun c => totalC 2 (fun d => Cmult (Cmult (Cconj (snd (solver2 2 M) c (p + a)%nat)) (diag2 1 0 c d)) (snd (solver2 2 M) d (p + b)%nat)))) ->
     diagonalises k A (solver2 k A)).
Proof. split; [exact diag2_first|exact solver2_blocks]. Qed.

(** Of different eigenvalues within 1e-6 the derivatives can be exchanged: the
    eigenvalue 1 + s of diag(1 + s, 1 + 1e-7) has derivative 1, 0 is returned. *)
Theorem C119_close_refuted : exists solver Mf D lam x x' r,
  diagonalises 2 (Mf 0) (solver 2%nat (Mf 0)) /\ hermitian 2 (Mf 0) /\
  (forall p k A, (p + k <= 2)%nat -> (1 < k)%nat ->
     (forall a b, (a < k)%nat -> (b < k)%nat -> A a b = totalC 2 (fun c => totalC 2 (fun d => Cmult (Cmult (Cconj (snd (solver 2%nat (Mf 0)) c (p + a)%nat)) (D c d)) (snd (solver 2%nat (Mf 0)) d (p + b)%nat)))) ->
     diagonalises k A (solver k A)) /\
  branch 2 Mf lam x 0 1 x' /\
  (forall a b, (a < 2)%nat -> (b < 2)%nat -> has_derivative (fun s => Mf s a b) 0 (D a b)) /\
  lam 0 = nth 0 (fst (solver 2%nat (Mf 0))) 0 /\ (forall q, (q < 2)%nat -> q <> 0%nat -> nth q (fst (solver 2%nat (Mf 0))) 0 <> lam 0) /\
  FirstDerivativeOfEigenvalues solver 2 2 (Mf 0) D = Ok r /\ nth 2 r 0 = 0.
Proof.
  pose proof small as S. exists solver2, (fun s => diag2 (1 + s) (1 + / 10 ^ 7)), (diag2 1 0), (fun s => 1 + s), (fun _ a => if Nat.eqb a 0 then RtoC 1 else RtoC 0), (fun _ => RtoC 0), (eigen_derivatives solver2 2 (diag2 1 (1 + / 10 ^ 7)) (diag2 1 0)).
  rewrite Rplus_0_r. split; [exact diag2_first|]. split.
  { intros a b A B. unfold diag2. rewrite (Nat.eqb_sym b a). destruct (Nat.eqb_spec a b) as [->|]; rewrite Cconj_R; reflexivity. }
  split; [exact solver2_blocks|]. split; [exact branch2|]. split.
  { intros a b A B. unfold diag2. destruct (Nat.eqb a b); [|apply hd_const]. apply hd_real. destruct (Nat.eqb a 0); [eapply dl_eq; [apply dl_plus; [apply dl_const|apply dl_id]|ring]|apply dl_const]. }
  assert (SV : fst (solver2 2 (diag2 1 (1 + / 10 ^ 7))) = [1; 1 + / 10 ^ 7]).
  { unfold solver2. cbn [diag2 Nat.eqb fst RtoC]. destruct (Req_EM_T (1 + / 10 ^ 7) 0); [lra|reflexivity]. }
  rewrite SV. split; [reflexivity|]. split; [|split; [reflexivity|exact swapped]].
  intros q Q N. assert (q = 1%nat) by lia. subst q. cbn [nth]. lra.
Qed.

(** Gauge bosons: masses and derivatives with respect to a field and to the
    temperature. *)
Theorem C119_gauge : forall solver NG N G Deb v T k lam x lam' x' p, (k < N)%nat -> (p < NG)%nat ->
  (forall a b c d, G a b c d = G b a c d) -> (forall a b c d, G a b c d = G a b d c) ->
  let Mf t := cast (GaugeMassMatrix N G Deb (entry_set v k t) T) in
  diagonalises NG (Mf (v k)) (solver NG (Mf (v k))) ->
  branch NG Mf lam x (v k) lam' x' -> lam (v k) = nth p (fst (solver NG (Mf (v k)))) 0 ->
  let r := GaugeMassesSquared solver NG N G Deb v T (Z.of_nat k + 1) in
  (forall j, (j < NG)%nat -> j <> p -> / 10 ^ 6 < Rabs (nth p r 0 - nth j r 0)) ->
  cut_of (lam (v k)) (nth p r 0) /\ cut_of lam' (nth (NG + p) r 0).
Proof. exact gauge_routine. Qed.
Theorem C119_gauge_temperature : forall solver NG N G Deb v T lam x lam' x' p, (p < NG)%nat -> (forall a b, Deb a b = Deb b a) ->
  let Mf t := cast (GaugeMassMatrix N G Deb v t) in
  diagonalises NG (Mf T) (solver NG (Mf T)) ->
  branch NG Mf lam x T lam' x' -> lam T = nth p (fst (solver NG (Mf T))) 0 ->
  let r := GaugeMassesSquared solver NG N G Deb v T (-1) in
  (forall j, (j < NG)%nat -> j <> p -> / 10 ^ 6 < Rabs (nth p r 0 - nth j r 0)) ->
  cut_of (lam T) (nth p r 0) /\ cut_of lam' (nth (NG + p) r 0).
Proof. exact gauge_routine_temperature. Qed.
(** Quarks and leptons. *)
Theorem C119_fermions : forall solver NF N F2 F v k lam x lam' x' p, (k < N)%nat -> (p < NF)%nat ->
  (forall a b, F2 a b = F2 b a) -> (forall a b c, F a b c = F b a c) ->
  let Mf t := FermionMassMatrix NF N F2 F (entry_set v k t) in
  diagonalises NF (Mf (v k)) (solver NF (Mf (v k))) ->
  branch NF Mf lam x (v k) lam' x' -> lam (v k) = nth p (fst (solver NF (Mf (v k)))) 0 ->
  let r := FermionMassesSquared solver NF N F2 F v (Z.of_nat k + 1) in
  (forall j, (j < NF)%nat -> j <> p -> / 10 ^ 6 < Rabs (nth p r 0 - nth j r 0)) ->
  cut_of (lam (v k)) (nth p r 0) /\ cut_of lam' (nth (NF + p) r 0).
Proof. exact fermion_routine. Qed.

Example C119_nonvacuous_gauge :
  let Mf t := cast (GaugeMassMatrix 1 (fun _ _ _ _ => 2) (fun _ _ => 0) (entry_set (fun _ => 3) 0 t) 0) in
  diagonalises 1 (Mf 3) (solver1 1 (Mf 3)) /\ branch 1 Mf (fun t => t ^ 2) (fun _ _ => RtoC 1) 3 6 (fun _ => RtoC 0) /\
  3 ^ 2 = nth 0 (fst (solver1 1 (Mf 3))) 0.
Proof.
  intro Mf. assert (E : forall s, Mf s 0%nat 0%nat = RtoC (s ^ 2)).
  { intro s. unfold Mf, cast. f_equal. rewrite gauge_matrix_form. cbn [rsum]. unfold entry_set. cbn [Nat.eqb]. field. }
  split; [apply diag1; rewrite E; reflexivity|]. split.
  - apply branch1; [exact E|]. eapply dl_eq; [apply (dl_pow (fun s => s) 2 3 1 (dl_id 3))|]. cbn. ring.
  - unfold solver1. cbn [fst nth]. rewrite E. reflexivity.
Qed.

(** Higgs bosons: with diff <> 0 the mass matrix is replaced by its derivative
    before it is diagonalised.  The returned masses do not depend on the mass
    parameters at all, and for diff = -1 neither on the couplings nor on the
    fields; each derivative equals the "mass" beside it. *)
Theorem C119_higgs_parameters : forall solver N L2 L2' L3 L4 Deb v T diff, diff <> 0%Z ->
  HiggsMassesSquared solver N L2 L3 L4 Deb v T diff = HiggsMassesSquared solver N L2' L3 L4 Deb v T diff.
Proof. exact higgs_no_L2. Qed.
Theorem C119_higgs_fields : forall solver N L2 L2' L3 L3' L4 L4' Deb v v' T,
  HiggsMassesSquared solver N L2 L3 L4 Deb v T (-1) = HiggsMassesSquared solver N L2' L3' L4' Deb v' T (-1).
Proof. exact higgs_temperature. Qed.
Theorem C119_higgs_twice : forall solver N L2 L3 L4 Deb v T diff p,
  (0 < diff <= Z.of_nat N)%Z \/ diff = (-1)%Z ->
  diagonalises N (cast (HiggsMassMatrix N L2 L3 L4 Deb v T diff)) (solver N (cast (HiggsMassMatrix N L2 L3 L4 Deb v T diff))) -> (p < N)%nat ->
  let r := HiggsMassesSquared solver N L2 L3 L4 Deb v T diff in
  (forall j, (j < N)%nat -> j <> p -> / 10 ^ 6 < Rabs (nth p r 0 - nth j r 0)) ->
  nth (N + p) r 0 = nth p r 0.
Proof. exact higgs_twice. Qed.
(** One field with V'' = -1 + 3 v^2 at v = 2: the mass is 11, its derivative 12;
    12 and 12 are returned. *)
Theorem C119_higgs_refuted : exists solver L2 L3 L4 Deb v lam x x',
  let Mf t := cast (HiggsMassMatrix 1 L2 L3 L4 Deb (entry_set v 0 t) 0 0) in
  diagonalises 1 (Mf (v 0%nat)) (solver 1%nat (Mf (v 0%nat))) /\ branch 1 Mf lam x (v 0%nat) 12 x' /\ lam (v 0%nat) = 11 /\
  HiggsMassesSquared solver 1 L2 L3 L4 Deb v 0 0 = [11] /\ HiggsMassesSquared solver 1 L2 L3 L4 Deb v 0 1 = [12; 12].
Proof.
  exists solver1, (fun _ _ => -1), (fun _ _ _ => 0), (fun _ _ _ _ => 6), (fun _ _ => 0), (fun _ => 2), (fun t => -1 + 3 * t ^ 2), (fun _ _ => RtoC 1), (fun _ => RtoC 0). intro Mf.
  assert (E : forall s, Mf s 0%nat 0%nat = RtoC (-1 + 3 * s ^ 2)).
  { intro s. unfold Mf, cast. f_equal. rewrite higgs_matrix_form. cbn [rsum]. unfold entry_set. cbn [Nat.eqb]. field. }
  assert (TH : / 10 ^ 6 < 1) by (rewrite <- Rinv_1; apply Rinv_lt_contravar; lra).
  split; [apply diag1; rewrite E; reflexivity|]. split.
  { apply branch1; [exact E|]. eapply dl_eq; [apply dl_plus; [apply dl_const|apply (dl_mult (fun _ => 3) (fun s => s ^ 2) 2 0 (INR 2 * 2 ^ 1 * 1)); [apply dl_const|apply (dl_pow (fun s => s) 2 2 1 (dl_id 2))]]|]. cbn. ring. }
  split; [ring|]. split.
  - unfold HiggsMassesSquared. cbn [Z.eqb]. unfold masses. cbn [seq map]. unfold solver1. cbn [fst nth]. unfold cast. rewrite higgs_matrix_form. cbn [rsum RtoC fst].
    replace (-1 + (0 + 0 * 2 + (0 + (0 + 1 / 2 * 6 * 2 * 2))) + 0 * 0 ^ 2) with 11 by field. rewrite Rabs_pos_eq by lra.
    assert (/ 10 ^ 5 < 11) by (apply (Rlt_trans _ (/ 1)); [apply Rinv_lt_contravar; lra|lra]). destruct (Rlt_dec 11 (/ 10 ^ 5)); [lra|reflexivity].
  - rewrite higgs_one.
    + unfold clipped, threshold. replace (0 + 6 * 2) with 12 by ring. rewrite Rabs_pos_eq by lra. destruct (Rlt_dec 12 (/ 10 ^ 6)); [lra|reflexivity].
    + apply diag1. reflexivity.
Qed.
Example C119_nonvacuous_higgs : diagonalises 1 (cast (HiggsMassMatrix 1 (fun _ _ => -1) (fun _ _ _ => 0) (fun _ _ _ _ => 6) (fun _ _ => 0) (fun _ => 2) 0 1))
  (solver1 1 (cast (HiggsMassMatrix 1 (fun _ _ => -1) (fun _ _ _ => 0) (fun _ _ _ _ => 6) (fun _ _ => 0) (fun _ => 2) 0 1))).
Proof. apply diag1. reflexivity. Qed.
(** The matrix Diff itself is the derivative of the mass matrix. *)
Theorem C119_higgs_diff_partial : forall N L2 L3 L4 Deb v T k i j, (k < N)%nat ->
  (forall a b c, L3 a b c = L3 b a c) -> (forall a b c d, L4 a b c d = L4 b a c d) -> (forall a b c d, L4 a b c d = L4 a b d c) -> (forall a b, Deb a b = Deb b a) ->
  derivable_pt_lim (fun t => HiggsMassMatrix N L2 L3 L4 Deb (entry_set v k t) T 0 i j) (v k) (HiggsDiff N L3 L4 Deb v T (Z.of_nat k + 1) i j) /\
  derivable_pt_lim (fun s => HiggsMassMatrix N L2 L3 L4 Deb v s 0 i j) T (HiggsDiff N L3 L4 Deb v T (-1) i j).
Proof. intros. split; [apply higgs_diff_field; assumption|apply higgs_diff_temperature; assumption]. Qed.

(** Consequence for the temperature derivative of the potential: two points with
    the same gauge and fermion masses have the same one-loop part, whatever their
    Higgs masses are. *)
Theorem C119_potential_temperature : forall solver N L2 L3 L4 Deb v v' T scale JIb JIf JNb JNf parwani g g0 q l dg dg0,
  let h w T := HiggsMassesSquared solver N L2 L3 L4 Deb w T (-1) in
  let m w := mkSpectrum (firstn N (h w T)) g (firstn N (h w 0)) g0 q l in
  let d w := mkSpectrum (skipn N (h w T)) dg (skipn N (h w 0)) dg0 [] [] in
  V1Loop scale JIb JIf JNb JNf N parwani (m v) (d v) T (-1) = V1Loop scale JIb JIf JNb JNf N parwani (m v') (d v') T (-1).
Proof. reflexivity. Qed.

(** Squared fermion masses between 1e-10 and 1e-6, such as that of the electron,
    are returned for diff = 0 but are 0 beside their derivatives. *)
Theorem C119_light_fermions : forall solver (y : R) (v : nat -> R), 
  let F := fun _ _ _ : nat => RtoC y in let F2 := fun _ _ : nat => RtoC 0 in
  diagonalises 1 (FermionMassMatrix 1 1 F2 F v) (solver 1%nat (FermionMassMatrix 1 1 F2 F v)) ->
  / 10 ^ 10 <= (y * v 0%nat) ^ 2 < / 10 ^ 6 ->
  FermionMassesSquared solver 1 1 F2 F v 0 = [(y * v 0%nat) ^ 2] /\ nth 0 (FermionMassesSquared solver 1 1 F2 F v 1) 0 = 0.
Proof.
  intros solver y v F F2 DG H. destruct (one_by_one _ _ DG) as [E _].
  assert (X : FermionMassMatrix 1 1 F2 F v 0%nat 0%nat = RtoC ((y * v 0%nat) ^ 2)).
  { unfold FermionMassMatrix, MIJ, F, F2. cbn [csum]. unfold Cplus, Cmult, Cconj, RtoC. cbn. f_equal; ring. }
  rewrite X in E. cbn [fst RtoC] in E. assert (0 <= (y * v 0%nat) ^ 2) by apply pow2_ge_0. split.
  - unfold FermionMassesSquared. cbn [Z.leb Z.compare]. unfold masses. cbn [seq map]. rewrite E. cbn [nth]. rewrite Rabs_pos_eq by assumption. destruct (Rlt_dec ((y * v 0%nat) ^ 2) (/ 10 ^ 10)); [lra|reflexivity].
  - unfold FermionMassesSquared. cbn [Z.leb Z.compare Z.of_nat Pos.of_succ_nat Pos.compare Pos.compare_cont]. rewrite returned_value by lia. unfold eigenvalue. rewrite E. cbn [nth]. unfold clipped, threshold.
    rewrite Rabs_pos_eq by assumption. destruct (Rlt_dec ((y * v 0%nat) ^ 2) (/ 10 ^ 6)); [reflexivity|lra].
Qed.
Example C119_nonvacuous_light : let F := fun _ _ _ : nat => RtoC 1 in let F2 := fun _ _ : nat => RtoC 0 in
  diagonalises 1 (FermionMassMatrix 1 1 F2 F (fun _ => 511 / 10 ^ 6)) (solver1 1 (FermionMassMatrix 1 1 F2 F (fun _ => 511 / 10 ^ 6))) /\
  / 10 ^ 10 <= (1 * (511 / 10 ^ 6)) ^ 2 < / 10 ^ 6.
Proof.
  split; [apply diag1; unfold FermionMassMatrix, MIJ; cbn [csum]; unfold Cplus, Cmult, Cconj, RtoC; cbn [fst snd]; f_equal; ring|].
  replace ((1 * (511 / 10 ^ 6)) ^ 2) with (261121 * / 10 ^ 12) by field. split; (apply (Rmult_le_reg_r (10 ^ 12)) || apply (Rmult_lt_reg_r (10 ^ 12))); try (apply pow_lt; lra); field_simplify; lra.
Qed.

Print Assumptions C119_shape.
Print Assumptions C119_isolated.
Print Assumptions C119_sums.
Print Assumptions C119_trace.
Print Assumptions C119_close_refuted.
Print Assumptions C119_gauge.
Print Assumptions C119_gauge_temperature.
Print Assumptions C119_fermions.
Print Assumptions C119_higgs_parameters.
Print Assumptions C119_higgs_fields.
Print Assumptions C119_higgs_twice.
Print Assumptions C119_higgs_refuted.
Print Assumptions C119_higgs_diff_partial.
Print Assumptions C119_potential_temperature.
Print Assumptions C119_light_fermions.
