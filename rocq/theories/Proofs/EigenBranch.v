(** Derivatives of eigenvalue branches and of the mass matrices. *)
From Coq Require Import Reals List Lra Lia ZArith FunctionalExtensionality.
From Coquelicot Require Import Coquelicot.
From Verif Require Import Model.Base Model.EigenDeriv Spec.EigenSpec Proofs.DerivLib Proofs.EigenProofs.
Import ListNotations.
Open Scope R_scope.

(** * complex derivatives *)
Lemma hd_const : forall z t, has_derivative (fun _ => z) t (RtoC 0).
Proof. intros z t. split; apply dl_const. Qed.
Lemma hd_plus : forall f g t a b, has_derivative f t a -> has_derivative g t b -> has_derivative (fun s => Cplus (f s) (g s)) t (Cplus a b).
Proof. intros f g t a b [F1 F2] [G1 G2]. split; cbn; apply dl_plus; assumption. Qed.
Lemma hd_conj : forall f t a, has_derivative f t a -> has_derivative (fun s => Cconj (f s)) t (Cconj a).
Proof. intros f t a [F1 F2]. split; cbn; [exact F1|apply dl_opp; exact F2]. Qed.
Lemma hd_mult : forall f g t a b, has_derivative f t a -> has_derivative g t b ->
  has_derivative (fun s => Cmult (f s) (g s)) t (Cplus (Cmult a (g t)) (Cmult (f t) b)).
Proof.
  intros f g t a b [F1 F2] [G1 G2]. split; cbn.
  - eapply dl_eq; [apply dl_minus; apply dl_mult; eassumption|]. cbn. ring.
  - eapply dl_eq; [apply dl_plus; apply dl_mult; eassumption|]. cbn. ring.
Qed.
Lemma hd_eq : forall f t a b, has_derivative f t a -> a = b -> has_derivative f t b.
Proof. intros f t a b H <-. exact H. Qed.
Lemma hd_ext : forall f g t a, (forall s, f s = g s) -> has_derivative f t a -> has_derivative g t a.
Proof. intros f g t a E [F1 F2]. split; eapply dl_ext; try eassumption; intro s; cbn; rewrite E; reflexivity. Qed.
Lemma hd_csum : forall n f t a, (forall i, (i < n)%nat -> has_derivative (fun s => f s i) t (a i)) -> has_derivative (fun s => csum n (f s)) t (csum n a).
Proof.
  induction n as [|n IH]; intros f t a H; cbn [csum]; [apply hd_const|]. apply (hd_plus (fun s => csum n (f s)) (fun s => f s n)); [apply IH; intros; apply H; lia|apply H; lia].
Qed.
Lemma hd_unique : forall f t a b, has_derivative f t a -> has_derivative f t b -> a = b.
Proof.
  intros f t [a1 a2] [b1 b2] [A1 A2] [B1 B2]. cbn in *. f_equal; eapply uniqueness_limite; eassumption.
Qed.
Lemma hd_real : forall f t a, dl f t a -> has_derivative (fun s => RtoC (f s)) t (RtoC a).
Proof. intros f t a F. split; cbn; [exact F|apply dl_const]. Qed.

(** * the derivative of an eigenvalue *)
Section Branch.
  Variables (n : nat) (Mf : R -> cmat) (D : cmat) (lam : R -> R) (x : R -> nat -> C) (t lam' : R) (x' : nat -> C).
  Hypothesis B : branch n Mf lam x t lam' x'.
  Hypothesis DM : forall a b, (a < n)%nat -> (b < n)%nat -> has_derivative (fun s => Mf s a b) t (D a b).
  Hypothesis H : hermitian n (Mf t).
  Lemma hellmann_feynman : RtoC lam' = sandwich n D (x t) (x t).
  Proof using B DM H.
    destruct B as [DL [DX [EX UX]]].
    assert (F : has_derivative (fun s => sandwich n (Mf s) (x s) (x s)) t
      (csum n (fun a => csum n (fun b => Cplus (Cplus (Cmult (Cmult (Cconj (x' a)) (Mf t a b)) (x t b)) (Cmult (Cmult (Cconj (x t a)) (D a b)) (x t b)))
         (Cmult (Cmult (Cconj (x t a)) (Mf t a b)) (x' b)))))).
    { unfold sandwich. apply (hd_csum n (fun s a => csum n (fun b => Cmult (Cmult (Cconj (x s a)) (Mf s a b)) (x s b)))). intros a A.
      apply (hd_csum n (fun s b => Cmult (Cmult (Cconj (x s a)) (Mf s a b)) (x s b))). intros b Bb.
      eapply hd_eq; [apply (hd_mult (fun s => Cmult (Cconj (x s a)) (Mf s a b)) (fun s => x s b)); [apply (hd_mult (fun s => Cconj (x s a)) (fun s => Mf s a b)); [apply hd_conj, DX; exact A|apply DM; assumption]|apply DX; exact Bb]|]. ring. }
    assert (G : has_derivative (fun s => sandwich n (Mf s) (x s) (x s)) t (RtoC lam')).
    { eapply hd_ext; [|apply (hd_real lam t lam' DL)]. intro s. cbn beta. rewrite (sandwich_eigen n (Mf s) (x s) (x s) (RtoC (lam s))).
      - unfold inner. rewrite <- totalC_ok, UX. ring.
      - intros a A. rewrite <- totalC_ok. apply EX. exact A. }
    rewrite (hd_unique _ _ _ _ G F).
    assert (U : Cplus (inner n x' (x t)) (inner n (x t) x') = RtoC 0).
    { assert (U1 : has_derivative (fun s => inner n (x s) (x s)) t (csum n (fun a => Cplus (Cmult (Cconj (x' a)) (x t a)) (Cmult (Cconj (x t a)) (x' a))))).
      { unfold inner. apply (hd_csum n (fun s a => Cmult (Cconj (x s a)) (x s a))). intros a A. apply (hd_mult (fun s => Cconj (x s a)) (fun s => x s a)); [apply hd_conj, DX; exact A|apply DX; exact A]. }
      rewrite csum_plus in U1. apply (hd_unique _ _ _ _ U1). eapply hd_ext; [|apply (hd_const (RtoC 1))]. intro s. cbn beta. unfold inner. rewrite <- totalC_ok, UX. reflexivity. }
    rewrite (csum_ext n _ (fun a => Cplus (Cplus (csum n (fun b => Cmult (Cmult (Cconj (x' a)) (Mf t a b)) (x t b))) (csum n (fun b => Cmult (Cmult (Cconj (x t a)) (D a b)) (x t b)))) (csum n (fun b => Cmult (Cmult (Cconj (x t a)) (Mf t a b)) (x' b))))) by (intros; rewrite <- !csum_plus; reflexivity).
    rewrite !csum_plus.
    change (Cplus (Cplus (sandwich n (Mf t) x' (x t)) (sandwich n D (x t) (x t))) (sandwich n (Mf t) (x t) x') = sandwich n D (x t) (x t)).
    assert (E : forall a, (a < n)%nat -> csum n (fun b => Cmult (Mf t a b) (x t b)) = Cmult (RtoC (lam t)) (x t a)) by (intros a A; rewrite <- totalC_ok; apply EX; exact A).
    rewrite (sandwich_eigen n (Mf t) x' (x t) (RtoC (lam t)) E). rewrite (sandwich_eigen_left n (Mf t) (x t) x' (lam t) H E).
    transitivity (Cplus (Cmult (RtoC (lam t)) (Cplus (inner n x' (x t)) (inner n (x t) x'))) (sandwich n D (x t) (x t))); [ring|]. rewrite U. ring.
  Qed.
End Branch.

(** a unit eigenvector of an isolated eigenvalue is the computed one up to a phase *)
Lemma eigenvector_phase : forall n M dec l x p D, diagonalises n M dec -> hermitian n M -> (p < n)%nat ->
  (forall q, (q < n)%nat -> q <> p -> nth q (fst dec) 0 <> l) ->
  (forall a, (a < n)%nat -> totalC n (fun b => Cmult (M a b) (x b)) = Cmult (RtoC l) (x a)) ->
  totalC n (fun a => Cmult (Cconj (x a)) (x a)) = RtoC 1 ->
  sandwich n D x x = sandwich n D (fun a => snd dec a p) (fun a => snd dec a p).
Proof.
  intros n M dec l x p D [L [S [E [O K]]]] H P N EX UX. set (V := snd dec) in *.
  assert (Z : forall q, (q < n)%nat -> q <> p -> inner n (fun a => V a q) x = RtoC 0).
  { intros q Q NQ.
    pose proof (sandwich_eigen n M (fun a => V a q) x (RtoC l) ltac:(intros a A; rewrite <- totalC_ok; apply EX; exact A)) as S1.
    pose proof (sandwich_eigen_left n M (fun a => V a q) x (nth q (fst dec) 0) H ltac:(intros a A; rewrite <- totalC_ok; apply E; assumption)) as S2.
    rewrite S1 in S2. set (c := inner n (fun a => V a q) x) in *. specialize (N q Q NQ).
    assert (W : Cmult (RtoC (l - nth q (fst dec) 0)) c = RtoC 0) by (rewrite RtoC_minus; transitivity (Cminus (Cmult (RtoC l) c) (Cmult (RtoC (nth q (fst dec) 0)) c)); [ring|rewrite S2; ring]).
    destruct c as [c1 c2]. unfold Cmult, RtoC in W. cbn in W. pose proof (f_equal fst W) as W1. pose proof (f_equal snd W) as W2. cbn in W1, W2.
    assert (l - nth q (fst dec) 0 <> 0) by lra. unfold RtoC. f_equal; apply (Rmult_eq_reg_l (l - nth q (fst dec) 0)); lra. }
  set (c := inner n (fun a => V a p) x).
  assert (X : forall a, (a < n)%nat -> x a = Cmult c (V a p)).
  { intros a A. rewrite (expansion n V K x a A). rewrite (csum_ext n _ (fun q => Cmult (delta p q) (Cmult c (V a q)))).
    - rewrite (csum_delta n p (fun q => Cmult c (V a q)) P). reflexivity.
    - intros q Q. unfold delta. destruct (Nat.eqb_spec p q) as [<-|NQ]; [fold c; ring|]. rewrite (Z q Q) by congruence. ring. }
  rewrite (sandwich_ext n D x (fun a => Cmult c (V a p)) x (fun a => Cmult c (V a p)) X X). rewrite sandwich_scaled.
  assert (U : Cmult (Cconj c) c = RtoC 1).
  { rewrite <- UX, totalC_ok. rewrite (csum_ext n _ (fun a => Cmult (Cmult (Cconj c) c) (Cmult (Cconj (V a p)) (V a p)))).
    - rewrite csum_scal, <- totalC_ok, (O p p P P). unfold delta. rewrite Nat.eqb_refl. ring.
    - intros a A. rewrite (X a A), Cconj_mult'. ring. }
  rewrite U. ring.
Qed.

(** * what is returned *)
Lemma returned_value : forall solver n M D i, (i < n)%nat -> nth i (eigen_derivatives solver n M D) 0 = eigenvalue solver n M i.
Proof.
  intros solver n M D i I. unfold eigen_derivatives. rewrite app_nth1 by (rewrite map_length, seq_length; exact I).
  rewrite (nth_indep _ 0 (eigenvalue solver n M 0%nat)) by (rewrite map_length, seq_length; exact I). rewrite map_nth, seq_nth by exact I. reflexivity.
Qed.
Lemma returned_derivative : forall solver n M D i, (i < n)%nat -> nth (n + i) (eigen_derivatives solver n M D) 0 = derivative solver n M D i.
Proof.
  intros solver n M D i I. unfold eigen_derivatives. rewrite app_nth2 by (rewrite map_length, seq_length; lia). rewrite map_length, seq_length.
  replace (n + i - n)%nat with i by lia. rewrite (nth_indep _ 0 (derivative solver n M D 0%nat)) by (rewrite map_length, seq_length; exact I).
  rewrite map_nth, seq_nth by exact I. reflexivity.
Qed.
Lemma returned_length : forall solver n M D, length (eigen_derivatives solver n M D) = (2 * n)%nat.
Proof. intros. unfold eigen_derivatives. rewrite app_length, !map_length, !seq_length. lia. Qed.
Lemma cut_clipped : forall x, cut_of x (clipped x).
Proof. intro x. unfold cut_of, clipped, threshold. destruct (Rlt_dec (Rabs x) (/ 10 ^ 6)); [left; split; [assumption|reflexivity]|right; split; [lra|reflexivity]]. Qed.
Lemma derivative_real : forall solver n M D i z, derivatives solver n M D i = Some (RtoC z) -> derivative solver n M D i = clipped z.
Proof. intros solver n M D i z H. unfold derivative, clipped. rewrite H. rewrite Cmod_R. cbn. destruct (Rlt_dec (Rabs z) threshold); reflexivity. Qed.
Lemma clipped_differ : forall a b, threshold < Rabs (clipped a - clipped b) -> a <> b.
Proof. intros a b H ->. rewrite Rminus_eq_0, Rabs_R0 in H. pose proof threshold_pos. lra. Qed.
Lemma alone_same : forall solver n M D p, (p < n)%nat ->
  (forall j, (j < n)%nat -> j <> p -> / 10 ^ 6 < Rabs (nth p (eigen_derivatives solver n M D) 0 - nth j (eigen_derivatives solver n M D) 0)) ->
  forall j, (j < n)%nat -> j <> p -> same solver n M p j = false.
Proof.
  intros solver n M D p P A j J N. specialize (A j J N). rewrite !returned_value in A by assumption. unfold same. unfold threshold. destruct (Rlt_dec (/ 10 ^ 6) (Rabs (eigenvalue solver n M p - eigenvalue solver n M j))); [reflexivity|contradiction].
Qed.
Lemma isolated_derivative : forall solver n Mf D lam x t lam' x' p,
  diagonalises n (Mf t) (solver n (Mf t)) -> hermitian n (Mf t) -> (p < n)%nat ->
  branch n Mf lam x t lam' x' ->
  (forall a b, (a < n)%nat -> (b < n)%nat -> has_derivative (fun s => Mf s a b) t (D a b)) ->
  lam t = nth p (fst (solver n (Mf t))) 0 ->
  let r := eigen_derivatives solver n (Mf t) D in
  (forall j, (j < n)%nat -> j <> p -> / 10 ^ 6 < Rabs (nth p r 0 - nth j r 0)) ->
  cut_of (lam t) (nth p r 0) /\ cut_of lam' (nth (n + p) r 0).
Proof.
  intros solver n Mf D lam x t lam' x' p DG H P B DM L r A. unfold r. rewrite returned_value, returned_derivative by exact P.
  pose proof (alone_same solver n (Mf t) D p P A) as S. split; [rewrite L; apply cut_clipped|].
  pose proof (isolated_value solver n (Mf t) D p P S) as V.
  assert (Q : sandwich n D (column solver n (Mf t) p) (column solver n (Mf t) p) = RtoC lam').
  { rewrite (hellmann_feynman n Mf D lam x t lam' x' B DM H). destruct B as [_ [_ [EX UX]]]. symmetry.
    apply (eigenvector_phase n (Mf t) (solver n (Mf t)) (lam t) (x t) p D DG H P); [|intros a AA; apply EX; exact AA|apply UX].
    intros q Q N. rewrite L. apply clipped_differ. specialize (A q Q N). unfold r in A. rewrite !returned_value in A by assumption. unfold eigenvalue in A. rewrite Rabs_minus_sym. exact A. }
  rewrite Q in V. rewrite (derivative_real _ _ _ _ _ _ V). apply cut_clipped.
Qed.

Lemma rsum_ext : forall n f g, (forall i, (i < n)%nat -> f i = g i) -> rsum n f = rsum n g.
Proof. induction n as [|n IH]; intros f g H; [reflexivity|]. cbn [rsum]. rewrite (IH f g) by (intros; apply H; lia). rewrite H by lia. reflexivity. Qed.
Lemma csum_re : forall n f, fst (csum n f) = rsum n (fun i => fst (f i)).
Proof. induction n as [|n IH]; intro f; [reflexivity|]. cbn [csum rsum]. rewrite <- IH. reflexivity. Qed.
Lemma cut_near : forall z, Rabs ((if Rlt_dec (Cmod z) threshold then 0 else fst z) - fst z) <= threshold.
Proof.
  intro z. pose proof threshold_pos. destruct (Rlt_dec (Cmod z) threshold) as [X|X]; [|rewrite Rminus_eq_0, Rabs_R0; lra].
  rewrite Rminus_0_l, Rabs_Ropp. pose proof (Rmax_Cmod z) as Y. pose proof (Rmax_l (Rabs (fst z)) (Rabs (snd z))). lra.
Qed.
Lemma weighted_sum : forall solver n M D w,
  diagonalises n M (solver n M) ->
  (forall p k A, (p + k <= n)%nat -> (1 < k)%nat ->
     (forall a b, (a < k)%nat -> (b < k)%nat -> A a b = totalC n (fun c => totalC n (fun d => Cmult (Cmult (Cconj (snd (solver n M) c (p + a)%nat)) (D c d)) (snd (solver n M) d (p + b)%nat)))) ->
     diagonalises k A (solver k A)) ->
  let r := eigen_derivatives solver n M D in
  (forall i j, (i < n)%nat -> (j < n)%nat -> Rabs (nth i r 0 - nth j r 0) <= / 10 ^ 6 -> w i = w j) ->
  Rabs (totalR n (fun i => w i * nth (n + i) r 0)
        - totalR n (fun i => w i * fst (totalC n (fun c => totalC n (fun d => Cmult (Cmult (Cconj (snd (solver n M) c i)) (D c d)) (snd (solver n M) d i))))))
    <= / 10 ^ 6 * totalR n (fun i => Rabs (w i)).
Proof.
  intros solver n M D w DG BL r W. rewrite !totalR_ok.
  assert (SW : forall i j, totalC n (fun c => totalC n (fun d => Cmult (Cmult (Cconj (snd (solver n M) c i)) (D c d)) (snd (solver n M) d j))) = sandwich n D (column solver n M i) (column solver n M j)).
  { intros i j. rewrite totalC_ok. apply csum_ext. intros a A. rewrite totalC_ok. reflexivity. }
  destruct (all_values solver n M D DG) with (w := w) as [NN E].
  - intros p k L K MB. apply (BL p k); [exact L|exact K|]. intros a b A B. rewrite SW. unfold work. rewrite MB, !seq_nth by assumption. reflexivity.
  - intros i j I J T. apply W; [exact I|exact J|]. unfold r. rewrite !returned_value by assumption. unfold same, threshold in T.
    destruct (Rlt_dec (/ 10 ^ 6) (Rabs (eigenvalue solver n M i - eigenvalue solver n M j))); [discriminate|lra].
  - apply (f_equal fst) in E. rewrite !csum_re in E.
    assert (E2 : rsum n (fun i => w i * fst (value (derivatives solver n M D) i)) = rsum n (fun i => w i * fst (sandwich n D (column solver n M i) (column solver n M i)))).
    { etransitivity; [|etransitivity; [exact E|]]; apply rsum_ext; intros i I; unfold Cmult, RtoC; cbn [fst snd]; ring. }
    rewrite (rsum_ext n (fun i => w i * fst (totalC n _)) (fun i => w i * fst (sandwich n D (column solver n M i) (column solver n M i)))) by (intros i I; rewrite SW; reflexivity).
    rewrite <- E2. clear E E2 BL W SW.
    assert (G : forall k, (k <= n)%nat -> Rabs (rsum k (fun i => w i * nth (n + i) r 0) - rsum k (fun i => w i * fst (value (derivatives solver n M D) i))) <= / 10 ^ 6 * rsum k (fun i => Rabs (w i))).
    { induction k as [|k IH]; intro K; cbn [rsum]; [rewrite Rminus_eq_0, Rabs_R0; lra|]. specialize (IH ltac:(lia)).
      set (A := rsum k (fun i => w i * nth (n + i) r 0)) in *. set (B := rsum k (fun i => w i * fst (value (derivatives solver n M D) i))) in *.
      replace (A + w k * nth (n + k) r 0 - (B + w k * fst (value (derivatives solver n M D) k))) with (A - B + w k * (nth (n + k) r 0 - fst (value (derivatives solver n M D) k))) by ring.
      assert (T : Rabs (nth (n + k) r 0 - fst (value (derivatives solver n M D) k)) <= / 10 ^ 6).
      { unfold r. rewrite returned_derivative by lia. unfold derivative, value. specialize (NN k ltac:(lia)). destruct (derivatives solver n M D k) as [z|]; [|contradiction]. apply cut_near. }
      eapply Rle_trans; [apply Rabs_triang|]. rewrite Rabs_mult. pose proof (Rabs_pos (w k)). pose proof (Rmult_le_compat_l (Rabs (w k)) _ _ H T). lra. }
    apply (G n). lia.
Qed.
Lemma total_derivative : forall solver n M D,
  diagonalises n M (solver n M) ->
  (forall p k A, (p + k <= n)%nat -> (1 < k)%nat ->
     (forall a b, (a < k)%nat -> (b < k)%nat -> A a b = totalC n (fun c => totalC n (fun d => Cmult (Cmult (Cconj (snd (solver n M) c (p + a)%nat)) (D c d)) (snd (solver n M) d (p + b)%nat)))) ->
     diagonalises k A (solver k A)) ->
  let r := eigen_derivatives solver n M D in
  Rabs (totalR n (fun i => nth (n + i) r 0) - fst (totalC n (fun a => D a a))) <= / 10 ^ 6 * INR n.
Proof.
  intros solver n M D DG BL r. pose proof (weighted_sum solver n M D (fun _ => 1) DG BL) as W. cbv zeta in W. fold r in W. specialize (W ltac:(reflexivity)).
  rewrite !totalR_ok in *. rewrite (rsum_ext n (fun i => 1 * nth (n + i) r 0) (fun i => nth (n + i) r 0)) in W by (intros; ring).
  assert (C : rsum n (fun _ => Rabs 1) = INR n).
  { rewrite Rabs_R1. clear. induction n as [|n IH]; [reflexivity|]. cbn [rsum]. rewrite IH, S_INR. reflexivity. }
  rewrite C in W. assert (T : rsum n (fun i => 1 * fst (totalC n (fun c => totalC n (fun d => Cmult (Cmult (Cconj (snd (solver n M) c i)) (D c d)) (snd (solver n M) d i))))) = fst (totalC n (fun a => D a a))).
  { rewrite totalC_ok. destruct DG as [_ [_ [_ [_ K]]]]. rewrite <- (trace_columns n (snd (solver n M)) K D), csum_re. apply rsum_ext. intros i I. rewrite Rmult_1_l. f_equal.
    rewrite totalC_ok. apply csum_ext. intros a A. rewrite totalC_ok. reflexivity. }
  rewrite T in W. exact W.
Qed.

(** * the Higgs masses *)
Lemma higgs_no_L2 : forall solver N L2 L2' L3 L4 Deb v T diff, diff <> 0%Z ->
  HiggsMassesSquared solver N L2 L3 L4 Deb v T diff = HiggsMassesSquared solver N L2' L3 L4 Deb v T diff.
Proof.
  intros solver N L2 L2' L3 L4 Deb v T diff H. unfold HiggsMassesSquared, HiggsMassMatrix. apply Z.eqb_neq in H. rewrite H. reflexivity.
Qed.
Lemma higgs_temperature : forall solver N L2 L2' L3 L3' L4 L4' Deb v v' T,
  HiggsMassesSquared solver N L2 L3 L4 Deb v T (-1) = HiggsMassesSquared solver N L2' L3' L4' Deb v' T (-1).
Proof. reflexivity. Qed.
Lemma higgs_twice : forall solver N L2 L3 L4 Deb v T diff p,
  (0 < diff <= Z.of_nat N)%Z \/ diff = (-1)%Z ->
  diagonalises N (cast (HiggsMassMatrix N L2 L3 L4 Deb v T diff)) (solver N (cast (HiggsMassMatrix N L2 L3 L4 Deb v T diff))) -> (p < N)%nat ->
  let r := HiggsMassesSquared solver N L2 L3 L4 Deb v T diff in
  (forall j, (j < N)%nat -> j <> p -> / 10 ^ 6 < Rabs (nth p r 0 - nth j r 0)) ->
  nth (N + p) r 0 = nth p r 0.
Proof.
  intros solver N L2 L3 L4 Deb v T diff p DF DG P r A. set (M := cast (HiggsMassMatrix N L2 L3 L4 Deb v T diff)) in *.
  assert (E : r = eigen_derivatives solver N M M).
  { unfold r, HiggsMassesSquared. fold M. destruct DF as [D|D].
    - destruct (Z.eqb_spec diff 0); [lia|]. destruct (Z.ltb_spec 0 diff); [|lia]. destruct (Z.leb_spec diff (Z.of_nat N)); [|lia]. cbn [andb].
      assert (X : HiggsDiff N L3 L4 Deb v T diff = HiggsMassMatrix N L2 L3 L4 Deb v T diff).
      { unfold HiggsDiff, HiggsMassMatrix. destruct (Z.eqb_spec diff 0); [lia|]. reflexivity. }
      rewrite X. reflexivity.
    - subst diff. reflexivity. }
  rewrite E in *. rewrite returned_derivative, returned_value by exact P. pose proof (alone_same solver N M M p P A) as S.
  pose proof (isolated_value solver N M M p P S) as V. unfold column in V. rewrite (diagonal_entry N M (solver N M) p p DG P P) in V. unfold delta in V. rewrite Nat.eqb_refl in V.
  replace (Cmult (RtoC (nth p (fst (solver N M)) 0)) (RtoC 1)) with (RtoC (nth p (fst (solver N M)) 0)) in V by ring.
  rewrite (derivative_real _ _ _ _ _ _ V). reflexivity.
Qed.
Lemma one_by_one : forall M dec, diagonalises 1 M dec -> fst dec = [fst (M 0%nat 0%nat)] /\ M 0%nat 0%nat = RtoC (fst (M 0%nat 0%nat)).
Proof.
  intros M [evs V] H. pose proof (sum_eigenvalues 1 M (evs, V) H) as T. destruct H as [L _]. cbn [fst snd] in *. destruct evs as [|e [|? ?]]; try discriminate. cbn in T.
  assert (X : M 0%nat 0%nat = RtoC e) by (transitivity (Cplus (RtoC 0) (M 0%nat 0%nat)); [ring|rewrite <- T; ring]). rewrite X. split; reflexivity.
Qed.
Lemma higgs_one : forall solver L2 L3 L4 Deb v T,
  diagonalises 1 (cast (HiggsMassMatrix 1 L2 L3 L4 Deb v T 1)) (solver 1%nat (cast (HiggsMassMatrix 1 L2 L3 L4 Deb v T 1))) ->
  let d := L3 0%nat 0%nat 0%nat + L4 0%nat 0%nat 0%nat 0%nat * v 0%nat in
  HiggsMassesSquared solver 1 L2 L3 L4 Deb v T 1 = [clipped d; clipped d].
Proof.
  intros solver L2 L3 L4 Deb v T DG d.
  pose proof (higgs_twice solver 1 L2 L3 L4 Deb v T 1 0%nat ltac:(left; lia) DG ltac:(lia)) as W. cbv zeta in W. specialize (W ltac:(intros; lia)).
  assert (F : nth 0 (HiggsMassesSquared solver 1 L2 L3 L4 Deb v T 1) 0 = clipped d).
  { unfold HiggsMassesSquared. cbn [Z.eqb Z.ltb Z.compare Z.leb Z.of_nat Pos.of_succ_nat Pos.compare Pos.compare_cont andb]. rewrite returned_value by lia. unfold eigenvalue.
    destruct (one_by_one _ _ DG) as [E _]. rewrite E. cbn [nth]. unfold cast, HiggsMassMatrix. cbn. f_equal. unfold d. ring. }
  assert (Len : length (HiggsMassesSquared solver 1 L2 L3 L4 Deb v T 1) = 2%nat) by (apply (returned_length solver 1)).
  destruct (HiggsMassesSquared solver 1 L2 L3 L4 Deb v T 1) as [|a [|b [|? ?]]]; try discriminate. cbn [nth Nat.add] in W, F. rewrite W, F. reflexivity.
Qed.

(** * the matrices of derivatives *)
Lemma dl_rsum : forall n (f : R -> nat -> R) t a, (forall i, (i < n)%nat -> dl (fun s => f s i) t (a i)) -> dl (fun s => rsum n (f s)) t (rsum n a).
Proof.
  induction n as [|n IH]; intros f t a H; cbn [rsum]; [apply dl_const|]. apply (dl_plus (fun s => rsum n (f s)) (fun s => f s n)); [apply IH; intros; apply H; lia|apply H; lia].
Qed.
Definition kron (i k : nat) : R := if Nat.eqb i k then 1 else 0.
Lemma dl_entry : forall v k i, dl (fun t => entry_set v k t i) (v k) (kron i k).
Proof. intros v k i. unfold entry_set, kron. destruct (Nat.eqb i k); [apply dl_id|apply dl_const]. Qed.
Lemma entry_set_id : forall v k i, entry_set v k (v k) i = v i.
Proof. intros v k i. unfold entry_set. destruct (Nat.eqb_spec i k) as [->|]; reflexivity. Qed.
Lemma rsum_zero : forall n, rsum n (fun _ => 0) = 0.
Proof. induction n as [|n IH]; [reflexivity|]. cbn [rsum]. rewrite IH. ring. Qed.
Lemma rsum_kron : forall n k f, (k < n)%nat -> rsum n (fun i => f i * kron i k) = f k.
Proof.
  induction n as [|n IH]; intros k f H; [lia|]. cbn [rsum]. unfold kron at 2. destruct (Nat.eqb_spec n k) as [->|N].
  - rewrite (rsum_ext k _ (fun _ => 0)); [rewrite rsum_zero; ring|]. intros i I. unfold kron. destruct (Nat.eqb_spec i k); [lia|ring].
  - rewrite IH by lia. ring.
Qed.
Lemma rsum_plus : forall n f g, rsum n (fun i => f i + g i) = rsum n f + rsum n g.
Proof. induction n as [|n IH]; intros f g; cbn [rsum]; [ring|]. rewrite IH. ring. Qed.
Lemma rsum_scal : forall n z f, rsum n (fun i => z * f i) = z * rsum n f.
Proof. induction n as [|n IH]; intros z f; cbn [rsum]; [ring|]. rewrite IH. ring. Qed.
Lemma rsum_quadratic : forall N (q : nat -> nat -> R) v k, (k < N)%nat -> (forall i j, q i j = q j i) ->
  dl (fun t => rsum N (fun i => rsum N (fun j => 1 / 2 * q i j * entry_set v k t i * entry_set v k t j))) (v k) (rsum N (fun j => q k j * v j)).
Proof.
  intros N q v k K S. eapply dl_eq.
  - apply (dl_rsum N (fun t i => rsum N (fun j => 1 / 2 * q i j * entry_set v k t i * entry_set v k t j))). intros i I.
    apply (dl_rsum N (fun t j => 1 / 2 * q i j * entry_set v k t i * entry_set v k t j)). intros j J.
    apply (dl_mult (fun t => 1 / 2 * q i j * entry_set v k t i) (fun t => entry_set v k t j)).
    + apply (dl_mult (fun _ => 1 / 2 * q i j) (fun t => entry_set v k t i)); [apply dl_const|apply dl_entry].
    + apply dl_entry.
  - rewrite (rsum_ext N _ (fun i => (rsum N (fun j => 1 / 2 * q i j * v j)) * kron i k + 1 / 2 * q i k * v i)).
    + rewrite rsum_plus, (rsum_kron N k (fun i => rsum N (fun j => 1 / 2 * q i j * v j)) K). rewrite <- rsum_plus. apply rsum_ext. intros j J. rewrite (S j k). field.
    + intros i I. rewrite (rsum_ext N _ (fun j => kron i k * (1 / 2 * q i j * v j) + (1 / 2 * q i j * v i) * kron j k)).
      * rewrite rsum_plus, rsum_scal, (rsum_kron N k (fun j => 1 / 2 * q i j * v i) K). ring.
      * intros j J. rewrite !entry_set_id. ring.
Qed.
Lemma higgs_matrix_form : forall N L2 L3 L4 Deb v T i j, HiggsMassMatrix N L2 L3 L4 Deb v T 0 i j =
  (L2 (Nat.min i j) (Nat.max i j) + (rsum N (fun k => L3 (Nat.min i j) (Nat.max i j) k * v k) + rsum N (fun k => rsum N (fun l => 1 / 2 * L4 (Nat.min i j) (Nat.max i j) k l * v k * v l)))) + Deb (Nat.min i j) (Nat.max i j) * T ^ 2.
Proof. intros. unfold HiggsMassMatrix. cbn [Z.eqb]. rewrite rsum_plus. destruct (Req_EM_T T 0) as [->|]; ring. Qed.
Lemma minmax : forall (P : nat -> nat -> Prop) i j, P i j -> P j i -> P (Nat.min i j) (Nat.max i j).
Proof. intros P i j A B. destruct (Nat.le_ge_cases i j) as [H|H]; [rewrite (Nat.min_l _ _ H), (Nat.max_r _ _ H); exact A|rewrite (Nat.min_r _ _ H), (Nat.max_l _ _ H); exact B]. Qed.
Lemma higgs_diff_field : forall N L2 L3 L4 Deb v T k i j, (k < N)%nat ->
  (forall a b c, L3 a b c = L3 b a c) -> (forall a b c d, L4 a b c d = L4 b a c d) -> (forall a b c d, L4 a b c d = L4 a b d c) ->
  dl (fun t => HiggsMassMatrix N L2 L3 L4 Deb (entry_set v k t) T 0 i j) (v k) (HiggsDiff N L3 L4 Deb v T (Z.of_nat k + 1) i j).
Proof.
  intros N L2 L3 L4 Deb v T k i j K S3 S4 S4'. eapply dl_ext; [intro t; symmetry; apply higgs_matrix_form|].
  set (a := Nat.min i j). set (b := Nat.max i j). eapply dl_eq.
  - apply dl_plus; [apply dl_plus; [apply dl_const|apply dl_plus]|apply dl_const].
    + apply (dl_rsum N (fun t k0 => L3 a b k0 * entry_set v k t k0) (v k) (fun k0 => L3 a b k0 * kron k0 k)). intros l Hl. eapply dl_eq; [apply (dl_mult (fun _ => L3 a b l) (fun t => entry_set v k t l)); [apply dl_const|apply dl_entry]|ring].
    + apply (rsum_quadratic N (L4 a b) v k K). intros; apply S4'.
  - rewrite (rsum_kron N k (L3 a b) K). unfold HiggsDiff. destruct (Z.ltb_spec 0 (Z.of_nat k + 1)); [|lia]. cbv zeta. replace (Z.to_nat (Z.of_nat k + 1 - 1)) with k by lia.
    assert (E3 : L3 a b k = L3 i j k) by (unfold a, b; apply (minmax (fun x y => L3 x y k = L3 i j k)); [reflexivity|apply S3]).
    assert (E4 : forall l, L4 a b k l = L4 i j k l) by (intro l; unfold a, b; apply (minmax (fun x y => L4 x y k l = L4 i j k l)); [reflexivity|apply S4]).
    rewrite E3. rewrite (rsum_ext N (fun j0 => L4 a b k j0 * v j0) (fun k0 => L4 i j k k0 * v k0)) by (intros; rewrite E4; reflexivity). ring.
Qed.
Lemma higgs_diff_temperature : forall N L2 L3 L4 Deb v T i j, (forall a b, Deb a b = Deb b a) ->
  dl (fun s => HiggsMassMatrix N L2 L3 L4 Deb v s 0 i j) T (HiggsDiff N L3 L4 Deb v T (-1) i j).
Proof.
  intros N L2 L3 L4 Deb v T i j S. eapply dl_ext; [intro t; symmetry; apply higgs_matrix_form|]. eapply dl_eq.
  - apply dl_plus; [apply dl_const|]. apply (dl_mult (fun _ => Deb (Nat.min i j) (Nat.max i j)) (fun s => s ^ 2)); [apply dl_const|]. apply (dl_pow (fun s => s) 2 T 1 (dl_id T)).
  - unfold HiggsDiff. cbn [Z.ltb Z.compare]. rewrite <- (minmax (fun x y => Deb x y = Deb i j) i j eq_refl (S j i)). cbn. ring.
Qed.
Lemma gauge_matrix_form : forall N G Deb v T i j, GaugeMassMatrix N G Deb v T i j =
  rsum N (fun k => rsum N (fun l => 1 / 2 * G (Nat.min i j) (Nat.max i j) k l * v k * v l)) + Deb (Nat.min i j) (Nat.max i j) * T ^ 2.
Proof. intros. unfold GaugeMassMatrix. cbv zeta. destruct (Req_EM_T T 0) as [->|]; ring. Qed.
Lemma gauge_diff_field : forall N G Deb v T k i j, (k < N)%nat ->
  (forall a b c d, G a b c d = G b a c d) -> (forall a b c d, G a b c d = G a b d c) ->
  dl (fun t => GaugeMassMatrix N G Deb (entry_set v k t) T i j) (v k) (GaugeDiff N G Deb v T (Z.of_nat k + 1) i j).
Proof.
  intros N G Deb v T k i j K S S'. eapply dl_ext; [intro t; symmetry; apply gauge_matrix_form|].
  set (a := Nat.min i j). set (b := Nat.max i j). eapply dl_eq.
  - apply dl_plus; [|apply dl_const]. apply (rsum_quadratic N (G a b) v k K). intros; apply S'.
  - unfold GaugeDiff. destruct (Z.ltb_spec 0 (Z.of_nat k + 1)); [|lia]. replace (Z.to_nat (Z.of_nat k + 1 - 1)) with k by lia.
    rewrite Rplus_0_r. apply rsum_ext. intros l Hl. f_equal. unfold a, b. apply (minmax (fun x y => G x y k l = G i j k l)); [reflexivity|apply S].
Qed.
Lemma gauge_diff_temperature : forall N G Deb v T i j, (forall a b, Deb a b = Deb b a) ->
  dl (fun s => GaugeMassMatrix N G Deb v s i j) T (GaugeDiff N G Deb v T (-1) i j).
Proof.
  intros N G Deb v T i j S. eapply dl_ext; [intro t; symmetry; apply gauge_matrix_form|]. eapply dl_eq.
  - apply dl_plus; [apply dl_const|]. apply (dl_mult (fun _ => Deb (Nat.min i j) (Nat.max i j)) (fun s => s ^ 2)); [apply dl_const|]. apply (dl_pow (fun s => s) 2 T 1 (dl_id T)).
  - unfold GaugeDiff. cbn [Z.ltb Z.compare]. rewrite <- (minmax (fun x y => Deb x y = Deb i j) i j eq_refl (S j i)). cbn. ring.
Qed.
Lemma MIJ_diff : forall N F2 F v k i j, (k < N)%nat -> has_derivative (fun t => MIJ N F2 F (entry_set v k t) i j) (v k) (F i j k).
Proof.
  intros N F2 F v k i j K. unfold MIJ. eapply hd_eq.
  - apply hd_plus; [apply hd_const|]. apply (hd_csum N (fun t l => Cmult (F i j l) (RtoC (entry_set v k t l))) (v k) (fun l => Cmult (delta k l) (F i j l))). intros l Hl.
    eapply hd_eq; [apply (hd_mult (fun _ => F i j l) (fun t => RtoC (entry_set v k t l))); [apply hd_const|apply hd_real, dl_entry]|].
    unfold kron, delta. rewrite (Nat.eqb_sym k l). destruct (Nat.eqb l k); ring.
  - rewrite (csum_delta N k (fun l => F i j l) K). ring.
Qed.
Lemma MIJ_id : forall N F2 F v k i j, MIJ N F2 F (entry_set v k (v k)) i j = MIJ N F2 F v i j.
Proof. intros. unfold MIJ. f_equal. apply csum_ext. intros l Hl. rewrite entry_set_id. reflexivity. Qed.
Lemma fermion_diff : forall NF N F2 F v k a b, (k < N)%nat ->
  has_derivative (fun t => FermionMassMatrix NF N F2 F (entry_set v k t) a b) (v k) (FermionDiff NF N F2 F v k a b).
Proof.
  intros NF N F2 F v k a b K. unfold FermionMassMatrix, FermionDiff.
  apply (hd_csum NF (fun t i => Cmult (Cconj (MIJ N F2 F (entry_set v k t) a i)) (MIJ N F2 F (entry_set v k t) i b))). intros i I.
  eapply hd_eq; [apply (hd_mult (fun t => Cconj (MIJ N F2 F (entry_set v k t) a i)) (fun t => MIJ N F2 F (entry_set v k t) i b)); [apply hd_conj, MIJ_diff; exact K|apply MIJ_diff; exact K]|].
  rewrite !MIJ_id. reflexivity.
Qed.

(** * the routines *)
Lemma entry_set_same : forall v k, entry_set v k (v k) = v.
Proof. intros v k. apply functional_extensionality. intro i. apply entry_set_id. Qed.
Lemma gauge_routine : forall solver NG N G Deb v T k lam x lam' x' p, (k < N)%nat -> (p < NG)%nat ->
  (forall a b c d, G a b c d = G b a c d) -> (forall a b c d, G a b c d = G a b d c) ->
  let Mf t := cast (GaugeMassMatrix N G Deb (entry_set v k t) T) in
  diagonalises NG (Mf (v k)) (solver NG (Mf (v k))) ->
  branch NG Mf lam x (v k) lam' x' -> lam (v k) = nth p (fst (solver NG (Mf (v k)))) 0 ->
  let r := GaugeMassesSquared solver NG N G Deb v T (Z.of_nat k + 1) in
  (forall j, (j < NG)%nat -> j <> p -> / 10 ^ 6 < Rabs (nth p r 0 - nth j r 0)) ->
  cut_of (lam (v k)) (nth p r 0) /\ cut_of lam' (nth (NG + p) r 0).
Proof.
  intros solver NG N G Deb v T k lam x lam' x' p K P S S' Mf DG B L r.
  assert (E : r = eigen_derivatives solver NG (Mf (v k)) (cast (GaugeDiff N G Deb v T (Z.of_nat k + 1)))).
  { unfold r, GaugeMassesSquared, Mf. rewrite entry_set_same. destruct (Z.eqb_spec (Z.of_nat k + 1) 0); [lia|]. destruct (Z.ltb_spec 0 (Z.of_nat k + 1)); [|lia].
    destruct (Z.leb_spec (Z.of_nat k + 1) (Z.of_nat N)); [reflexivity|lia]. }
  rewrite E. apply (isolated_derivative solver NG Mf _ lam x (v k) lam' x' p DG); [|exact P|exact B| |exact L].
  - intros a b A Bb. unfold Mf, cast. rewrite Cconj_R. f_equal. rewrite entry_set_same. unfold GaugeMassMatrix. rewrite (Nat.min_comm a b), (Nat.max_comm a b). reflexivity.
  - intros a b A Bb. unfold Mf, cast. apply hd_real. apply gauge_diff_field; assumption.
Qed.
Lemma gauge_routine_temperature : forall solver NG N G Deb v T lam x lam' x' p, (p < NG)%nat -> (forall a b, Deb a b = Deb b a) ->
  let Mf t := cast (GaugeMassMatrix N G Deb v t) in
  diagonalises NG (Mf T) (solver NG (Mf T)) ->
  branch NG Mf lam x T lam' x' -> lam T = nth p (fst (solver NG (Mf T))) 0 ->
  let r := GaugeMassesSquared solver NG N G Deb v T (-1) in
  (forall j, (j < NG)%nat -> j <> p -> / 10 ^ 6 < Rabs (nth p r 0 - nth j r 0)) ->
  cut_of (lam T) (nth p r 0) /\ cut_of lam' (nth (NG + p) r 0).
Proof.
  intros solver NG N G Deb v T lam x lam' x' p P S Mf DG B L r.
  change r with (eigen_derivatives solver NG (Mf T) (cast (GaugeDiff N G Deb v T (-1)))).
  apply (isolated_derivative solver NG Mf _ lam x T lam' x' p DG); [|exact P|exact B| |exact L].
  - intros a b A Bb. unfold Mf, cast. rewrite Cconj_R. f_equal. unfold GaugeMassMatrix. rewrite (Nat.min_comm a b), (Nat.max_comm a b). reflexivity.
  - intros a b A Bb. unfold Mf, cast. apply hd_real. apply gauge_diff_temperature; assumption.
Qed.
Lemma fermion_routine : forall solver NF N F2 F v k lam x lam' x' p, (k < N)%nat -> (p < NF)%nat ->
  (forall a b, F2 a b = F2 b a) -> (forall a b c, F a b c = F b a c) ->
  let Mf t := FermionMassMatrix NF N F2 F (entry_set v k t) in
  diagonalises NF (Mf (v k)) (solver NF (Mf (v k))) ->
  branch NF Mf lam x (v k) lam' x' -> lam (v k) = nth p (fst (solver NF (Mf (v k)))) 0 ->
  let r := FermionMassesSquared solver NF N F2 F v (Z.of_nat k + 1) in
  (forall j, (j < NF)%nat -> j <> p -> / 10 ^ 6 < Rabs (nth p r 0 - nth j r 0)) ->
  cut_of (lam (v k)) (nth p r 0) /\ cut_of lam' (nth (NF + p) r 0).
Proof.
  intros solver NF N F2 F v k lam x lam' x' p K P S2 S Mf DG B L r.
  assert (E : r = eigen_derivatives solver NF (Mf (v k)) (FermionDiff NF N F2 F v k)).
  { unfold r, FermionMassesSquared, Mf. rewrite entry_set_same. destruct (Z.leb_spec (Z.of_nat k + 1) 0); [lia|].
    destruct (Z.leb_spec (Z.of_nat k + 1) (Z.of_nat N)); [|lia]. replace (Z.to_nat (Z.of_nat k + 1 - 1)) with k by lia. reflexivity. }
  rewrite E. apply (isolated_derivative solver NF Mf _ lam x (v k) lam' x' p DG); [|exact P|exact B| |exact L].
  - intros a b A Bb. unfold Mf, FermionMassMatrix. rewrite csum_conj. apply csum_ext. intros i I. rewrite Cconj_mult', Cconj_conj'.
    assert (Sy : forall c d, MIJ N F2 F (entry_set v k (v k)) c d = MIJ N F2 F (entry_set v k (v k)) d c).
    { intros c d. unfold MIJ. rewrite S2. f_equal. apply csum_ext. intros l Hl. rewrite S. reflexivity. }
    rewrite (Sy a i), (Sy i b). ring.
  - intros a b A Bb. apply fermion_diff. exact K.
Qed.
