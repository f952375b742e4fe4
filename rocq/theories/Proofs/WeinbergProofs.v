(** The program's derivatives of the Coleman-Weinberg potential. *)
From Coq Require Import Reals List Lra Lia ZArith FunctionalExtensionality.
From Coquelicot Require Import Coquelicot.
From Verif Require Import Model.Base Model.Loop Model.OneLoop Model.EigenDeriv Model.Weinberg Spec.EigenSpec Spec.WeinbergSpec Proofs.DerivLib Proofs.LoopProofs Proofs.EigenProofs Proofs.EigenBranch Proofs.Spectral Proofs.WeinbergSector.
Import ListNotations.
Open Scope R_scope.

(** * sums *)
Lemma rsum_scal_r : forall n z f, rsum n (fun i => f i * z) = rsum n f * z.
Proof. intros n z f. rewrite (rsum_ext n _ (fun i => z * f i)) by (intros; ring). rewrite rsum_scal. ring. Qed.
Lemma rsum_swap : forall n m f, rsum n (fun i => rsum m (fun j => f i j)) = rsum m (fun j => rsum n (fun i => f i j)).
Proof.
  induction n as [|n IH]; intros m f; cbn [rsum]; [symmetry; apply rsum_zero|]. rewrite IH, <- rsum_plus. reflexivity.
Qed.
Lemma rsum_abs : forall n f b, (forall i, (i < n)%nat -> Rabs (f i) <= b) -> Rabs (rsum n f) <= INR n * b.
Proof.
  induction n as [|n IH]; intros f b H; [cbn; rewrite Rabs_R0; lra|]. rewrite S_INR. cbn [rsum].
  pose proof (Rabs_triang (rsum n f) (f n)). pose proof (IH f b ltac:(intros; apply H; lia)). pose proof (H n ltac:(lia)). lra.
Qed.
Lemma csum_kron : forall n k f, (k < n)%nat -> csum n (fun i => Cmult (f i) (RtoC (kron i k))) = f k.
Proof.
  intros n k f K. rewrite (csum_ext n _ (fun i => Cmult (delta k i) (f i))); [apply (csum_delta n k f K)|].
  intros i I. unfold kron, delta. rewrite (Nat.eqb_sym k i). destruct (Nat.eqb i k); ring.
Qed.
Lemma csum_RtoC : forall n f, csum n (fun i => RtoC (f i)) = RtoC (rsum n f).
Proof. induction n as [|n IH]; intro f; cbn [csum rsum]; [reflexivity|]. rewrite IH, RtoC_plus. reflexivity. Qed.

(** * couplings rotated back to the fields *)
Definition Xr (s : sector) (a : nat) : nat -> C := fun a' => RtoC (rot s a a').
Section Rotated.
  Variables (N : nat) (HR : nat -> nat -> R) (scale : R).
  Hypothesis ORTH : forall l l', (l < N)%nat -> (l' < N)%nat -> rsum N (fun i => HR i l * HR i l') = kron l' l.
  Variable s : sector.
  Definition e3 (l a b : nat) : C := sandwich (size s) (fun a' b' => lambda3 s a' b' l) (Xr s a) (Xr s b).
  Definition e4 (l m a b : nat) : C := sandwich (size s) (fun a' b' => lambda4 s a' b' l m) (Xr s a) (Xr s b).
  Lemma unrotate : forall l (f : nat -> C), (l < N)%nat -> csum N (fun i => Cmult (RtoC (HR i l)) (csum N (fun i' => Cmult (RtoC (HR i i')) (f i')))) = f l.
  Proof using ORTH.
    intros l f L. rewrite (csum_ext N _ (fun i => csum N (fun i' => Cmult (Cmult (f i') (RtoC (HR i l))) (RtoC (HR i i'))))) by (intros; rewrite <- csum_scal; apply csum_ext; intros; ring).
    rewrite csum_swap. rewrite (csum_ext N _ (fun i' => Cmult (f i') (RtoC (kron i' l)))); [apply csum_kron; exact L|].
    intros i' I. rewrite <- (ORTH l i' L I). rewrite <- csum_RtoC, <- csum_scal. apply csum_ext. intros i Hi. rewrite RtoC_mult. ring.
  Qed.
  Lemma coup3_mass : forall a b i, coup3 N HR s a b i = csum N (fun i' => Cmult (RtoC (HR i i')) (e3 i' a b)).
  Proof using.
    intros a b i. symmetry. unfold coup3, e3, sandwich.
    rewrite (csum_ext N _ (fun i' => csum (size s) (fun a' => csum (size s) (fun b' => Cmult (RtoC (rot s a a' * rot s b b' * HR i i')) (lambda3 s a' b' i'))))).
    - rewrite csum_swap. apply csum_ext. intros a' A. rewrite csum_swap. reflexivity.
    - intros i' I. rewrite <- csum_scal. apply csum_ext. intros a' A. rewrite <- csum_scal. apply csum_ext. intros b' B. unfold Xr. rewrite Cconj_R, !RtoC_mult. ring.
  Qed.
  Lemma coup4_mass : forall a b i j, coup4 N HR s a b i j = csum N (fun i' => Cmult (RtoC (HR i i')) (csum N (fun j' => Cmult (RtoC (HR j j')) (e4 i' j' a b)))).
  Proof using.
    intros a b i j. symmetry. unfold coup4, e4, sandwich.
    rewrite (csum_ext N _ (fun i' => csum (size s) (fun a' => csum (size s) (fun b' => csum N (fun j' => Cmult (RtoC (rot s a a' * rot s b b' * HR i i' * HR j j')) (lambda4 s a' b' i' j')))))).
    - rewrite csum_swap. apply csum_ext. intros a' A. rewrite csum_swap. reflexivity.
    - intros i' I. rewrite (csum_ext (size s) _ (fun a' => csum N (fun j' => csum (size s) (fun b' => Cmult (RtoC (rot s a a' * rot s b b' * HR i i' * HR j j')) (lambda4 s a' b' i' j'))))) by (intros; apply csum_swap).
      rewrite csum_swap. rewrite <- csum_scal. apply csum_ext. intros j' J. rewrite <- !csum_scal. apply csum_ext. intros a' A. rewrite <- !csum_scal. apply csum_ext. intros b' B. unfold Xr. rewrite Cconj_R, !RtoC_mult. ring.
  Qed.
  Lemma back3 : forall l a b, (l < N)%nat -> csum N (fun i => Cmult (RtoC (HR i l)) (coup3 N HR s a b i)) = e3 l a b.
  Proof using ORTH.
    intros l a b L. rewrite <- (unrotate l (fun l => e3 l a b) L). apply csum_ext. intros i I. rewrite coup3_mass. reflexivity.
  Qed.
  Lemma back4 : forall l m a b, (l < N)%nat -> (m < N)%nat -> csum N (fun i => Cmult (RtoC (HR i l)) (csum N (fun j => Cmult (RtoC (HR j m)) (coup4 N HR s a b i j)))) = e4 l m a b.
  Proof using ORTH.
    intros l m a b L M. rewrite <- (unrotate l (fun l => e4 l m a b) L). apply csum_ext. intros i I. f_equal.
    rewrite (csum_ext N _ (fun j => csum N (fun i' => Cmult (RtoC (HR i i')) (Cmult (RtoC (HR j m)) (csum N (fun j' => Cmult (RtoC (HR j j')) (e4 i' j' a b))))))).
    - rewrite csum_swap. apply csum_ext. intros i' I'. rewrite csum_scal. f_equal. apply (unrotate m (fun m => e4 i' m a b) M).
    - intros j J. rewrite coup4_mass, <- csum_scal. apply csum_ext. intros i' I'. ring.
  Qed.
  Lemma first_back : forall l, (l < N)%nat -> rsum N (fun i => HR i l * first_part N HR scale s i) = factor s * rsum (size s) (fun a => mlog scale s a * Re (e3 l a a)).
  Proof using ORTH.
    intros l L. unfold first_part. rewrite (rsum_ext N _ (fun i => factor s * rsum (size s) (fun a => mlog scale s a * (HR i l * Re (coup3 N HR s a a i))))).
    - rewrite rsum_scal. f_equal. rewrite rsum_swap. apply rsum_ext. intros a A. rewrite rsum_scal. f_equal. rewrite <- (back3 l a a L). unfold Re. rewrite csum_fst. apply rsum_ext. intros i I. rewrite fst_scal. reflexivity.
    - intros i I. transitivity (factor s * (HR i l * rsum (size s) (fun a => mlog scale s a * Re (coup3 N HR s a a i)))); [ring|]. f_equal. rewrite <- rsum_scal. apply rsum_ext. intros a A. ring.
  Qed.
  Lemma product_back : forall l m a b, (l < N)%nat -> (m < N)%nat ->
    rsum N (fun i => rsum N (fun j => HR i l * HR j m * Re (Cmult (coup3 N HR s a b i) (coup3 N HR s b a j)))) = Re (Cmult (e3 l a b) (e3 m b a)).
  Proof using ORTH.
    intros l m a b L M. rewrite <- (back3 l a b L), <- (back3 m b a M). rewrite <- csum_scal_r. unfold Re. rewrite csum_fst. apply rsum_ext. intros i I.
    rewrite <- csum_scal, csum_fst. apply rsum_ext. intros j J. rewrite <- fst_scal. f_equal. rewrite RtoC_mult. ring.
  Qed.
  Definition rotated2 (l m : nat) : R := factor s * rsum (size s) (fun a => rsum (size s) (fun b => Re (Cmult (e3 l a b) (e3 m b a)) * bracket scale s a b) + mlog scale s a * Re (e4 l m a a)).
  Lemma second_back : forall l m, (l < N)%nat -> (m < N)%nat -> rsum N (fun i => rsum N (fun j => HR i l * HR j m * second_part N HR scale s i j)) = rotated2 l m.
  Proof using ORTH.
    intros l m L M. unfold second_part, rotated2.
    transitivity (factor s * rsum N (fun i => rsum N (fun j => rsum (size s) (fun a => rsum (size s) (fun b => HR i l * HR j m * Re (Cmult (coup3 N HR s a b i) (coup3 N HR s b a j)) * bracket scale s a b) + mlog scale s a * (HR i l * (HR j m * Re (coup4 N HR s a a i j))))))).
    - rewrite <- rsum_scal. apply rsum_ext. intros i I. rewrite <- rsum_scal. apply rsum_ext. intros j J.
      transitivity (factor s * (HR i l * HR j m * rsum (size s) (fun a => rsum (size s) (fun b => Re (Cmult (coup3 N HR s a b i) (coup3 N HR s b a j)) * bracket scale s a b) + mlog scale s a * Re (coup4 N HR s a a i j)))); [ring|]. f_equal.
      rewrite <- rsum_scal. apply rsum_ext. intros a A. rewrite Rmult_plus_distr_l. f_equal; [|ring]. rewrite <- rsum_scal. apply rsum_ext. intros b B. ring.
    - f_equal. rewrite (rsum_ext N _ (fun i => rsum (size s) (fun a => rsum N (fun j => rsum (size s) (fun b => HR i l * HR j m * Re (Cmult (coup3 N HR s a b i) (coup3 N HR s b a j)) * bracket scale s a b) + mlog scale s a * (HR i l * (HR j m * Re (coup4 N HR s a a i j))))))) by (intros; apply rsum_swap).
      rewrite rsum_swap. apply rsum_ext. intros a A.
      rewrite (rsum_ext N _ (fun i => rsum (size s) (fun b => rsum N (fun j => HR i l * HR j m * Re (Cmult (coup3 N HR s a b i) (coup3 N HR s b a j)) * bracket scale s a b)) + mlog scale s a * (HR i l * rsum N (fun j => HR j m * Re (coup4 N HR s a a i j))))).
      + rewrite rsum_plus. f_equal.
        * rewrite rsum_swap. apply rsum_ext. intros b B. rewrite <- (product_back l m a b L M), <- rsum_scal_r. apply rsum_ext. intros i I. rewrite <- rsum_scal_r. reflexivity.
        * rewrite rsum_scal. f_equal. rewrite <- (back4 l m a a L M). unfold Re. rewrite csum_fst. apply rsum_ext. intros i I. rewrite fst_scal, csum_fst. f_equal. apply rsum_ext. intros j J. rewrite fst_scal. reflexivity.
      + intros i I. rewrite rsum_plus. f_equal; [apply rsum_swap|]. rewrite rsum_scal. f_equal. rewrite rsum_scal. reflexivity.
  Qed.
End Rotated.

(** * from the program's sums to gradient and Hessian *)
Definition massive (x : R) : Prop := x = 0 \/ CW_threshold < x.
Definition apart (x y : R) : Prop := x = y \/ 1 / 100000 < Rabs (x - y).
Lemma ln_scale : forall scale m, 0 < scale -> 0 < m -> ln (m / scale ^ 2) = ln m - 2 * ln scale.
Proof.
  intros scale m S M. unfold Rdiv. rewrite ln_mult by (try apply Rinv_0_lt_compat; try apply pow_lt; lra). rewrite ln_Rinv by (apply pow_lt; lra).
  cbn [pow]. rewrite Rmult_1_r, ln_mult by lra. ring.
Qed.
Lemma CW_threshold_pos : 0 < CW_threshold.
Proof. unfold CW_threshold. lra. Qed.
Lemma CWTerm_zero : forall scale c d, CWTerm scale 0 c d = 0.
Proof. intros scale c d. unfold CWTerm. rewrite Rabs_R0. destruct (Rlt_dec 0 CW_threshold) as [|B]; [reflexivity|]. destruct (B CW_threshold_pos). Qed.
Lemma mlog_CW : forall scale s a, 0 < scale -> massive (mass2 s a) -> mlog scale s a = 32 * PI * PI * CWTerm scale (mass2 s a) (cwconst s) 1.
Proof.
  intros scale s a S [Z|M]; unfold mlog; pose proof CW_threshold_pos; pose proof PI_RGT_0.
  - rewrite Z, CWTerm_zero. destruct (Req_EM_T 0 0); [ring|congruence].
  - destruct (Req_EM_T (mass2 s a) 0); [lra|]. rewrite CWTerm1 by (rewrite Rabs_right; lra). rewrite Rabs_right by lra. rewrite ln_scale by lra. field. lra.
Qed.
Lemma bracket_kernel : forall scale s a b, 0 < scale -> massive (mass2 s a) -> massive (mass2 s b) -> apart (mass2 s a) (mass2 s b) ->
  bracket scale s a b = 32 * PI * PI * kernel scale (cwconst s) (mass2 s a) (mass2 s b) \/
  (mass2 s a = 0 /\ mass2 s b = 0 /\ bracket scale s a b = 3 / 2 - cwconst s /\ kernel scale (cwconst s) (mass2 s a) (mass2 s b) = 0).
Proof.
  intros scale s a b S A B AP. unfold bracket, kernel. set (x := mass2 s a) in *. set (y := mass2 s b) in *. set (c := cwconst s). pose proof CW_threshold_pos as T0. pose proof PI_RGT_0.
  assert (T5 : 1 / 100000 < CW_threshold) by (unfold CW_threshold; lra).
  destruct A as [Zx|Px], B as [Zy|Py].
  - right. rewrite Zx, Zy. split; [reflexivity|split; [reflexivity|]]. unfold fbase, CW2. rewrite Rabs_R0. destruct (Req_EM_T 0 0); [|congruence]. destruct (Rlt_dec 0 CW_threshold); [|lra]. split; [field|reflexivity].
  - left. rewrite Zx. destruct (Req_EM_T 0 y); [lra|]. unfold fbase. destruct (Req_EM_T 0 0); [|congruence]. destruct (Req_EM_T y 0); [lra|].
    destruct (Rlt_dec (1 / 100000) (Rabs (0 - y))) as [|F]; [|exfalso; apply F; rewrite Rabs_left; lra].
    rewrite LogM_pos by lra. rewrite ?logscale_pos by lra. cbn [option_map]. rewrite CWTerm_zero, CWTerm1 by (rewrite Rabs_right; lra). rewrite Rabs_right by lra. field. split; lra.
  - left. rewrite Zy. destruct (Req_EM_T x 0); [lra|]. unfold fbase. destruct (Req_EM_T x 0); [lra|]. 
    destruct (Rlt_dec (1 / 100000) (Rabs (x - 0))) as [|F]; [|exfalso; apply F; rewrite Rabs_right; lra]. destruct (Req_EM_T 0 0); [|congruence].
    rewrite LogM_pos by lra. rewrite ?logscale_pos by lra. cbn [option_map]. rewrite CWTerm_zero, CWTerm1 by (rewrite Rabs_right; lra). rewrite Rabs_right by lra. field. split; lra.
  - left. destruct AP as [E|D].
    + rewrite <- E. destruct (Req_EM_T x x); [|congruence]. unfold fbase. destruct (Req_EM_T x 0); [lra|]. replace (x - x) with 0 by ring. rewrite Rabs_R0. destruct (Rlt_dec (1 / 100000) 0); [lra|].
      rewrite LogM_pos by lra. rewrite ?logscale_pos by lra. cbn [option_map]. cbn [option_map]. unfold CW2. rewrite Rabs_right by lra. destruct (Rlt_dec x CW_threshold); [lra|]. field. lra.
    + destruct (Req_EM_T x y) as [E|N]; [rewrite E in D; replace (y - y) with 0 in D by ring; rewrite Rabs_R0 in D; lra|].
      unfold fbase. destruct (Req_EM_T x 0); [lra|]. destruct (Rlt_dec (1 / 100000) (Rabs (x - y))); [|lra]. destruct (Req_EM_T y 0); [lra|].
      rewrite !LogM_pos by lra. rewrite ?logscale_pos by lra. cbn [lift2]. rewrite !CWTerm1 by (rewrite Rabs_right; lra). rewrite !Rabs_right by lra. field. split; lra.
Qed.

Section Link.
  Variables (scale : R) (N n : nat) (Mf : (nat -> R) -> cmat) (L3f : (nat -> R) -> nat -> cmat) (L4f : nat -> nat -> cmat).
  Variables (ev : (nat -> R) -> nat -> R) (Y : (nat -> R) -> nat -> nat -> C).
  Variables (v : nat -> R) (s : sector).
  Hypothesis S0 : 0 < scale.
  Hypothesis HERM : forall u, hermitian n (Mf u).
  Hypothesis FR : forall u, eigenframe n (Mf u) (ev u) (Y u).
  Hypothesis SZ : size s = n.
  Hypothesis K3 : forall a b l, lambda3 s a b l = L3f v l a b.
  Hypothesis K4 : forall a b l m, lambda4 s a b l m = L4f l m a b.
  Hypothesis FS : eigenframe n (Mf v) (mass2 s) (Xr s).
  Hypothesis MG : forall a, (a < n)%nat -> massive (mass2 s a).
  Hypothesis MA : forall a b, (a < n)%nat -> (b < n)%nat -> apart (mass2 s a) (mass2 s b).
  Lemma grad_link : forall l, epsilon * (factor s * rsum (size s) (fun a => mlog scale s a * Re (e3 s l a a))) = 2 * factor s * grad scale (cwconst s) n L3f ev Y l v.
  Proof using S0 HERM FR SZ K3 FS MG.
    intros l. rewrite SZ. unfold grad.
    rewrite (rsum_ext n (fun p => CWTerm scale (ev v p) (cwconst s) 1 * _) (fun p => fst (Cmult (RtoC (CWTerm scale (ev v p) (cwconst s) 1)) (sandwich n (L3f v l) (Y v p) (Y v p))))) by (intros; rewrite fst_scal; reflexivity).
    rewrite <- csum_fst. rewrite <- (frame_sum n (Mf v) (HERM v) (mass2 s) (Xr s) (ev v) (Y v) (fun x => CWTerm scale x (cwconst s) 1) (L3f v l) FS (FR v)). rewrite csum_fst.
    rewrite (rsum_ext n _ (fun a => 32 * PI * PI * (CWTerm scale (mass2 s a) (cwconst s) 1 * Re (e3 s l a a)))) by (intros a A; rewrite (mlog_CW scale s a S0 (MG a A)); ring).
    rewrite rsum_scal. rewrite (rsum_ext n (fun p => fst _) (fun a => CWTerm scale (mass2 s a) (cwconst s) 1 * Re (e3 s l a a))).
    - unfold epsilon. pose proof PI_RGT_0. field. lra.
    - intros a A. rewrite fst_scal. unfold e3. rewrite SZ. unfold Re. do 2 f_equal. unfold sandwich. apply csum_ext. intros a' A'. apply csum_ext. intros b' B'. rewrite K3. reflexivity.
  Qed.
  Lemma e3_is : forall l a b, e3 s l a b = sandwich n (L3f v l) (Xr s a) (Xr s b).
  Proof using SZ K3. intros l a b. unfold e3. rewrite SZ. unfold sandwich. apply csum_ext. intros a' A'. apply csum_ext. intros b' B'. rewrite K3. reflexivity. Qed.
  Lemma hess_link : forall l m, (cwconst s = 3 / 2 \/ forall a b, (a < n)%nat -> (b < n)%nat -> mass2 s a = 0 -> mass2 s b = 0 -> e3 s m b a = RtoC 0) ->
    epsilon * rotated2 scale s l m = 2 * factor s * hess scale (cwconst s) n L3f L4f ev Y l m v.
  Proof using S0 HERM FR SZ K3 K4 FS MG MA.
    intros l m ML. unfold rotated2. rewrite SZ. unfold hess.
    rewrite (rsum_ext n (fun p => rsum n (fun q => kernel _ _ _ _ * _)) (fun p => fst (csum n (fun q => Cmult (RtoC (kernel scale (cwconst s) (ev v p) (ev v q))) (Cmult (sandwich n (L3f v l) (Y v p) (Y v q)) (sandwich n (L3f v m) (Y v q) (Y v p))))))) by (intros p P; rewrite csum_fst; apply rsum_ext; intros; rewrite fst_scal; reflexivity).
    rewrite <- csum_fst. rewrite <- (frame_sum2 n (Mf v) (HERM v) (mass2 s) (Xr s) (ev v) (Y v) (kernel scale (cwconst s)) (L3f v l) (L3f v m) FS (FR v)).
    rewrite (rsum_ext n (fun p => CWTerm scale (ev v p) (cwconst s) 1 * _) (fun p => fst (Cmult (RtoC (CWTerm scale (ev v p) (cwconst s) 1)) (sandwich n (L4f l m) (Y v p) (Y v p))))) by (intros; rewrite fst_scal; reflexivity).
    rewrite <- csum_fst. rewrite <- (frame_sum n (Mf v) (HERM v) (mass2 s) (Xr s) (ev v) (Y v) (fun x => CWTerm scale x (cwconst s) 1) (L4f l m) FS (FR v)). rewrite !csum_fst.
    rewrite rsum_plus.
    rewrite (rsum_ext n (fun i => mlog scale s i * _) (fun a => 32 * PI * PI * (fst (Cmult (RtoC (CWTerm scale (mass2 s a) (cwconst s) 1)) (sandwich n (L4f l m) (Xr s a) (Xr s a)))))).
    - rewrite (rsum_ext n (fun i => rsum n (fun b => _ * bracket scale s i b)) (fun a => 32 * PI * PI * fst (csum n (fun q => Cmult (RtoC (kernel scale (cwconst s) (mass2 s a) (mass2 s q))) (Cmult (sandwich n (L3f v l) (Xr s a) (Xr s q)) (sandwich n (L3f v m) (Xr s q) (Xr s a))))))).
      + rewrite !rsum_scal. unfold epsilon. pose proof PI_RGT_0. field. lra.
      + intros a A. rewrite csum_fst, <- rsum_scal. apply rsum_ext. intros b B. rewrite fst_scal, <- !e3_is.
        destruct (bracket_kernel scale s a b S0 (MG a A) (MG b B) (MA a b A B)) as [->|[Za [Zb [-> ->]]]]; [unfold Re; ring|].
        destruct ML as [->|ML]; [ring|]. rewrite (ML a b A B Za Zb). unfold Re. cbn. ring.
    - intros a A. rewrite (mlog_CW scale s a S0 (MG a A)), fst_scal. unfold e4. rewrite SZ. unfold Re.
      replace (sandwich n (fun a' b' => lambda4 s a' b' l m) (Xr s a) (Xr s a)) with (sandwich n (L4f l m) (Xr s a) (Xr s a)); [ring|].
      unfold sandwich. apply csum_ext. intros a' A'. apply csum_ext. intros b' B'. rewrite K4. reflexivity.
  Qed.
  Lemma bracket_sym : forall a b, (a < n)%nat -> (b < n)%nat -> bracket scale s a b = bracket scale s b a.
  Proof using MA. intros a b A B. unfold bracket. rewrite (fbase_sym scale (mass2 s a) (mass2 s b)) by (apply MA; assumption). reflexivity. Qed.
  Lemma rotated2_sym : forall l m, (forall a b, L4f l m a b = L4f m l a b) -> rotated2 scale s l m = rotated2 scale s m l.
  Proof using SZ K4 MA.
    intros l m E. unfold rotated2. f_equal. rewrite !rsum_plus. f_equal.
    - rewrite rsum_swap. apply rsum_ext. intros a A. apply rsum_ext. intros b B. rewrite SZ in A, B. rewrite (bracket_sym b a B A). f_equal. unfold Re. f_equal. ring.
    - apply rsum_ext. intros a A. do 2 f_equal. unfold e4, sandwich. apply csum_ext. intros a' A'. apply csum_ext. intros b' B'. rewrite !K4, E. reflexivity.
  Qed.
End Link.

(** * the numerical cuts *)
Lemma clip_err : forall e x, 0 <= e -> Rabs (clip e x - x) <= e.
Proof.
  intros e x E. unfold clip. destruct (Rlt_dec (Rabs x) e); [replace (0 - x) with (- x) by ring; rewrite Rabs_Ropp; lra|].
  replace (x - x) with 0 by ring. rewrite Rabs_R0. exact E.
Qed.
Lemma NumZero_pos : 0 < NumZero.
Proof. unfold NumZero. apply Rinv_0_lt_compat. apply pow_lt. lra. Qed.
Lemma epsilon_pos : 0 < epsilon <= 1.
Proof.
  unfold epsilon. pose proof PI_RGT_0. assert (P : 1 < PI) by (pose proof PI2_1; lra).
  assert (1 < 16 * PI * PI) by nra. split; [apply Rdiv_lt_0_compat; lra|]. apply Rmult_le_reg_r with (16 * PI * PI); [lra|]. unfold Rdiv. rewrite Rmult_assoc, Rinv_l by lra. lra.
Qed.
Lemma parts_cons : forall s l f, parts (s :: l) f = f s + parts l f.
Proof. reflexivity. Qed.
Lemma parts_nil : forall f, parts [] f = 0.
Proof. reflexivity. Qed.
Lemma parts_ext : forall l f g, (forall s, In s l -> f s = g s) -> parts l f = parts l g.
Proof. induction l as [|s l IH]; intros f g H; cbn; [reflexivity|]. rewrite (H s) by (left; reflexivity). f_equal. apply IH. intros; apply H; right; assumption. Qed.
Lemma parts_rsum : forall N l (h : nat -> R) f, rsum N (fun i => h i * parts l (fun s => f s i)) = parts l (fun s => rsum N (fun i => h i * f s i)).
Proof.
  intros N l h f. induction l as [|s l IH]; [rewrite parts_nil, (rsum_ext N _ (fun _ => 0)) by (intros; rewrite parts_nil; ring); apply rsum_zero|].
  rewrite parts_cons, <- IH, <- rsum_plus. apply rsum_ext. intros i I. rewrite parts_cons. ring.
Qed.
Section Cuts.
  Variables (N : nat) (HR : nat -> nat -> R) (scale : R) (secs : list sector).
  Hypothesis ORTH : forall l l', (l < N)%nat -> (l' < N)%nat -> rsum N (fun i => HR i l * HR i l') = kron l' l.
  Lemma orth_bound : forall i l, (i < N)%nat -> (l < N)%nat -> Rabs (HR i l) <= 1.
  Proof using ORTH.
    intros i l I L. pose proof (ORTH l l L L) as O1. unfold kron in O1. rewrite Nat.eqb_refl in O1.
    pose proof (rsum_term N (fun i => HR i l * HR i l) i ltac:(intros; cbn beta; nra) I) as T. cbn beta in T. rewrite O1 in T.
    apply Rsqr_incr_0_var; [|lra]. rewrite <- Rsqr_abs. unfold Rsqr. lra.
  Qed.
  Lemma FirstDeriv_back : forall l, (l < N)%nat -> FirstDeriv N HR scale secs l = parts secs (fun s => epsilon * (factor s * rsum (size s) (fun a => mlog scale s a * Re (e3 s l a a)))).
  Proof using ORTH.
    intros l L. unfold FirstDeriv. rewrite (parts_rsum N secs (fun i => HR i l) (first_part N HR scale)). rewrite (parts_ext secs _ (fun s => factor s * rsum (size s) (fun a => mlog scale s a * Re (e3 s l a a)))) by (intros s I; apply (first_back N HR scale ORTH s l L)).
    clear ORTH. induction secs as [|s r IH]; [rewrite !parts_nil; ring|]. rewrite !parts_cons, <- IH. ring.
  Qed.
  Definition exact2 (l m : nat) : R := parts secs (fun s => epsilon * rotated2 scale s l m).
  Lemma parts2 : forall l m, (l < N)%nat -> (m < N)%nat ->
    rsum N (fun i => rsum N (fun j => HR i l * HR j m * parts secs (fun s => second_part N HR scale s i j))) = parts secs (fun s => rotated2 scale s l m).
  Proof using ORTH.
    intros l m L M. rewrite (parts_ext secs (fun s => rotated2 scale s l m) (fun s => rsum N (fun i => 1 * rsum N (fun j => HR i l * HR j m * second_part N HR scale s i j)))).
    - rewrite <- (parts_rsum N secs (fun _ => 1) (fun s i => rsum N (fun j => HR i l * HR j m * second_part N HR scale s i j))). apply rsum_ext. intros i I. rewrite Rmult_1_l.
      apply (parts_rsum N secs (fun j => HR i l * HR j m) (fun s j => second_part N HR scale s i j)).
    - intros s I. rewrite <- (second_back N HR scale ORTH s l m L M). apply rsum_ext. intros. ring.
  Qed.
  Lemma second_error : forall l m, (l < N)%nat -> (m < N)%nat -> exact2 l m = exact2 m l ->
    Rabs (SecondDeriv N HR scale secs l m - exact2 l m) <= (1 + INR N * INR N) * NumZero.
  Proof using ORTH.
    intros l m L M SY. pose proof NumZero_pos as NZ. pose proof epsilon_pos as [E0 E1].
    set (P := fun i j => parts secs (fun s => second_part N HR scale s i j)).
    set (S := rsum N (fun i => rsum N (fun j => HR i l * (Storage N HR scale secs i j + Storage N HR scale secs j i) * HR j m))).
    set (d := fun i j => Storage N HR scale secs i j - P i j).
    assert (Dd : forall i j, Rabs (d i j) <= NumZero) by (intros; unfold d, Storage; apply clip_err; lra).
    assert (EX : forall a b, exact2 a b = epsilon * parts secs (fun s => rotated2 scale s a b)).
    { intros a b. unfold exact2. clear. induction secs as [|s r IH]; [rewrite !parts_nil; ring|]. rewrite !parts_cons, IH. ring. }
    assert (S1 : 1 / 2 * S = parts secs (fun s => rotated2 scale s l m) + 1 / 2 * rsum N (fun i => rsum N (fun j => HR i l * (d i j + d j i) * HR j m))).
    { rewrite (EX l m), (EX m l) in SY. apply Rmult_eq_reg_l in SY; [|lra].
      assert (S2 : S = parts secs (fun s => rotated2 scale s l m) + parts secs (fun s => rotated2 scale s m l) + rsum N (fun i => rsum N (fun j => HR i l * (d i j + d j i) * HR j m))).
      { rewrite <- (parts2 l m L M), <- (parts2 m l M L). rewrite (rsum_swap N N (fun i j => HR i m * HR j l * _)). unfold S. rewrite <- !rsum_plus. apply rsum_ext. intros i I. rewrite <- !rsum_plus. apply rsum_ext. intros j J. unfold d, P. ring. }
      rewrite S2, <- SY. field. }
    unfold SecondDeriv. fold S. pose proof (clip_err NumZero (epsilon * (1 / 2 * S)) ltac:(lra)) as C1.
    set (R0 := rsum N (fun i => rsum N (fun j => HR i l * (d i j + d j i) * HR j m))) in *.
    assert (RB : Rabs R0 <= INR N * (INR N * (2 * NumZero))).
    { apply rsum_abs. intros i I. apply rsum_abs. intros j J. rewrite !Rabs_mult. pose proof (orth_bound i l I L). pose proof (orth_bound j m J M).
      pose proof (Rabs_triang (d i j) (d j i)). pose proof (Dd i j). pose proof (Dd j i). pose proof (Rabs_pos (HR i l)). pose proof (Rabs_pos (HR j m)). pose proof (Rabs_pos (d i j + d j i)).
      apply Rle_trans with (1 * (2 * NumZero) * 1); [|lra]. apply Rmult_le_compat; [apply Rmult_le_pos; assumption|assumption| |assumption]. apply Rmult_le_compat; lra. }
    rewrite (EX l m). replace (clip NumZero (epsilon * (1 / 2 * S)) - epsilon * parts secs (fun s => rotated2 scale s l m)) with ((clip NumZero (epsilon * (1 / 2 * S)) - epsilon * (1 / 2 * S)) + epsilon * (1 / 2 * R0)) by (rewrite S1; ring).
    pose proof (Rabs_triang (clip NumZero (epsilon * (1 / 2 * S)) - epsilon * (1 / 2 * S)) (epsilon * (1 / 2 * R0))).
    assert (Rabs (epsilon * (1 / 2 * R0)) <= INR N * INR N * NumZero).
    { rewrite !Rabs_mult. rewrite (Rabs_right epsilon) by lra. rewrite (Rabs_right (1 / 2)) by lra. pose proof (Rabs_pos R0).
      apply Rle_trans with (1 * (1 / 2 * Rabs R0)); [apply Rmult_le_compat_r; lra|]. lra. }
    lra.
  Qed.
End Cuts.
