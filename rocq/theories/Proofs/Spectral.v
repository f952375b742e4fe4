(** Derivatives of sums over eigenvalues, and their independence of the basis of eigenvectors. *)
From Coq Require Import Reals List Lra Lia ZArith FunctionalExtensionality.
From Coquelicot Require Import Coquelicot.
From Verif Require Import Model.Base Model.EigenDeriv Spec.EigenSpec Spec.WeinbergSpec Proofs.DerivLib Proofs.EigenProofs Proofs.EigenBranch.
Import ListNotations.
Open Scope R_scope.

Section Frames.
  Variables (n : nat) (M : cmat).
  Hypothesis HM : hermitian n M.
  Lemma frame_overlap : forall lam X mu Y p q, eigenframe n M lam X -> eigenframe n M mu Y -> (p < n)%nat -> (q < n)%nat ->
    lam p = mu q \/ inner n (X p) (Y q) = RtoC 0.
  Proof using HM.
    intros lam X mu Y p q [EX _] [EY _] P Q.
    pose proof (sandwich_eigen n M (X p) (Y q) (RtoC (mu q)) ltac:(intros a A; rewrite <- totalC_ok; apply EY; assumption)) as S1.
    pose proof (sandwich_eigen_left n M (X p) (Y q) (lam p) HM ltac:(intros a A; rewrite <- totalC_ok; apply EX; assumption)) as S2.
    rewrite S1 in S2. set (c := inner n (X p) (Y q)) in *. destruct (Req_EM_T (lam p) (mu q)) as [E|N]; [left; exact E|right].
    assert (W : Cmult (RtoC (lam p - mu q)) c = RtoC 0) by (rewrite RtoC_minus; transitivity (Cminus (Cmult (RtoC (lam p)) c) (Cmult (RtoC (mu q)) c)); [ring|rewrite S2; ring]).
    destruct c as [c1 c2]. unfold Cmult, RtoC in W. cbn in W. pose proof (f_equal fst W) as W1. pose proof (f_equal snd W) as W2. cbn in W1, W2.
    assert (lam p - mu q <> 0) by lra. unfold RtoC. f_equal; apply (Rmult_eq_reg_l (lam p - mu q)); lra.
  Qed.
  (** <Y|D|Y> expanded in X on both sides *)
  Lemma basis_expand : forall X u a, orthobasis n X -> (a < n)%nat -> u a = csum n (fun p => Cmult (X p a) (inner n (X p) u)).
  Proof using. intros X u a [_ K] A. apply (expansion n (fun a p => X p a) K u a A). Qed.
  Lemma sandwich_expand_r : forall X D u w, orthobasis n X -> sandwich n D u w = csum n (fun p => Cmult (sandwich n D u (X p)) (inner n (X p) w)).
  Proof using.
    intros X D u w B. unfold sandwich at 1. rewrite (csum_ext n _ (fun a => csum n (fun b => csum n (fun p => Cmult (Cmult (Cmult (Cconj (u a)) (D a b)) (X p b)) (inner n (X p) w))))).
    - rewrite (csum_ext n _ (fun a => csum n (fun p => csum n (fun b => Cmult (Cmult (Cmult (Cconj (u a)) (D a b)) (X p b)) (inner n (X p) w))))) by (intros; apply csum_swap).
      rewrite csum_swap. apply csum_ext. intros p P. unfold sandwich. rewrite <- csum_scal_r. apply csum_ext. intros a A. rewrite <- csum_scal_r. reflexivity.
    - intros a A. apply csum_ext. intros b Bb. rewrite (basis_expand X w b B Bb) at 1. rewrite <- csum_scal. apply csum_ext. intros p P. ring.
  Qed.
  Lemma sandwich_expand_l : forall X D u w, orthobasis n X -> sandwich n D u w = csum n (fun p => Cmult (inner n u (X p)) (sandwich n D (X p) w)).
  Proof using.
    intros X D u w B. unfold sandwich at 1. rewrite csum_swap. rewrite (csum_ext n _ (fun b => csum n (fun a => csum n (fun p => Cmult (inner n u (X p)) (Cmult (Cmult (Cconj (X p a)) (D a b)) (w b)))))).
    - rewrite (csum_ext n _ (fun b => csum n (fun p => csum n (fun a => Cmult (inner n u (X p)) (Cmult (Cmult (Cconj (X p a)) (D a b)) (w b)))))) by (intros; apply csum_swap).
      rewrite csum_swap. apply csum_ext. intros p P. unfold sandwich. rewrite csum_swap. rewrite <- csum_scal. apply csum_ext. intros a A. rewrite <- csum_scal. reflexivity.
    - intros b Bb. apply csum_ext. intros a A. rewrite (basis_expand X u a B A) at 1. rewrite csum_conj, <- !csum_scal_r. apply csum_ext. intros p P. rewrite Cconj_mult', inner_conj. ring.
  Qed.
  Lemma inner_expand : forall X u w, orthobasis n X -> inner n u w = csum n (fun p => Cmult (inner n u (X p)) (inner n (X p) w)).
  Proof using.
    intros X u w B. unfold inner at 1. rewrite (csum_ext n _ (fun a => csum n (fun p => Cmult (Cmult (Cconj (u a)) (X p a)) (inner n (X p) w)))).
    - rewrite csum_swap. apply csum_ext. intros p P. unfold inner at 2. rewrite <- csum_scal_r. reflexivity.
    - intros a A. rewrite (basis_expand X w a B A) at 1. rewrite <- csum_scal. apply csum_ext. intros p P. ring.
  Qed.
  Lemma inner_basis : forall X p q, orthobasis n X -> (p < n)%nat -> (q < n)%nat -> inner n (X p) (X q) = delta p q.
  Proof using. intros X p q [O _] P Q. unfold inner. rewrite <- totalC_ok. apply O; assumption. Qed.
  (** sum over eigenvalues: independent of the basis *)
  Lemma frame_sum : forall lam X mu Y f D, eigenframe n M lam X -> eigenframe n M mu Y ->
    csum n (fun p => Cmult (RtoC (f (lam p))) (sandwich n D (X p) (X p))) = csum n (fun q => Cmult (RtoC (f (mu q))) (sandwich n D (Y q) (Y q))).
  Proof using HM.
    intros lam X mu Y f D FX FY. pose proof FX as [_ BX]. pose proof FY as [_ BY]. symmetry.
    transitivity (csum n (fun q => csum n (fun p => Cmult (Cmult (RtoC (f (lam p))) (sandwich n D (Y q) (X p))) (inner n (X p) (Y q))))).
    - apply csum_ext. intros q Q. rewrite (sandwich_expand_r X D (Y q) (Y q) BX), <- csum_scal. apply csum_ext. intros p P.
      destruct (frame_overlap lam X mu Y p q FX FY P Q) as [<-|E]; [ring|rewrite E; ring].
    - rewrite csum_swap. apply csum_ext. intros p P. rewrite (sandwich_expand_l Y D (X p) (X p) BY), <- csum_scal. apply csum_ext. intros q Q. ring.
  Qed.
  Lemma outer_sandwich : forall D E w u, sandwich n (fun a b => Cmult (csum n (fun c => Cmult (D a c) (w c))) (csum n (fun c => Cmult (Cconj (w c)) (E c b)))) u u
    = Cmult (sandwich n D u w) (sandwich n E w u).
  Proof using.
    intros D E w u. rewrite (sandwich_apply n D u w). unfold sandwich, inner.
    rewrite (csum_ext n _ (fun a => Cmult (Cmult (Cconj (u a)) (csum n (fun c => Cmult (D a c) (w c)))) (csum n (fun b => Cmult (csum n (fun c => Cmult (Cconj (w c)) (E c b))) (u b))))).
    - rewrite csum_scal_r. f_equal. rewrite csum_swap. apply csum_ext. intros b Bb. rewrite csum_scal_r. reflexivity.
    - intros a A. rewrite <- csum_scal. apply csum_ext. intros b Bb. ring.
  Qed.
  Lemma frame_sum2 : forall lam X mu Y (k : R -> R -> R) D E, eigenframe n M lam X -> eigenframe n M mu Y ->
    csum n (fun p => csum n (fun q => Cmult (RtoC (k (lam p) (lam q))) (Cmult (sandwich n D (X p) (X q)) (sandwich n E (X q) (X p)))))
    = csum n (fun p => csum n (fun q => Cmult (RtoC (k (mu p) (mu q))) (Cmult (sandwich n D (Y p) (Y q)) (sandwich n E (Y q) (Y p))))).
  Proof using HM.
    intros lam X mu Y k D E FX FY.
    transitivity (csum n (fun q => csum n (fun p => Cmult (RtoC (k (mu p) (lam q))) (Cmult (sandwich n D (Y p) (X q)) (sandwich n E (X q) (Y p)))))).
    - rewrite csum_swap. apply csum_ext. intros q Q.
      pose proof (frame_sum lam X mu Y (fun x => k x (lam q)) (fun a b => Cmult (csum n (fun c => Cmult (D a c) (X q c))) (csum n (fun c => Cmult (Cconj (X q c)) (E c b)))) FX FY) as S. cbn beta in S.
      rewrite (csum_ext n _ (fun p => Cmult (RtoC (k (lam p) (lam q))) (Cmult (sandwich n D (X p) (X q)) (sandwich n E (X q) (X p))))) in S by (intros p P; rewrite outer_sandwich; reflexivity).
      rewrite S. apply csum_ext. intros p P. rewrite outer_sandwich. reflexivity.
    - rewrite csum_swap. apply csum_ext. intros p P.
      pose proof (frame_sum lam X mu Y (fun x => k (mu p) x) (fun a b => Cmult (csum n (fun c => Cmult (E a c) (Y p c))) (csum n (fun c => Cmult (Cconj (Y p c)) (D c b)))) FX FY) as S. cbn beta in S.
      rewrite (csum_ext n _ (fun q => Cmult (RtoC (k (mu p) (lam q))) (Cmult (sandwich n D (Y p) (X q)) (sandwich n E (X q) (Y p))))) in S by (intros q Q; rewrite outer_sandwich; ring).
      rewrite S. apply csum_ext. intros q Q. rewrite outer_sandwich. ring.
  Qed.
End Frames.

(** * derivatives *)
Section Smooth.
  Variables (n : nat) (Mf : R -> cmat) (D : cmat) (lam : nat -> R -> R) (X : nat -> R -> nat -> C) (t : R) (lam' : nat -> R) (X' : nat -> nat -> C).
  Hypothesis F : smooth_frame n Mf lam X t lam' X'.
  Hypothesis DM : forall a b, (a < n)%nat -> (b < n)%nat -> has_derivative (fun s => Mf s a b) t (D a b).
  Hypothesis H : hermitian n (Mf t).
  Lemma smooth_eigenframe : forall s, eigenframe n (Mf s) (fun p => lam p s) (fun p => X p s).
  Proof using F. intro s. split; [|apply (proj2 F)]. intros a p A P. destruct (proj1 F p P) as [_ [_ [E _]]]. apply E. exact A. Qed.
  Lemma smooth_first : forall p, (p < n)%nat -> RtoC (lam' p) = sandwich n D (X p t) (X p t).
  Proof using F DM H. intros p P. apply (hellmann_feynman n Mf D (lam p) (X p) t (lam' p) (X' p)); [apply (proj1 F p P)|exact DM|exact H]. Qed.
  (** the derivative of a sum over eigenvalues *)
  Lemma smooth_sum : forall f f', (forall p, (p < n)%nat -> dl f (lam p t) (f' (lam p t))) ->
    dl (fun s => rsum n (fun p => f (lam p s))) t (rsum n (fun p => f' (lam p t) * Re (sandwich n D (X p t) (X p t)))).
  Proof using F DM H.
    intros f f' Df. apply (dl_rsum n (fun s p => f (lam p s)) t). intros p P. rewrite <- (smooth_first p P). cbn [Re fst RtoC].
    destruct (proj1 F p P) as [DL _]. apply (dl_comp (lam p) f t (lam' p) (f' (lam p t)) DL (Df p P)).
  Qed.
  Definition conn (q p : nat) : C := inner n (X q t) (X' p).
  Lemma conn_skew : forall p q, (p < n)%nat -> (q < n)%nat -> Cconj (conn q p) = Copp (conn p q).
  Proof using F.
    intros p q P Q. unfold conn. rewrite inner_conj.
    assert (DX : forall r a, (r < n)%nat -> (a < n)%nat -> has_derivative (fun s => X r s a) t (X' r a)) by (intros r a Hr A; destruct (proj1 F r Hr) as [_ [E _]]; apply E; exact A).
    assert (U1 : has_derivative (fun s => inner n (X p s) (X q s)) t (csum n (fun a => Cplus (Cmult (Cconj (X' p a)) (X q t a)) (Cmult (Cconj (X p t a)) (X' q a))))).
    { unfold inner. apply (hd_csum n (fun s a => Cmult (Cconj (X p s a)) (X q s a))). intros a A. apply (hd_mult (fun s => Cconj (X p s a)) (fun s => X q s a)); [apply hd_conj, DX; assumption|apply DX; assumption]. }
    rewrite csum_plus in U1. fold (inner n (X' p) (X q t)) (inner n (X p t) (X' q)) in U1.
    assert (U2 : has_derivative (fun s => inner n (X p s) (X q s)) t (RtoC 0)).
    { eapply hd_ext; [|apply (hd_const (delta p q))]. intro s. cbn beta. symmetry. apply (inner_basis n (fun r => X r s)); [apply (proj2 F)|exact P|exact Q]. }
    pose proof (hd_unique _ _ _ _ U1 U2) as E. transitivity (Cminus (Cplus (inner n (X' p) (X q t)) (inner n (X p t) (X' q))) (inner n (X p t) (X' q))); [ring|]. rewrite E. ring.
  Qed.
  Lemma conn_first : forall p q, (p < n)%nat -> (q < n)%nat ->
    sandwich n D (X q t) (X p t) = Cplus (Cmult (RtoC (lam' p)) (delta q p)) (Cmult (RtoC (lam p t - lam q t)) (conn q p)).
  Proof using F DM H.
    intros p q P Q. destruct (proj1 F p P) as [DL [DX [EX _]]]. destruct (proj1 F q Q) as [_ [_ [EQ _]]].
    assert (G : forall a, (a < n)%nat -> Cplus (csum n (fun b => Cmult (D a b) (X p t b))) (csum n (fun b => Cmult (Mf t a b) (X' p b))) = Cplus (Cmult (RtoC (lam' p)) (X p t a)) (Cmult (RtoC (lam p t)) (X' p a))).
    { intros a A. rewrite <- csum_plus.
      assert (G1 : has_derivative (fun s => csum n (fun b => Cmult (Mf s a b) (X p s b))) t (csum n (fun b => Cplus (Cmult (D a b) (X p t b)) (Cmult (Mf t a b) (X' p b))))).
      { apply (hd_csum n (fun s b => Cmult (Mf s a b) (X p s b))). intros b Bb. apply (hd_mult (fun s => Mf s a b) (fun s => X p s b)); [apply DM; assumption|apply DX; exact Bb]. }
      apply (hd_unique _ _ _ _ G1). eapply hd_ext; [|apply (hd_mult (fun s => RtoC (lam p s)) (fun s => X p s a)); [apply hd_real; exact DL|apply DX; exact A]].
      intro s. cbn beta. rewrite <- totalC_ok. symmetry. apply EX. exact A. }
    assert (S : Cplus (sandwich n D (X q t) (X p t)) (sandwich n (Mf t) (X q t) (X' p)) = Cplus (Cmult (RtoC (lam' p)) (inner n (X q t) (X p t))) (Cmult (RtoC (lam p t)) (inner n (X q t) (X' p)))).
    { rewrite !sandwich_apply. unfold inner. rewrite <- !csum_scal, <- !csum_plus. apply csum_ext. intros a A.
      transitivity (Cmult (Cconj (X q t a)) (Cplus (csum n (fun b => Cmult (D a b) (X p t b))) (csum n (fun b => Cmult (Mf t a b) (X' p b))))); [ring|]. rewrite G by exact A. ring. }
    rewrite (sandwich_eigen_left n (Mf t) (X q t) (X' p) (lam q t) H) in S by (intros a A; rewrite <- totalC_ok; apply EQ; exact A).
    rewrite (inner_basis n (fun r => X r t) q p (proj2 F t) Q P) in S. fold (conn q p) in S. rewrite RtoC_minus.
    transitivity (Cminus (Cplus (sandwich n D (X q t) (X p t)) (Cmult (RtoC (lam q t)) (conn q p))) (Cmult (RtoC (lam q t)) (conn q p))); [ring|]. rewrite S. ring.
  Qed.
  (** the derivative of a sum of expectation values weighted with functions of the eigenvalues *)
  Lemma smooth_sum2 : forall (g g' : R -> R) (k : R -> R -> R) (E : R -> cmat) (E' : cmat),
    (forall p, (p < n)%nat -> dl g (lam p t) (g' (lam p t))) ->
    (forall a b, (a < n)%nat -> (b < n)%nat -> has_derivative (fun s => E s a b) t (E' a b)) ->
    (forall x y, k x y = if Req_EM_T x y then g' x else (g x - g y) / (x - y)) ->
    has_derivative (fun s => csum n (fun p => Cmult (RtoC (g (lam p s))) (sandwich n (E s) (X p s) (X p s)))) t
      (Cplus (csum n (fun p => csum n (fun q => Cmult (RtoC (k (lam p t) (lam q t))) (Cmult (sandwich n (E t) (X p t) (X q t)) (sandwich n D (X q t) (X p t))))))
             (csum n (fun p => Cmult (RtoC (g (lam p t))) (sandwich n E' (X p t) (X p t))))).
  Proof using F DM H.
    intros g g' k E E' Dg DE K.
    assert (DX : forall r a, (r < n)%nat -> (a < n)%nat -> has_derivative (fun s => X r s a) t (X' r a)) by (intros r a Hr A; destruct (proj1 F r Hr) as [_ [Q _]]; apply Q; exact A).
    eapply hd_eq.
    - apply (hd_csum n (fun s p => Cmult (RtoC (g (lam p s))) (sandwich n (E s) (X p s) (X p s)))). intros p P.
      apply (hd_mult (fun s => RtoC (g (lam p s))) (fun s => sandwich n (E s) (X p s) (X p s))
               t (RtoC (g' (lam p t) * lam' p)) (Cplus (Cplus (sandwich n (E t) (X' p) (X p t)) (sandwich n E' (X p t) (X p t))) (sandwich n (E t) (X p t) (X' p)))).
      + apply hd_real. destruct (proj1 F p P) as [DL _]. apply (dl_comp (lam p) g t (lam' p) (g' (lam p t)) DL (Dg p P)).
      + eapply hd_eq.
        * unfold sandwich. apply (hd_csum n (fun s a => csum n (fun b => Cmult (Cmult (Cconj (X p s a)) (E s a b)) (X p s b)))). intros a A.
          apply (hd_csum n (fun s b => Cmult (Cmult (Cconj (X p s a)) (E s a b)) (X p s b))). intros b Bb.
          apply (hd_mult (fun s => Cmult (Cconj (X p s a)) (E s a b)) (fun s => X p s b)); [apply (hd_mult (fun s => Cconj (X p s a)) (fun s => E s a b)); [apply hd_conj, DX; assumption|apply DE; assumption]|apply DX; assumption].
        * unfold sandwich. rewrite <- !csum_plus. apply csum_ext. intros a A. rewrite <- !csum_plus. apply csum_ext. intros b Bb. ring.
    - set (Em := fun p q => sandwich n (E t) (X p t) (X q t)).
      assert (B : orthobasis n (fun r => X r t)) by apply (proj2 F).
      rewrite (csum_ext n _ (fun p => Cplus (Cplus (Cmult (RtoC (g' (lam p t) * lam' p)) (Em p p)) (csum n (fun q => Cminus (Cmult (RtoC (g (lam p t))) (Cmult (Em p q) (conn q p))) (Cmult (RtoC (g (lam p t))) (Cmult (conn p q) (Em q p))))))
            (Cmult (RtoC (g (lam p t))) (sandwich n E' (X p t) (X p t))))).
      + rewrite csum_plus. f_equal.
        rewrite csum_plus. rewrite (csum_ext n (fun p => csum n _) (fun p => Cplus (csum n (fun q => Cmult (RtoC (g (lam p t))) (Cmult (Em p q) (conn q p)))) (csum n (fun q => Copp (Cmult (RtoC (g (lam p t))) (Cmult (conn p q) (Em q p))))))) by (intros p P; rewrite <- csum_plus; apply csum_ext; intros; ring).
        rewrite csum_plus. rewrite (csum_swap n n (fun p q => Copp (Cmult (RtoC (g (lam p t))) (Cmult (conn p q) (Em q p))))).
        rewrite <- csum_plus. rewrite <- csum_plus. apply csum_ext. intros p P.
        rewrite <- csum_plus. rewrite <- (csum_delta n p (fun q => Cmult (RtoC (g' (lam p t) * lam' p)) (Em q p)) P).
        rewrite <- csum_plus. apply csum_ext. intros q Q. fold (Em p q).
        rewrite (conn_first p q P Q). rewrite K.
        destruct (Req_EM_T (lam p t) (lam q t)) as [Eq|Ne].
        * rewrite Eq. replace (lam q t - lam q t) with 0 by ring. unfold delta. rewrite (Nat.eqb_sym q p). destruct (Nat.eqb_spec p q) as [<-|]; [rewrite RtoC_mult; ring|ring].
        * unfold delta. rewrite (Nat.eqb_sym q p). destruct (Nat.eqb_spec p q) as [<-|]; [congruence|].
          transitivity (Cmult (RtoC (g (lam p t) - g (lam q t))) (Cmult (Em p q) (conn q p))); [rewrite RtoC_minus; ring|].
          set (kk := (g (lam p t) - g (lam q t)) / (lam p t - lam q t)).
          assert (KK : g (lam p t) - g (lam q t) = kk * (lam p t - lam q t)) by (unfold kk; field; lra). rewrite KK, RtoC_mult. ring.
      + intros p P. fold (Em p p).
        rewrite (sandwich_expand_l n (fun r => X r t) (E t) (X' p) (X p t) B). rewrite (sandwich_expand_r n (fun r => X r t) (E t) (X p t) (X' p) B).
        rewrite (csum_ext n (fun q => Cminus _ _) (fun q => Cplus (Cmult (RtoC (g (lam p t))) (Cmult (sandwich n (E t) (X p t) (X q t)) (inner n (X q t) (X' p)))) (Cmult (RtoC (g (lam p t))) (Cmult (inner n (X' p) (X q t)) (sandwich n (E t) (X q t) (X p t)))))).
        * rewrite csum_plus, !csum_scal. ring.
        * intros q Q. fold (conn q p) (Em p q) (Em q p). rewrite <- (inner_conj n (X q t) (X' p)). fold (conn q p). rewrite (conn_skew p q P Q). ring.
  Qed.
End Smooth.
