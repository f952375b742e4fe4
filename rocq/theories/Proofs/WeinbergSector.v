(** Gradient and Hessian of a sum of Coleman-Weinberg terms over the eigenvalues of a mass matrix. *)
From Coq Require Import Reals List Lra Lia ZArith FunctionalExtensionality.
From Coquelicot Require Import Coquelicot.
From Verif Require Import Model.Base Model.Loop Model.EigenDeriv Spec.EigenSpec Spec.WeinbergSpec Proofs.DerivLib Proofs.LoopProofs Proofs.EigenProofs Proofs.EigenBranch Proofs.Spectral.
Import ListNotations.
Open Scope R_scope.

Lemma csum_fst : forall n f, fst (csum n f) = rsum n (fun i => fst (f i)).
Proof. induction n as [|n IH]; intro f; cbn [csum rsum]; [reflexivity|]. cbn. rewrite IH. reflexivity. Qed.
Lemma fst_scal : forall r z, fst (Cmult (RtoC r) z) = r * fst z.
Proof. intros r z. cbn. ring. Qed.
Lemma sandwich_delta : forall n u w, sandwich n delta u w = inner n u w.
Proof.
  intros n u w. rewrite sandwich_apply. apply inner_ext; [reflexivity|]. intros a A. apply (csum_delta n a w A).
Qed.
Lemma frame_plain : forall n M lam X mu Y f, hermitian n M -> eigenframe n M lam X -> eigenframe n M mu Y ->
  rsum n (fun p => f (lam p)) = rsum n (fun p => f (mu p)).
Proof.
  intros n M lam X mu Y f H FX FY. pose proof (f_equal fst (frame_sum n M H lam X mu Y f delta FX FY)) as S. rewrite !csum_fst in S.
  rewrite (rsum_ext n _ (fun p => f (lam p))) in S.
  - rewrite S. apply rsum_ext. intros p P. rewrite fst_scal, sandwich_delta, (inner_basis n Y p p (proj2 FY) P P). unfold delta. rewrite Nat.eqb_refl. cbn. ring.
  - intros p P. rewrite fst_scal, sandwich_delta, (inner_basis n X p p (proj2 FX) P P). unfold delta. rewrite Nat.eqb_refl. cbn. ring.
Qed.
Lemma rsum_term : forall n f k, (forall i, (i < n)%nat -> 0 <= f i) -> (k < n)%nat -> f k <= rsum n f.
Proof.
  induction n as [|n IH]; intros f k P K; [lia|]. cbn [rsum]. assert (0 <= rsum n f).
  { clear - P. induction n as [|n IH]; cbn [rsum]; [lra|]. pose proof (P n ltac:(lia)). assert (0 <= rsum n f) by (apply IH; intros; apply P; lia). lra. }
  destruct (Nat.eq_dec k n) as [->|]; [lra|]. pose proof (IH f k ltac:(intros; apply P; lia) ltac:(lia)). pose proof (P n ltac:(lia)). lra.
Qed.
(** both frames have the same eigenvalues *)
Lemma frame_values : forall n M lam X mu Y p, hermitian n M -> eigenframe n M lam X -> eigenframe n M mu Y -> (p < n)%nat ->
  exists q, (q < n)%nat /\ lam p = mu q.
Proof.
  intros n M lam X mu Y p H FX FY P.
  pose proof (frame_plain n M lam X mu Y (fun x => if Req_EM_T x (lam p) then 1 else 0) H FX FY) as S. cbn beta in S.
  pose proof (rsum_term n (fun q => if Req_EM_T (lam q) (lam p) then 1 else 0) p ltac:(intros; cbn beta; match goal with |- context [Req_EM_T ?a ?b] => destruct (Req_EM_T a b) end; lra) P) as T. cbn beta in T.
  destruct (Req_EM_T (lam p) (lam p)) as [_|C]; [|congruence]. rewrite S in T.
  assert (Ex : forall m, 1 <= rsum m (fun q => if Req_EM_T (mu q) (lam p) then 1 else 0) -> exists q, (q < m)%nat /\ lam p = mu q).
  { clear. induction m as [|m IH]; cbn [rsum]; intro T; [lra|]. destruct (Req_EM_T (mu m) (lam p)) as [E|].
    - exists m. split; [lia|congruence].
    - destruct IH as [q [Q E]]; [lra|]. exists q. split; [lia|exact E]. }
  apply Ex. exact T.
Qed.

Section Sector.
  Variables (scale c : R) (N n : nat) (Mf : (nat -> R) -> cmat) (L3f : (nat -> R) -> nat -> cmat) (L4f : nat -> nat -> cmat).
  Variables (ev : (nat -> R) -> nat -> R) (Y : (nat -> R) -> nat -> nat -> C).
  Hypothesis HERM : forall v, hermitian n (Mf v).
  Hypothesis FR : forall v, eigenframe n (Mf v) (ev v) (Y v).
  Hypothesis D3 : forall v l a b, (l < N)%nat -> has_derivative (fun t => Mf (entry_set v l t) a b) (v l) (L3f v l a b).
  Hypothesis D4 : forall v l m a b, (l < N)%nat -> (m < N)%nat -> has_derivative (fun t => L3f (entry_set v m t) l a b) (v m) (L4f l m a b).
  Definition el (v : nat -> R) (D : cmat) (p q : nat) : C := sandwich n D (Y v p) (Y v q).
  Definition grad (l : nat) (v : nat -> R) : R := rsum n (fun p => CWTerm scale (ev v p) c 1 * Re (el v (L3f v l) p p)).
  Definition CW2 (x : R) : R := if Rlt_dec (Rabs x) CW_threshold then 0 else 1 / (32 * PI * PI) * (ln (Rabs x) - 2 * ln scale - c + 3 / 2).
  Definition kernel (x y : R) : R := if Req_EM_T x y then CW2 x else (CWTerm scale x c 1 - CWTerm scale y c 1) / (x - y).
  Definition hess (l m : nat) (v : nat -> R) : R :=
    rsum n (fun p => rsum n (fun q => kernel (ev v p) (ev v q) * Re (Cmult (el v (L3f v l) p q) (el v (L3f v m) q p))))
    + rsum n (fun p => CWTerm scale (ev v p) c 1 * Re (el v (L4f l m) p p)).
  Definition clear_of (v : nat -> R) : Prop := forall p, (p < n)%nat -> Rabs (ev v p) <> CW_threshold.

  Lemma CW1_derivative : forall x, Rabs x <> CW_threshold -> dl (fun y => CWTerm scale y c 1) x (CW2 x).
  Proof using.
    intros x X. assert (PP := PI_RGT_0). assert (T0 : 0 < CW_threshold) by (unfold CW_threshold; lra). unfold CW2. destruct (Rlt_dec (Rabs x) CW_threshold) as [L|L].
    - eapply dl_ext_loc with (eps0 := CW_threshold - Rabs x) (f := fun _ => 0); [lra| |apply dl_const].
      intros y Hy. unfold CWTerm. destruct (Rlt_dec (Rabs y) CW_threshold) as [|B]; [reflexivity|]. exfalso. apply B. pose proof (Rabs_triang (y - x) x) as Tr. replace (y - x + x) with y in Tr by ring. lra.
    - assert (CW_threshold < Rabs x) by lra. assert (PL : forall s, (s = 1 \/ s = -1) -> 0 < s * x -> dl (fun y => CWTerm scale y c 1) x (1 / (32 * PI * PI) * (ln (Rabs x) - 2 * ln scale - c + 3 / 2))).
      { intros s S Sx. assert (Ax : Rabs x = s * x) by (destruct S as [->| ->]; [rewrite Rabs_right; lra|rewrite Rabs_left; lra]).
        eapply dl_ext_loc with (eps0 := Rabs x - CW_threshold) (f := fun y => 1 / (32 * PI * PI) * y * (ln (s * y) - 2 * ln scale - c + 1 / 2)); [lra| |].
        - intros y Hy. assert (Y0 : CW_threshold < Rabs y) by (pose proof (Rabs_triang (x - y) y) as Tr; replace (x - y + y) with x in Tr by ring; rewrite Rabs_minus_sym in Tr; lra).
          rewrite CWTerm1 by lra. assert (Ay : Rabs y = s * y).
          { destruct S as [->| ->].
            - rewrite Rabs_right; [ring|]. destruct (Rle_or_lt 0 y); [lra|]. exfalso. rewrite Rabs_left in Y0 by lra. rewrite Rabs_left in Hy by lra. lra.
            - rewrite Rabs_left; [ring|]. destruct (Rlt_or_le y 0); [lra|]. exfalso. rewrite Rabs_right in Y0 by lra. rewrite Rabs_right in Hy by lra. lra. }
          rewrite Ay. reflexivity.
        - eapply dl_eq.
          + apply (dl_mult (fun y => 1 / (32 * PI * PI) * y) (fun y => ln (s * y) - 2 * ln scale - c + 1 / 2)).
            * apply (dl_mult (fun _ => 1 / (32 * PI * PI)) (fun y => y)); [apply dl_const|apply dl_id].
            * apply (dl_plus (fun y => ln (s * y) - 2 * ln scale - c)); [|apply dl_const]. apply (dl_minus (fun y => ln (s * y) - 2 * ln scale)); [|apply dl_const]. apply (dl_minus (fun y => ln (s * y))); [|apply dl_const].
              apply dl_ln; [|exact Sx]. apply (dl_mult (fun _ => s) (fun y => y)); [apply dl_const|apply dl_id].
          + rewrite Ax. assert (x <> 0) by (intros ->; lra). assert (s <> 0) by (destruct S; lra). field. repeat split; lra. }
      destruct (Rlt_or_le x 0) as [X0|X0]; [apply (PL (-1)); [right; reflexivity|lra]|apply (PL 1); [left; reflexivity|]].
      rewrite Rabs_right in H by lra. lra.
  Qed.

  Lemma smooth_value : forall v l lam X lam' X' p, smooth_frame n (fun t => Mf (entry_set v l t)) lam X (v l) lam' X' -> (p < n)%nat ->
    exists q, (q < n)%nat /\ lam p (v l) = ev v q.
  Proof using HERM FR.
    intros v l lam X lam' X' p F P. pose proof (smooth_eigenframe _ _ _ _ _ _ _ F (v l)) as E. cbn beta in E. rewrite entry_set_same in E.
    apply (frame_values n (Mf v) (fun p => lam p (v l)) (fun p => X p (v l)) (ev v) (Y v) p (HERM v) E (FR v) P).
  Qed.
  Lemma grad_ok : forall v l, (l < N)%nat -> smoothly_diagonalisable n (fun t => Mf (entry_set v l t)) (v l) -> clear_of v ->
    dl (fun t => rsum n (fun p => CWTerm scale (ev (entry_set v l t) p) c 0)) (v l) (grad l v).
  Proof using HERM FR D3.
    intros v l L [lam [X [lam' [X' F]]]] CL.
    eapply dl_ext.
    - intro t. apply (frame_plain n (Mf (entry_set v l t)) (fun p => lam p t) (fun p => X p t) (ev (entry_set v l t)) (Y (entry_set v l t)) (fun x => CWTerm scale x c 0) (HERM _)); [apply (smooth_eigenframe _ _ _ _ _ _ _ F t)|apply FR].
    - eapply dl_eq.
      + apply (smooth_sum n (fun t => Mf (entry_set v l t)) (L3f v l) lam X (v l) lam' X' F) with (f := fun x => CWTerm scale x c 0) (f' := fun x => CWTerm scale x c 1).
        * intros a b A B. apply D3. exact L.
        * apply HERM.
        * intros p P. destruct (smooth_value v l lam X lam' X' p F P) as [q [Q E]]. cbn beta. rewrite E. pose proof (CL q Q).
          destruct (Rlt_dec (Rabs (ev v q)) CW_threshold); [now apply CW_derivative_small|apply CW_derivative; lra].
      + pose proof (smooth_eigenframe _ _ _ _ _ _ _ F (v l)) as E. cbn beta in E. rewrite entry_set_same in E.
        pose proof (f_equal fst (frame_sum n (Mf v) (HERM v) (fun p => lam p (v l)) (fun p => X p (v l)) (ev v) (Y v) (fun x => CWTerm scale x c 1) (L3f v l) E (FR v))) as S.
        rewrite !csum_fst in S. unfold grad. rewrite (rsum_ext n (fun p => CWTerm scale (ev v p) c 1 * _) (fun p => fst (Cmult (RtoC (CWTerm scale (ev v p) c 1)) (sandwich n (L3f v l) (Y v p) (Y v p))))) by (intros; rewrite fst_scal; reflexivity).
        rewrite <- S. apply rsum_ext. intros p P. rewrite fst_scal. reflexivity.
  Qed.
  Lemma hess_ok : forall v l m, (l < N)%nat -> (m < N)%nat -> smoothly_diagonalisable n (fun t => Mf (entry_set v m t)) (v m) -> clear_of v ->
    dl (fun t => grad l (entry_set v m t)) (v m) (hess l m v).
  Proof using HERM FR D3 D4.
    intros v l m L M [lam [X [lam' [X' F]]]] CL.
    eapply dl_ext with (f := fun t => fst (csum n (fun p => Cmult (RtoC (CWTerm scale (lam p t) c 1)) (sandwich n (L3f (entry_set v m t) l) (X p t) (X p t))))).
    - intro t. rewrite (frame_sum n (Mf (entry_set v m t)) (HERM _) (fun p => lam p t) (fun p => X p t) (ev (entry_set v m t)) (Y (entry_set v m t)) (fun x => CWTerm scale x c 1) (L3f (entry_set v m t) l) (smooth_eigenframe _ _ _ _ _ _ _ F t) (FR _)).
      rewrite csum_fst. unfold grad. apply rsum_ext. intros p P. rewrite fst_scal. reflexivity.
    - pose proof (smooth_sum2 n (fun t => Mf (entry_set v m t)) (L3f v m) lam X (v m) lam' X' F) as S2.
      specialize (S2 ltac:(intros a b A B; apply D3; exact M) ltac:(apply HERM) (fun x => CWTerm scale x c 1) CW2 kernel (fun t => L3f (entry_set v m t) l) (L4f l m)).
      eapply dl_eq; [apply (proj1 (S2 ltac:(intros p P; cbn beta; apply CW1_derivative; destruct (smooth_value v m lam X lam' X' p F P) as [q [Q E]]; rewrite E; apply CL; exact Q) ltac:(intros a b A B; apply D4; assumption) ltac:(reflexivity)))|].
      pose proof (smooth_eigenframe _ _ _ _ _ _ _ F (v m)) as E. cbn beta in E. rewrite entry_set_same in *.
      rewrite (frame_sum n (Mf v) (HERM v) (fun p => lam p (v m)) (fun p => X p (v m)) (ev v) (Y v) (fun x => CWTerm scale x c 1) (L4f l m) E (FR v)).
      rewrite (frame_sum2 n (Mf v) (HERM v) (fun p => lam p (v m)) (fun p => X p (v m)) (ev v) (Y v) kernel (L3f v l) (L3f v m) E (FR v)).
      unfold hess. cbn [fst Cplus]. rewrite !csum_fst. f_equal.
      + apply rsum_ext. intros p P. rewrite csum_fst. apply rsum_ext. intros q Q. rewrite fst_scal. reflexivity.
      + apply rsum_ext. intros p P. rewrite fst_scal. reflexivity.
  Qed.
  (** masses stay away from the threshold *)
  Lemma clear_near : forall v m, smoothly_diagonalisable n (fun t => Mf (entry_set v m t)) (v m) -> clear_of v ->
    exists d, 0 < d /\ forall s, Rabs (s - v m) < d -> clear_of (entry_set v m s).
  Proof using HERM FR.
    intros v m [lam [X [lam' [X' F]]]] CL.
    assert (G : forall k, (k <= n)%nat -> exists d, 0 < d /\ forall s, Rabs (s - v m) < d -> forall p, (p < k)%nat -> Rabs (lam p s) <> CW_threshold).
    { induction k as [|k IH]; intro K; [exists 1; split; [lra|intros s _ p P; lia]|]. destruct IH as [d [D IH]]; [lia|].
      destruct (smooth_value v m lam X lam' X' k F ltac:(lia)) as [q [Q E]]. pose proof (CL q Q) as C0. rewrite <- E in C0.
      destruct (proj1 F k ltac:(lia)) as [DL _]. pose proof (derivable_continuous_pt (lam k) (v m) (exist _ (lam' k) DL)) as CT.
      destruct (CT (Rabs (Rabs (lam k (v m)) - CW_threshold)) ltac:(apply Rabs_pos_lt; lra)) as [d2 [D2 CT2]].
      exists (Rmin d d2). split; [apply Rmin_glb_lt; [lra|apply D2]|]. intros s S p P. assert (p < k \/ p = k)%nat as [Pk| ->] by lia.
      - apply (IH s); [pose proof (Rmin_l d d2); lra|exact Pk].
      - destruct (Req_EM_T s (v m)) as [->|N0]; [exact C0|]. specialize (CT2 s). unfold dist, R_met, R_dist, D_x, no_cond in CT2. cbn in CT2. unfold R_dist in CT2.
        assert (Z : Rabs (lam k s - lam k (v m)) < Rabs (Rabs (lam k (v m)) - CW_threshold)) by (apply CT2; split; [split; [exact I|congruence]|pose proof (Rmin_r d d2); lra]).
        intro T. rewrite <- T in Z. pose proof (Rabs_triang_inv2 (lam k (v m)) (lam k s)). rewrite (Rabs_minus_sym (lam k s)) in Z. lra. }
    destruct (G n (Nat.le_refl n)) as [d [D G']]. exists d. split; [exact D|]. intros s S p P.
    destruct (frame_values n (Mf (entry_set v m s)) (ev (entry_set v m s)) (Y (entry_set v m s)) (fun p => lam p s) (fun p => X p s) p (HERM _) (FR _) (smooth_eigenframe _ _ _ _ _ _ _ F s) P) as [q [Q E]].
    rewrite E. apply (G' s S q Q).
  Qed.
  (** massless pairs do not couple where squared masses cannot be negative *)
  Lemma massless_decouple : forall v m p q, (m < N)%nat -> smoothly_diagonalisable n (fun t => Mf (entry_set v m t)) (v m) ->
    (forall u r, (r < n)%nat -> 0 <= ev u r) -> (p < n)%nat -> (q < n)%nat -> ev v p = 0 -> ev v q = 0 -> el v (L3f v m) q p = RtoC 0.
  Proof using HERM FR D3.
    intros v m p q M [lam [X [lam' [X' F]]]] PS P Q Zp Zq.
    pose proof (smooth_eigenframe _ _ _ _ _ _ _ F (v m)) as E. cbn beta in E. rewrite entry_set_same in E.
    assert (L0 : forall r, (r < n)%nat -> lam r (v m) = 0 -> lam' r = 0).
    { intros r Hr Z. destruct (proj1 F r Hr) as [DL _].
      assert (NN : forall s, 0 <= lam r s).
      { intro s. destruct (frame_values n (Mf (entry_set v m s)) (fun p => lam p s) (fun p => X p s) (ev (entry_set v m s)) (Y (entry_set v m s)) r (HERM _) (smooth_eigenframe _ _ _ _ _ _ _ F s) (FR _) Hr) as [k [K EK]]. rewrite EK. apply PS. exact K. }
      pose proof (deriv_minimum (lam r) (v m - 1) (v m + 1) (v m) (exist _ (lam' r) DL)) as DMin. cbn in DMin. apply DMin; try lra. intros s _ _. rewrite Z. apply NN. }
    assert (DX : forall r s, (r < n)%nat -> (s < n)%nat -> lam r (v m) = 0 -> lam s (v m) = 0 -> sandwich n (L3f v m) (X r (v m)) (X s (v m)) = RtoC 0).
    { intros r s Hr Hs Zr Zs. rewrite (conn_first n (fun t => Mf (entry_set v m t)) (L3f v m) lam X (v m) lam' X' F ltac:(intros; apply D3; exact M) ltac:(apply HERM) s r Hs Hr).
      rewrite (L0 s Hs Zs), Zr, Zs. replace (0 - 0) with 0 by ring. ring. }
    unfold el. rewrite (sandwich_expand_l n (fun r => X r (v m)) (L3f v m) (Y v q) (Y v p) (proj2 F (v m))).
    rewrite (csum_ext n _ (fun _ => RtoC 0)); [apply csum_zero|]. intros r Hr.
    destruct (frame_overlap n (Mf v) (HERM v) (ev v) (Y v) (fun p => lam p (v m)) (fun p => X p (v m)) q r (FR v) E Q Hr) as [Er|Er]; [|rewrite Er; ring].
    rewrite (sandwich_expand_r n (fun r => X r (v m)) (L3f v m) (X r (v m)) (Y v p) (proj2 F (v m))).
    rewrite (csum_ext n _ (fun _ => RtoC 0)); [rewrite csum_zero; ring|]. intros s Hs.
    destruct (frame_overlap n (Mf v) (HERM v) (fun p => lam p (v m)) (fun p => X p (v m)) (ev v) (Y v) s p E (FR v) Hs P) as [Es|Es]; [|rewrite Es; ring].
    rewrite (DX r s Hr Hs) by congruence. ring.
  Qed.
End Sector.
