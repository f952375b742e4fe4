(** Path deformation. *)
From Coq Require Import Reals List Lra Lia ZArith Bool.
From Coquelicot Require Import Coquelicot.
From Verif Require Import Spec.ActionSpec Spec.NumDerivSpec Spec.PathDeformSpec Proofs.DerivLib Proofs.BernsteinProofs Model.Action Model.PathDeform.
Import ListNotations.
Open Scope R_scope.

Lemma dot_inner : forall d a b, dot d a b = inner d a b.
Proof. induction d as [|d IH]; intros; cbn; [reflexivity|rewrite IH; reflexivity]. Qed.
Lemma inner_ext : forall d a b a' b', (forall i, (i < d)%nat -> a i = a' i) -> (forall i, (i < d)%nat -> b i = b' i) -> inner d a b = inner d a' b'.
Proof. induction d as [|d IH]; intros a b a' b' A B; cbn; [reflexivity|]. rewrite (IH a b a' b'), A, B by (intros; try apply A; try apply B; lia). reflexivity. Qed.
Lemma inner_lin : forall d x y a b c, inner d (fun i => x * a i + y * b i) c = x * inner d a c + y * inner d b c.
Proof. induction d as [|d IH]; intros; cbn; [ring|]. rewrite IH; ring. Qed.
Lemma inner_sym : forall d a b, inner d a b = inner d b a.
Proof. induction d as [|d IH]; intros; cbn; [reflexivity|]. rewrite IH; ring. Qed.
Lemma inner_nonneg : forall d a, 0 <= inner d a a.
Proof. induction d as [|d IH]; intros; cbn; [lra|]. pose proof (IH a). pose proof (Rle_0_sqr (a d)) as S; unfold Rsqr in S. lra. Qed.

(** the curvature of a unit curve is perpendicular to it *)
Lemma inner_deriv : forall d (t k : R -> nat -> R) x, (forall i, (i < d)%nat -> derivable_pt_lim (fun x => t x i) x (k x i)) ->
  derivable_pt_lim (fun x => inner d (t x) (t x)) x (2 * inner d (k x) (t x)).
Proof.
  induction d as [|d IH]; intros t k x H; cbn [inner].
  - replace (2 * 0) with 0 by ring. apply derivable_pt_lim_const.
  - replace (2 * (inner d (k x) (t x) + k x d * t x d)) with (2 * inner d (k x) (t x) + (k x d * t x d + t x d * k x d)) by ring.
    apply (derivable_pt_lim_plus (fun x => inner d (t x) (t x)) (fun x => t x d * t x d)); [apply IH; intros; apply H; lia|].
    apply (derivable_pt_lim_mult (fun x => t x d) (fun x => t x d)); apply H; lia.
Qed.
Lemma curvature_perp : forall d c t k, unit_curve d c t k -> forall x, inner d (k x) (t x) = 0.
Proof.
  intros d c t k [D U] x.
  assert (A : derivable_pt_lim (fun x => inner d (t x) (t x)) x (2 * inner d (k x) (t x))) by (apply inner_deriv; intros; apply D; assumption).
  assert (B : derivable_pt_lim (fun x => inner d (t x) (t x)) x 0).
  { apply (derivable_pt_lim_ext (fun _ => 1)); [intros; symmetry; apply U|]. apply derivable_pt_lim_const. }
  pose proof (uniqueness_limite _ _ _ _ A B). lra.
Qed.

Section Decomposition.
  Variables (d : nat) (alpha : R) (grad : (nat -> R) -> nat -> R) (c t k : R -> nat -> R) (l l1 l2 : R -> R).
  Hypothesis U : unit_curve d c t k.
  Hypothesis DL : forall r, 0 < r -> derivable_pt_lim l r (l1 r) /\ derivable_pt_lim l1 r (l2 r).
  Lemma chain1 : forall r i, 0 < r -> (i < d)%nat -> derivable_pt_lim (fun r => c (l r) i) r (t (l r) i * l1 r).
  Proof using U DL.
    intros r i R I. apply (derivable_pt_lim_comp l (fun x => c x i)); [apply DL, R|]. apply U, I.
  Qed.
  Lemma chain2 : forall r i, 0 < r -> (i < d)%nat -> derivable_pt_lim (fun r => t (l r) i * l1 r) r (k (l r) i * l1 r ^ 2 + t (l r) i * l2 r).
  Proof using U DL.
    intros r i R I. replace (k (l r) i * l1 r ^ 2 + t (l r) i * l2 r) with ((k (l r) i * l1 r) * l1 r + t (l r) i * l2 r) by ring.
    apply (derivable_pt_lim_mult (fun r => t (l r) i) l1); [|apply DL, R].
    apply (derivable_pt_lim_comp l (fun x => t x i)); [apply DL, R|]. apply U, I.
  Qed.
  Let F r := NormalForce d (t (l r)) (k (l r)) (l1 r) (grad (c (l r))).
  Let along r := l2 r + alpha / r * l1 r - inner d (grad (c (l r))) (t (l r)).
  (** force balance in one component *)
  Lemma component : forall r i, k (l r) i * l1 r ^ 2 + t (l r) i * l2 r + alpha / r * (t (l r) i * l1 r) - grad (c (l r)) i = F r i + along r * t (l r) i.
  Proof using. intros; unfold F, along, NormalForce; change dot with inner; ring. Qed.
  Lemma perp : forall r, inner d (F r) (t (l r)) = 0.
  Proof using U.
    intros r. unfold F, NormalForce; change dot with inner. set (g := inner d (grad (c (l r))) (t (l r))).
    transitivity (inner d (fun i => l1 r ^ 2 * k (l r) i + 1 * (fun i => -1 * grad (c (l r)) i + g * t (l r) i) i) (t (l r))).
    { apply inner_ext; [intros; ring|reflexivity]. }
    rewrite inner_lin. rewrite (curvature_perp _ _ _ _ U). rewrite inner_lin. fold g. destruct U as [_ UU]. rewrite UU. ring.
  Qed.
  Lemma decomposition : field_equation d alpha grad (fun r => c (l r)) <->
    (forall r, 0 < r -> l2 r + alpha / r * l1 r = inner d (grad (c (l r))) (t (l r))) /\ (forall r i, 0 < r -> (i < d)%nat -> F r i = 0).
  Proof using U DL.
    split.
    - intros (v & a & H).
      assert (EQ : forall r i, 0 < r -> (i < d)%nat -> F r i + along r * t (l r) i = 0).
      { intros r i R I. rewrite <- component.
        assert (V : forall s, 0 < s -> v s i = t (l s) i * l1 s) by (intros s S; exact (uniqueness_limite _ _ _ _ (proj1 (H s i S I)) (chain1 s i S I))).
        destruct (H r i R I) as (_ & HA & HE).
        assert (A : a r i = k (l r) i * l1 r ^ 2 + t (l r) i * l2 r).
        { apply (uniqueness_limite (fun s => v s i) r); [exact HA|].
          apply is_derive_Reals. apply (is_derive_ext_loc (fun s => t (l s) i * l1 s)); [|apply is_derive_Reals, chain2; assumption].
          exists (mkposreal r R). intros y Hy. symmetry; apply V. unfold ball in Hy; cbn in Hy; unfold AbsRing_ball, abs, minus, plus, opp in Hy; cbn in Hy.
          apply Rabs_def2 in Hy; lra. }
        rewrite <- A, <- V by exact R. lra. }
      assert (AL : forall r, 0 < r -> along r = 0).
      { intros r R. pose proof (perp r) as P.
        assert (Q : inner d (fun i => 1 * F r i + along r * t (l r) i) (t (l r)) = 0).
        { transitivity (inner d (fun i => 0 * F r i + 0 * t (l r) i) (t (l r))); [apply inner_ext; [intros i I; rewrite Rmult_1_l, EQ by assumption; ring|reflexivity]|].
          rewrite inner_lin; ring. }
        rewrite inner_lin, P in Q. destruct U as [_ UU]; rewrite UU in Q. lra. }
      split.
      + intros r R. specialize (AL r R); unfold along in AL; lra.
      + intros r i R I. specialize (EQ r i R I). rewrite AL in EQ by exact R. lra.
    - intros [H1 H2]. exists (fun r i => t (l r) i * l1 r), (fun r i => k (l r) i * l1 r ^ 2 + t (l r) i * l2 r).
      intros r i R I. split; [apply chain1; assumption|]. split; [apply chain2; assumption|].
      pose proof (component r i) as CO. rewrite H2 in CO by assumption. unfold along in CO. rewrite H1 in CO by assumption.
      set (g := inner d _ _) in CO. replace (g - g) with 0 in CO by ring. lra.
  Qed.
End Decomposition.

(** the force has a component along a path that is not traversed with unit speed *)
Lemma along_bernstein : forall dim t k v g, dot dim (NormalForce dim t k v g) t = v ^ 2 * dot dim k t - dot dim g t * (1 - dot dim t t).
Proof.
  intros; unfold NormalForce; change dot with inner. set (a := inner dim g t).
  transitivity (inner dim (fun i => v ^ 2 * k i + 1 * (fun i => -1 * g i + a * t i) i) t); [apply inner_ext; [intros; ring|reflexivity]|].
  rewrite inner_lin, inner_lin. fold a. ring.
Qed.

(** * Gram matrix *)
Lemma lower_sum : forall m k x, dl (fun x => acc_below (fun j => bernz (S m) (Z.of_nat j) x) (S k)) x (- INR (S m) * bernz m (Z.of_nat k) x).
Proof.
  intros m k x.
  apply (dl_eq _ _ (acc_below (fun j => INR (S m) * (bernz m (Z.of_nat j - 1) x - bernz m (Z.of_nat j) x)) (S k))).
  - apply (dl_acc (fun x j => bernz (S m) (Z.of_nat j) x)). intros j _. apply dl_bernz.
  - assert (T : forall n, acc_below (fun j => INR (S m) * (bernz m (Z.of_nat j - 1) x - bernz m (Z.of_nat j) x)) n = INR (S m) * (bernz m (-1) x - bernz m (Z.of_nat n - 1) x)).
    { induction n as [|n IH]; cbn [acc_below]; [cbn; ring|]. rewrite IH. replace (Z.of_nat (S n) - 1)%Z with (Z.of_nat n) by lia. ring. }
    rewrite T. replace (Z.of_nat (S k) - 1)%Z with (Z.of_nat k) by lia. unfold bernz at 1; cbn. ring.
Qed.
Lemma bern_at0 : forall n k, bern n k 0 = if Nat.eqb k 0 then 1 else 0.
Proof.
  intros n k; unfold bern. destruct k as [|k]; cbn [Nat.eqb].
  - rewrite choose_0. cbn [pow]. replace (1 - 0) with 1 by ring. rewrite pow1; ring.
  - rewrite pow_i by lia. ring.
Qed.
Lemma bern_at1 : forall n k, (k < n)%nat -> bern n k 1 = 0.
Proof. intros n k H; unfold bern. replace (1 - 1) with 0 by ring. rewrite (pow_i (n - k)) by lia. ring. Qed.
Lemma bernz_nat : forall n k x, (k <= n)%nat -> bernz n (Z.of_nat k) x = bern n k x.
Proof. intros n k x H; unfold bernz. destruct (Z.ltb_spec (Z.of_nat k) 0); [lia|]. destruct (Z.ltb_spec (Z.of_nat n) (Z.of_nat k)); [lia|]. now rewrite Nat2Z.id. Qed.
Lemma bern_continuous : forall n k x, continuous (bern n k) x.
Proof.
  intros n k x. apply (ex_derive_continuous (bern n k) x). unfold bern. auto_derive. exact I.
Qed.
Lemma bern_integral : forall m k l0 lf, (k <= m)%nat -> l0 < lf ->
  is_RInt (fun x => bern m k ((x - l0) / (lf - l0))) l0 lf ((lf - l0) / INR (S m)).
Proof.
  intros m k l0 lf K L. set (len := lf - l0). assert (LP : 0 < len) by (unfold len; lra).
  pose proof (pos_INR m) as PM. assert (SM : 0 < INR (S m)) by (apply lt_0_INR; lia).
  set (G := fun s => acc_below (fun j => bernz (S m) (Z.of_nat j) s) (S k)).
  set (A := fun x => - (len / INR (S m)) * G ((x - l0) / len)).
  assert (GZ : G 0 = 1).
  { unfold G. assert (T : forall n, (n <= m)%nat -> acc_below (fun j => bernz (S m) (Z.of_nat j) 0) (S n) = 1).
    { induction n as [|n IH]; intros N.
      - cbn [acc_below]. rewrite bernz_nat, bern_at0 by lia. cbn; ring.
      - change (acc_below (fun j => bernz (S m) (Z.of_nat j) 0) (S (S n))) with (acc_below (fun j => bernz (S m) (Z.of_nat j) 0) (S n) + bernz (S m) (Z.of_nat (S n)) 0).
        rewrite IH by lia. rewrite bernz_nat, bern_at0 by lia. cbn [Nat.eqb]; ring. }
    apply T, K. }
  assert (GO : G 1 = 0).
  { unfold G. assert (T : forall n, (n <= S m)%nat -> acc_below (fun j => bernz (S m) (Z.of_nat j) 1) n = 0).
    { induction n as [|n IH]; intros N; cbn [acc_below]; [reflexivity|]. rewrite IH by lia. rewrite bernz_nat, bern_at1 by lia. ring. }
    apply T; lia. }
  replace (len / INR (S m)) with (A lf - A l0).
  2: { unfold A. fold len. replace (len / len) with 1 by (field; lra). replace ((l0 - l0) / len) with 0 by (field; lra). rewrite GO, GZ. ring. }
  apply (is_RInt_derive A (fun x => bern m k ((x - l0) / len))).
  - intros x _. apply is_derive_Reals. unfold A.
    replace (bern m k ((x - l0) / len)) with (- (len / INR (S m)) * ((- INR (S m) * bernz m (Z.of_nat k) ((x - l0) / len)) * / len)) by (rewrite bernz_nat by exact K; field; lra).
    apply derivable_pt_lim_scal. apply (derivable_pt_lim_comp (fun x => (x - l0) / len) G).
    + apply is_derive_Reals. auto_derive; [exact I|field; lra].
    + apply lower_sum.
  - intros x _. apply (continuous_comp (fun x => (x - l0) / len) (bern m k)); [|apply bern_continuous].
    apply (ex_derive_continuous (fun x => (x - l0) / len)). auto_derive; exact I.
Qed.
Lemma bern_product : forall n i j x, (i <= n)%nat -> (j <= n)%nat ->
  bern n i x * bern n j x * IZR (choose (2 * n) (i + j)) = IZR (choose n i) * IZR (choose n j) * bern (2 * n) (i + j) x.
Proof.
  intros n i j x I J; unfold bern. replace (2 * n - (i + j))%nat with ((n - i) + (n - j))%nat by lia. rewrite !pow_add. ring.
Qed.
Lemma gram : forall deg i j l0 lf, (deg <= 14)%nat -> (i <= deg)%nat -> (j <= deg)%nat -> l0 < lf ->
  is_RInt (fun x => Bernstein (Z.of_nat deg) (Z.of_nat i) ((x - l0) / (lf - l0)) * Bernstein (Z.of_nat deg) (Z.of_nat j) ((x - l0) / (lf - l0))) l0 lf
    (K_entry deg i j (lf - l0)).
Proof.
  intros n i j l0 lf N I J L.
  assert (CP : IZR (choose (2 * n) (i + j)) <> 0) by (apply not_0_IZR; pose proof (choose_pos (2 * n) (i + j) ltac:(lia)); lia).
  unfold K_entry. replace (2 * Z.of_nat n)%Z with (Z.of_nat (2 * n)) by lia. rewrite <- Nat2Z.inj_add.
  rewrite !nChoosek_small by lia.
  set (c := IZR (choose n i) * IZR (choose n j) / IZR (choose (2 * n) (i + j))).
  apply (is_RInt_ext (fun x => scal c (bern (2 * n) (i + j) ((x - l0) / (lf - l0))))).
  - intros x _. rewrite !Bernstein_in by lia. match goal with |- scal ?a ?b = _ => change (scal a b) with (Rmult a b) end.
    pose proof (bern_product n i j ((x - l0) / (lf - l0)) I J) as P.
    apply (Rmult_eq_reg_r (IZR (choose (2 * n) (i + j)))); [|exact CP]. rewrite P. unfold c. field. exact CP.
  - assert (E : c * ((lf - l0) / INR (S (2 * n))) = (lf - l0) * IZR (choose n i) * IZR (choose n j) / (IZR (choose (2 * n) (i + j)) * (2 * INR n + 1))).
    { rewrite S_INR, mult_INR. change (INR 2) with 2. unfold c. field. split; [pose proof (pos_INR n); lra|exact CP]. }
    rewrite <- E. apply (is_RInt_scal (fun x => bern (2 * n) (i + j) ((x - l0) / (lf - l0)))). apply bern_integral; [lia|exact L].
Qed.

(** * PathDeformationCheck *)
Definition fine (q : quotient) := match q with Num r => r < 5 / 100 | _ => False end.
Lemma fold_fine : forall (h : R -> quotient) xs a, (exists r, a = Num r /\ 0 <= r) ->
  (match fold_left (fun e x => qmax e (h x)) xs a with Num r => r < 5 / 100 | _ => False end <->
   fine a /\ List.Forall (fun x => match h x with Num r => r < 5 / 100 | Infinite => False | NotANumber => True end) xs).
Proof.
  intros h. induction xs as [|x xs IH]; intros a (r & -> & R); cbn [fold_left].
  - split; [intros H; split; [exact H|constructor]|intros [H _]; exact H].
  - destruct (h x) as [y| |] eqn:E; cbn [qmax].
    + destruct (Rlt_dec r y) as [Y|Y].
      * rewrite IH by (exists y; split; [reflexivity|lra]). split.
        { intros [A B]. cbn [fine] in *. split; [lra|]. constructor; [rewrite E; exact A|exact B]. }
        { intros [A B]. inversion B as [|u v H H' EQ]. rewrite E in H. cbn [fine] in *. split; assumption. }
      * rewrite IH by (exists r; split; [reflexivity|lra]). split.
        { intros [A B]. cbn [fine] in *. split; [exact A|]. constructor; [rewrite E; lra|exact B]. }
        { intros [A B]. inversion B as [|u v H H' EQ]. split; assumption. }
    + assert (T : fold_left (fun e x => qmax e (h x)) xs Infinite = Infinite).
      { clear. induction xs as [|x xs IH]; [reflexivity|]. cbn [fold_left]. replace (qmax Infinite (h x)) with Infinite by (destruct (h x); reflexivity). exact IH. }
      rewrite T. split; [tauto|]. intros [_ B]. inversion B as [|u v H H' EQ]. rewrite E in H. exact H.
    + rewrite IH by (exists r; split; [reflexivity|lra]). split.
      { intros [A B]. split; [exact A|]. constructor; [rewrite E; exact I|exact B]. }
      { intros [A B]. inversion B as [|u v H H' EQ]. split; assumption. }
Qed.
Lemma positions_in : forall last delta, 0 < delta -> forall fuel np M, np + INR M * delta = last -> (M <= fuel)%nat -> forall x,
  In x (positions fuel np last delta) <-> exists k, (k < M)%nat /\ x = np + INR k * delta.
Proof.
  intros last delta D. induction fuel as [|fuel IH]; intros np M E MF x; cbn [positions].
  - split; [intros []|]. intros (k & K & _); lia.
  - destruct M as [|M].
    + cbn in E. destruct (Rle_dec np (last - delta / 10)); [lra|]. split; [intros []|intros (k & K & _); lia].
    + rewrite S_INR in E. pose proof (pos_INR M) as PM. pose proof (Rmult_le_pos _ _ PM (Rlt_le _ _ D)).
      destruct (Rle_dec np (last - delta / 10)) as [LE|NLE]; [|exfalso; lra].
      cbn [In]. rewrite (IH (np + delta) M) by (try lia; lra). split.
      * intros [<-|(k & K & ->)]; [exists O; split; [lia|cbn; ring]|]. exists (S k); split; [lia|rewrite S_INR; ring].
      * intros ([|k] & K & ->); [left; cbn; ring|]. right. exists k; split; [lia|rewrite S_INR; ring].
Qed.
Lemma check_spec : forall force gradient first last, first < last ->
  (forall x, 0 <= force x /\ 0 <= gradient x) ->
  (PathDeformationCheck force gradient first last = true <->
   forall k, (1 <= k <= 499)%nat -> let x := first + INR k * ((last - first) / 500) in
     force x < 5 / 100 * gradient x \/ force x = 0 /\ gradient x = 0).
Proof.
  intros force gradient first last FL NN.
  assert (K10 : 10 * INR knots = 500) by (unfold knots; cbn; ring).
  set (delta := (last - first) / 500). assert (DP : 0 < delta) by (unfold delta; lra).
  set (h := fun np => divide (force np) (gradient np)).
  assert (H499 : INR 499 = 499) by (rewrite INR_IZR_INZ; f_equal).
  assert (S1 : PathDeformationCheck force gradient first last = true <->
    match fold_left (fun e x => qmax e (h x)) (positions (10 * knots) (first + delta) last delta) (Num 0) with Num r => r < 5 / 100 | _ => False end).
  { unfold PathDeformationCheck. rewrite K10. fold delta. unfold h.
    destruct (fold_left _ _ _) as [r| |]; [destruct (Rlt_dec r (5 / 100)); split; auto; discriminate|split; [discriminate|tauto]|split; [discriminate|tauto]]. }
  rewrite S1, fold_fine by (exists 0; split; [reflexivity|lra]).
  assert (P : forall x, In x (positions (10 * knots) (first + delta) last delta) <-> exists k, (1 <= k <= 499)%nat /\ x = first + INR k * delta).
  { intros x. rewrite (positions_in last delta DP (10 * knots) (first + delta) 499).
    - split; intros (k & K & ->); [exists (S k); split; [lia|rewrite S_INR; ring]|].
      destruct k as [|k]; [lia|]. exists k; split; [lia|rewrite S_INR; ring].
    - rewrite H499. unfold delta; field.
    - unfold knots; lia. }
  assert (EQ : forall x, (match h x with Num r => r < 5 / 100 | Infinite => False | NotANumber => True end) <-> (force x < 5 / 100 * gradient x \/ force x = 0 /\ gradient x = 0)).
  { intros x. unfold h, divide. destruct (NN x) as [A B]. destruct (Req_EM_T (gradient x) 0) as [G|G].
    - destruct (Req_EM_T (force x) 0) as [Fz|Fz]; split; try tauto. intros [Q|[Q _]]; [rewrite G in Q; lra|contradiction].
    - assert (GP : 0 < gradient x) by lra. split.
      + intros Q. left. apply (Rmult_lt_compat_r _ _ _ GP) in Q. replace (force x / gradient x * gradient x) with (force x) in Q by (field; lra). exact Q.
      + intros [Q|[_ Q]]; [|contradiction]. apply (Rmult_lt_reg_r (gradient x)); [exact GP|]. replace (force x / gradient x * gradient x) with (force x) by (field; lra). exact Q. }
  rewrite Forall_forall. split.
  - intros [_ A] k K. cbn zeta. fold delta. apply EQ, A, P. exists k; split; [exact K|reflexivity].
  - intros A. split; [cbn; lra|]. intros x X. apply P in X. destruct X as (k & K & ->). apply EQ. apply A, K.
Qed.

(** * The rounds *)
Lemma largest_ge : forall n f k, (k < n)%nat -> f k <= largest n f.
Proof. induction n as [|n IH]; intros f k K; [lia|]. cbn [largest]. destruct (Nat.eq_dec k n) as [->|]; [apply Rmax_r|]. eapply Rle_trans; [apply (IH f k); lia|apply Rmax_l]. Qed.
Lemma largest_nonneg : forall n f, 0 <= largest n f.
Proof. induction n as [|n IH]; intros f; cbn; [lra|]. eapply Rle_trans; [apply (IH f)|apply Rmax_l]. Qed.
Lemma largest_le : forall n f b, 0 <= b -> (forall k, (k < n)%nat -> f k <= b) -> largest n f <= b.
Proof. induction n as [|n IH]; intros f b B H; cbn; [exact B|]. apply Rmax_lub; [apply IH; [exact B|intros; apply H; lia]|apply H; lia]. Qed.

Section Loop.
  Variables (dim : nat) (L : R) (smooth force gradient : path -> path).
  Let single := SinglePathDeformation dim L smooth force gradient.
  Let moved s := fun k => if Nat.ltb k knots then (fun i => smooth (d_next s) k i + force (smooth (d_next s)) k i / (d_gradient s / L / d_step s)) else d_next s k.
  Let measured p := largest knots (fun k => norm dim (force p k)) / largest knots (fun k => norm dim (gradient p k)).
  Lemma single_cases : forall s, (d_error (single s) = d_error s /\ d_gradient (single s) = d_gradient s /\ d_best (single s) = d_best s) \/
    (d_error (single s) < d_error s /\ d_error (single s) = measured (smooth (d_next s)) /\ d_best (single s) = moved s /\
     0 < d_gradient (single s) /\ d_gradient (single s) = largest knots (fun k => norm dim (gradient (smooth (d_next s)) k))).
  Proof using.
    intros s. unfold single, SinglePathDeformation. cbn zeta.
    destruct (Req_EM_T (largest knots (fun k => norm dim (gradient (smooth (d_next s)) k))) 0) as [Z|Z].
    - left. destruct (d_forces s); cbn; auto.
    - pose proof (largest_nonneg knots (fun k => norm dim (gradient (smooth (d_next s)) k))) as NN.
      match goal with |- context [Rlt_dec ?a ?b] => destruct (Rlt_dec a b) as [B|B] end.
      + right. unfold measured, moved. destruct (d_forces s); cbn [d_error d_gradient d_best]; (split; [exact B|]; split; [reflexivity|]; split; [reflexivity|]; split; [lra|reflexivity]).
      + left. destruct (d_forces s); cbn; auto.
  Qed.
  Lemma single_step : forall s, d_forces s <> None -> / 10 ^ 4 <= d_step (single s) <= 1 / 10.
  Proof using.
    intros s F. unfold single, SinglePathDeformation. cbn zeta. destruct (d_forces s); [|contradiction]. cbn [d_step].
    split; [apply Rmax_r|]. apply Rmax_lub; [apply Rmin_r|replace (10 ^ 4) with 10000 by ring; lra].
  Qed.
  Lemma single_last : forall s, d_next s knots = (fun _ => 0) -> d_best s knots = (fun _ => 0) ->
    d_next (single s) knots = (fun _ => 0) /\ d_best (single s) knots = (fun _ => 0).
  Proof using.
    intros s N B. unfold single, SinglePathDeformation. cbn zeta.
    match goal with |- context [if ?c then false else ?d] => generalize (if c then false else d) end. intros better.
    destruct (d_forces s); [match goal with |- context [Rlt_dec (INR knots * ?a) ?b] => destruct (Rlt_dec (INR knots * a) b) end|];
      cbn [d_next d_best]; destruct better; rewrite ?Nat.ltb_irrefl; auto.
  Qed.
  Lemma single_forces : forall s, d_forces (single s) <> None.
  Proof using. intros s; unfold single, SinglePathDeformation; cbn zeta; destruct (d_forces s); cbn; discriminate. Qed.
  Let loop := rounds dim L smooth force gradient.
  Lemma loop_S : forall n idle s, loop (S n) idle s =
    let s' := single s in let idle := if Req_EM_T (d_error s') (d_error s) then S idle else O in
    if Rlt_dec (d_error s') (5 / 100) then (s', true) else if Rlt_dec 5 (d_error s') then (s', false) else if Nat.ltb 20 idle then (s', false) else loop n idle s'.
  Proof using. reflexivity. Qed.
  (** the states that the loop passes through *)
  Fixpoint iter (n : nat) (s : deformation) : deformation := match n with O => s | S n => single (iter n s) end.
  Lemma iter_in : forall n s, iter n (single s) = single (iter n s).
  Proof using. induction n as [|n IH]; intros s; cbn [iter]; [reflexivity|]. rewrite IH; reflexivity. Qed.
  Lemma loop_iter : forall n idle s, exists m, (m <= n)%nat /\ fst (loop n idle s) = iter m s /\
    (5 / 100 <= d_error s -> (snd (loop n idle s) = true <-> d_error (iter m s) < 5 / 100)).
  Proof using.
    induction n as [|n IH]; intros idle s.
    - exists O. split; [lia|]. split; [reflexivity|]. intros H; cbn. split; [discriminate|lra].
    - rewrite loop_S. cbn zeta. destruct (Rlt_dec (d_error (single s)) (5 / 100)) as [A|A].
      { exists 1%nat. split; [lia|]. split; [reflexivity|]. intros _; cbn. tauto. }
      destruct (Rlt_dec 5 (d_error (single s))) as [B|B].
      { exists 1%nat. split; [lia|]. split; [reflexivity|]. intros _; cbn. split; [discriminate|lra]. }
      destruct (Nat.ltb 20 _).
      { exists 1%nat. split; [lia|]. split; [reflexivity|]. intros _; cbn. split; [discriminate|lra]. }
      destruct (IH (if Req_EM_T (d_error (single s)) (d_error s) then S idle else O) (single s)) as (m & M & E & F).
      exists (S m). split; [lia|]. cbn [iter]. rewrite <- iter_in. split; [exact E|]. intros _. apply F. lra.
  Qed.
  Lemma iter_last : forall n s, d_next s knots = (fun _ => 0) -> d_best s knots = (fun _ => 0) ->
    d_next (iter n s) knots = (fun _ => 0) /\ d_best (iter n s) knots = (fun _ => 0).
  Proof using. induction n as [|n IH]; intros s N B; cbn [iter]; [auto|]. destruct (IH s N B). apply single_last; assumption. Qed.
  (** what is known of the best path *)
  Lemma iter_best : forall n s, (d_error (iter n s) = d_error s /\ d_best (iter n s) = d_best s) \/
    exists m, (m < n)%nat /\ d_error (iter n s) = measured (smooth (d_next (iter m s))) /\ d_best (iter n s) = moved (iter m s) /\
      d_error (iter n s) < d_error s /\ 0 < largest knots (fun k => norm dim (gradient (smooth (d_next (iter m s))) k)).
  Proof using.
    induction n as [|n IH]; intros s; cbn [iter]; [left; auto|].
    destruct (single_cases (iter n s)) as [(A & _ & B)|(A & B & C & D & E)].
    - rewrite A, B. destruct (IH s) as [?|(m & M & ?)]; [left; assumption|right; exists m; split; [lia|assumption]].
    - right. exists n. split; [lia|]. split; [exact B|]. split; [exact C|]. split; [|lra].
      destruct (IH s) as [[F _]|(m & _ & _ & _ & F & _)]; lra.
  Qed.
  Let start0 (p : path) : path := fun k => if Nat.ltb k knots then p k else fun _ => 0.
  Lemma deform_spec : forall p fv g0, exists n best, let s0 := mkDeformation (start0 p) (start0 p) g0 (10 ^ 100) (2 / 10 ^ 5) None in
    fst (PathDeformation dim L smooth force gradient p fv g0) = (fun k i => fv i + best k i) /\
    best = d_best (iter n s0) /\ (n <= Pos.to_nat 200)%nat /\
    (snd (PathDeformation dim L smooth force gradient p fv g0) = true <-> d_error (iter n s0) < 5 / 100).
  Proof using.
    intros p fv g0. set (s0 := mkDeformation (start0 p) (start0 p) g0 (10 ^ 100) (2 / 10 ^ 5) None).
    destruct (loop_iter (Pos.to_nat 200) 0 s0) as (n & N & E & F).
    exists n, (d_best (iter n s0)). cbn zeta.
    assert (P : PathDeformation dim L smooth force gradient p fv g0 = (fun k i => fv i + d_best (fst (loop (Pos.to_nat 200) 0 s0)) k i, snd (loop (Pos.to_nat 200) 0 s0))).
    { unfold PathDeformation. fold (start0 p). fold s0. fold loop. generalize (loop (Pos.to_nat 200) 0 s0). intros [s c]; reflexivity. }
    rewrite P. cbn [fst snd]. rewrite E. split; [reflexivity|]. split; [reflexivity|]. split; [exact N|]. apply F.
    unfold s0; cbn [d_error]. assert (1 <= 10 ^ 100) by (apply pow_R1_Rle; lra). lra.
  Qed.
  (** the result *)
  Lemma deform_result : forall p fv g0, let r := PathDeformation dim L smooth force gradient p fv g0 in
    (forall i, fst r knots i = fv i) /\
    (snd r = true -> exists q red, 0 < largest knots (fun k => norm dim (gradient q k)) /\ measured q < 5 / 100 /\
       forall k i, (k < knots)%nat -> fst r k i = fv i + (q k i + force q k i / red)).
  Proof using.
    intros p fv g0 r. destruct (deform_spec p fv g0) as (n & best & F & B & N & C). cbn zeta in *. fold r in F, C. rewrite F.
    set (s0 := mkDeformation (start0 p) (start0 p) g0 (10 ^ 100) (2 / 10 ^ 5) None) in *. subst best.
    assert (Z : start0 p knots = (fun _ => 0)) by (unfold start0; rewrite Nat.ltb_irrefl; reflexivity).
    destruct (iter_last n s0 Z Z) as [_ LB].
    split; [intros i; rewrite LB; ring|]. intros T. apply C in T.
    destruct (iter_best n s0) as [[E _]|(m & M & E & B & _ & G)].
    - exfalso. rewrite E in T. unfold s0 in T; cbn [d_error] in T. assert (1 <= 10 ^ 100) by (apply pow_R1_Rle; lra). lra.
    - exists (smooth (d_next (iter m s0))), (d_gradient (iter m s0) / L / d_step (iter m s0)).
      split; [exact G|]. split; [rewrite <- E; exact T|]. intros k i K. rewrite B. unfold moved. destruct (Nat.ltb_spec k knots); [reflexivity|lia].
  Qed.
  (** one round is enough when the first path is good *)
  Lemma deform_one : forall p fv g0, let q := smooth (start0 p) in
    0 < largest knots (fun k => norm dim (gradient q k)) -> measured q < 5 / 100 ->
    PathDeformation dim L smooth force gradient p fv g0 = (fun k i => fv i + (if Nat.ltb k knots then q k i + force q k i / (g0 / L / (2 / 10 ^ 5)) else 0), true).
  Proof using.
    intros p fv g0 q G M. set (s0 := mkDeformation (start0 p) (start0 p) g0 (10 ^ 100) (2 / 10 ^ 5) None).
    assert (E : d_error (single s0) = measured q /\ d_best (single s0) = moved s0).
    { unfold single, SinglePathDeformation. cbn zeta. unfold s0; cbn [d_next d_gradient d_step d_error d_best d_forces]. fold q.
      destruct (Req_EM_T (largest knots (fun k => norm dim (gradient q k))) 0) as [Z|Z]; [lra|].
      fold (measured q). destruct (Rlt_dec (measured q) (10 ^ 100)) as [B|B]; [cbn [d_error d_best]; split; reflexivity|].
      exfalso. assert (1 <= 10 ^ 100) by (apply pow_R1_Rle; lra). lra. }
    assert (P : loop (Pos.to_nat 200) 0 s0 = (single s0, true)).
    { destruct (Pos2Nat.is_succ 200) as [n ->]. rewrite loop_S. cbn zeta. destruct E as [-> _]. destruct (Rlt_dec (measured q) (5 / 100)); [reflexivity|contradiction]. }
    unfold PathDeformation. fold (start0 p). fold s0. fold loop. rewrite P. cbn beta iota. f_equal.
    apply FunctionalExtensionality.functional_extensionality; intros k. apply FunctionalExtensionality.functional_extensionality; intros i.
    destruct E as [_ ->]. unfold moved, s0; cbn [d_next d_gradient d_step]. fold q. destruct (Nat.ltb k knots) eqn:EK; [reflexivity|].
    unfold start0; rewrite EK; reflexivity.
  Qed.
End Loop.

(** * Examples *)
Lemma circle_unit : unit_curve 2 (fun x i => match i with O => cos x | _ => sin x end) (fun x i => match i with O => - sin x | _ => cos x end)
  (fun x i => match i with O => - cos x | _ => - sin x end).
Proof.
  split.
  - intros x [|[|i]] I; [| |lia]; split; apply is_derive_Reals; auto_derive; try exact Logic.I; ring.
  - intros x; cbn. pose proof (sin2_cos2 x) as E; unfold Rsqr in E. lra.
Qed.
Lemma bernstein_tilted : exists coef g, let t := fun _ : nat => smooth_dphi 10 coef 1 0 in let k := fun _ : nat => smooth_d2phi 10 coef 1 0 in
  NormalForce 1 t k 0 (fun _ => g) 0%nat <> 0.
Proof.
  exists (fun b => match b with O => 1 | _ => 0 end), 1. cbn zeta.
  assert (T : smooth_dphi 10 (fun b => match b with O => 1 | _ => 0 end) 1 0 = - 10).
  { unfold smooth_dphi. cbn [acc_below]. rewrite (Bernstein_out _ (Z.of_nat 0 - 1)) by lia.
    replace (Z.of_nat 10 - 1)%Z with (Z.of_nat 9) by reflexivity. rewrite (Bernstein_in 9 0) by lia. rewrite bern_at0. cbn [Nat.eqb].
    replace (INR 10) with 10 by (rewrite INR_IZR_INZ; reflexivity). field. }
  unfold NormalForce; cbn [dot]. rewrite T. lra.
Qed.
(** V = (x - 1)^2 / 2 + y / 25 on a straight path: sideways force everywhere, at knot 49 as large as the gradient *)
Definition slope : path -> path := fun p k i => match i with O => p k 0%nat - 1 | _ => 4 / 100 end.
Definition straight : path := fun k i => match i with O => 50 - INR k | _ => 0 end.
Definition flat_force (gradient : path -> path) : path -> path := fun p k => NormalForce 2 (fun i => match i with O => -1 | _ => 0 end) (fun _ => 0) 0 (gradient p k).
Lemma norm_flat : forall v g, norm 2 (NormalForce 2 (fun i => match i with O => -1 | _ => 0 end) (fun _ => 0) v g) = Rabs (g 1%nat).
Proof.
  intros v g. unfold norm, NormalForce; cbn [dot]. rewrite <- sqrt_Rsqr_abs. f_equal. unfold Rsqr. ring.
Qed.
Lemma norm_two : forall g, norm 2 g = sqrt (g 0%nat ^ 2 + g 1%nat ^ 2).
Proof. intros g; unfold norm; cbn [dot]; f_equal; ring. Qed.
Lemma largest_const : forall n f c, 0 <= c -> (forall k, (k < S n)%nat -> f k = c) -> largest (S n) f = c.
Proof.
  intros n f c C H. apply Rle_antisym; [apply largest_le; [exact C|intros; rewrite H by assumption; lra]|].
  rewrite <- (H n) by lia. apply largest_ge; lia.
Qed.
Lemma ratio_large : exists L start fv g0, snd (PathDeformation 2 L (fun p => p) (flat_force slope) slope start fv g0) = true /\
  exists k, (k < knots)%nat /\ norm 2 (slope start k) <> 0 /\ norm 2 (flat_force slope start k) = norm 2 (slope start k).
Proof.
  exists 50, straight, (fun _ => 0), 1.
  assert (ST : forall k, (k < knots)%nat -> (fun k => if Nat.ltb k knots then straight k else fun _ => 0) k = straight k) by (intros k K; cbn beta; destruct (Nat.ltb_spec k knots); [reflexivity|lia]).
  assert (G0 : 49 <= largest knots (fun k => norm 2 (slope (fun k => if Nat.ltb k knots then straight k else fun _ => 0) k))).
  { eapply Rle_trans; [|apply (largest_ge knots _ 0%nat); unfold knots; lia]. cbn beta. rewrite norm_two. unfold slope. cbn [Nat.ltb Nat.leb knots straight INR].
    replace 49 with (sqrt (49 ^ 2)) by (rewrite sqrt_pow2; lra). apply sqrt_le_1_alt. lra. }
  split.
  - rewrite deform_one; [reflexivity|lra|].
    rewrite (largest_const 49%nat _ (4 / 100)); [|lra|].
    + set (G := largest _ _) in *. apply (Rmult_lt_reg_r G); [lra|]. replace (4 / 100 / G * G) with (4 / 100) by (field; lra). lra.
    + intros k K. unfold flat_force. rewrite norm_flat. unfold slope. rewrite Rabs_right; lra.
  - exists 49%nat. split; [unfold knots; lia|].
    assert (E : norm 2 (slope straight 49%nat) = 4 / 100).
    { rewrite norm_two. unfold slope, straight. replace (INR 49%nat) with 49 by (rewrite INR_IZR_INZ; reflexivity). replace ((50 - 49 - 1) ^ 2 + (4 / 100) ^ 2) with ((4 / 100) ^ 2) by lra. rewrite sqrt_pow2; lra. }
    rewrite E. split; [lra|]. unfold flat_force. rewrite norm_flat. unfold slope. rewrite Rabs_right; lra.
Qed.
(** V = 49 x + y - 10^6 y^2 / 2 on a straight path: the move by the force leads away *)
Definition ridge : path -> path := fun p k i => match i with O => 49 | _ => 1 - 10 ^ 6 * p k 1%nat end.
Lemma best_bad : exists L start fv g0, let r := PathDeformation 2 L (fun p => p) (flat_force ridge) ridge start fv g0 in
  snd r = true /\ forall k, (k < knots)%nat -> 5 / 100 * norm 2 (ridge (fst r) k) < norm 2 (flat_force ridge (fst r) k).
Proof.
  exists 50, straight, (fun _ => 0), (norm 2 (ridge straight 0%nat)). cbn zeta.
  set (q := fun k => if Nat.ltb k knots then straight k else fun _ : nat => 0).
  assert (Y : forall k, q k 1%nat = 0) by (intros k; unfold q; destruct (Nat.ltb k knots); reflexivity).
  set (N := sqrt (2401 + 1)).
  assert (NB : 49 <= N <= 50).
  { unfold N. split; [replace 49 with (sqrt (49 ^ 2)) by (rewrite sqrt_pow2; lra)|replace 50 with (sqrt (50 ^ 2)) by (rewrite sqrt_pow2; lra)]; apply sqrt_le_1_alt; lra. }
  assert (NR : forall k, norm 2 (ridge q k) = N).
  { intros k. rewrite norm_two. unfold ridge, N. rewrite Y. f_equal. ring. }
  assert (NF : forall k, norm 2 (flat_force ridge q k) = 1).
  { intros k. unfold flat_force. rewrite norm_flat. unfold ridge. rewrite Y. rewrite Rabs_right; lra. }
  assert (N0 : norm 2 (ridge straight 0%nat) = N) by (rewrite norm_two; unfold ridge, straight, N; f_equal; ring).
  assert (LG : largest knots (fun k => norm 2 (ridge q k)) = N) by (apply (largest_const 49%nat); [lra|intros; apply NR]).
  assert (LF : largest knots (fun k => norm 2 (flat_force ridge q k)) = 1) by (apply (largest_const 49%nat); [lra|intros; apply NF]).
  rewrite deform_one; fold q; [|rewrite LG; lra|rewrite LF, LG; apply (Rmult_lt_reg_r N); [lra|]; replace (1 / N * N) with 1 by (field; lra); lra].
  cbn [fst snd]. split; [reflexivity|]. intros k K. rewrite N0.
  set (t := 1 + 10 ^ 6 * (50 * (2 / 10 ^ 5) / N)).
  set (p := fun k i => 0 + (if Nat.ltb k knots then q k i + flat_force ridge q k i / (N / 50 / (2 / 10 ^ 5)) else 0)).
  assert (R1 : ridge p k 1%nat = t).
  { unfold ridge, p. destruct (Nat.ltb_spec k knots); [|lia]. rewrite Y. unfold flat_force, NormalForce; cbn [dot]. unfold ridge. rewrite Y. unfold t. field. lra. }
  assert (TB : 20 <= t).
  { unfold t. assert (/ 50 <= / N) by (apply Rinv_le_contravar; lra). replace (1 + 10 ^ 6 * (50 * (2 / 10 ^ 5) / N)) with (1 + 1000 * / N) by (field; lra). lra. }
  change (5 / 100 * norm 2 (ridge p k) < norm 2 (NormalForce 2 (fun i => match i with O => -1 | _ => 0 end) (fun _ => 0) 0 (ridge p k))). rewrite norm_flat, norm_two, R1. rewrite (Rabs_right t) by lra. change (ridge p k 0%nat) with 49.
  apply Rsqr_incrst_0; [|apply Rmult_le_pos; [lra|apply sqrt_pos]|lra]. unfold Rsqr.
  assert (SQ : sqrt (49 ^ 2 + t ^ 2) * sqrt (49 ^ 2 + t ^ 2) = 49 ^ 2 + t ^ 2) by (apply sqrt_sqrt; pose proof (pow2_ge_0 t); lra).
  replace (5 / 100 * sqrt (49 ^ 2 + t ^ 2) * (5 / 100 * sqrt (49 ^ 2 + t ^ 2))) with (25 / 10000 * (sqrt (49 ^ 2 + t ^ 2) * sqrt (49 ^ 2 + t ^ 2))) by field.
  rewrite SQ. assert (400 <= t * t) by (assert (20 * 20 <= t * t) by (apply Rmult_le_compat; lra); lra). lra.
Qed.
Lemma largest_attained : forall n f, 0 < largest n f -> exists k, (k < n)%nat /\ f k = largest n f.
Proof.
  induction n as [|n IH]; intros f H; cbn [largest] in *; [lra|].
  unfold Rmax in *. destruct (Rle_dec (largest n f) (f n)); [exists n; split; [lia|reflexivity]|].
  destruct (IH f H) as (k & K & E). exists k; split; [lia|exact E].
Qed.
Lemma deform_max : forall dim L smooth force gradient start fv g0,
  let r := PathDeformation dim L smooth force gradient start fv g0 in
  (forall i, fst r knots i = fv i) /\
  (snd r = true -> exists q red G, 0 < G /\
     (forall k, (k < knots)%nat -> norm dim (gradient q k) <= G) /\ (exists k, (k < knots)%nat /\ norm dim (gradient q k) = G) /\
     (forall k, (k < knots)%nat -> norm dim (force q k) < 5 / 100 * G) /\
     forall k i, (k < knots)%nat -> fst r k i = fv i + (q k i + force q k i / red)).
Proof.
  intros dim L smooth force gradient start fv g0 r.
  destruct (deform_result dim L smooth force gradient start fv g0) as [A B]. fold r in A, B. split; [exact A|].
  intros T. destruct (B T) as (q & red & G & M & P). set (g := largest knots (fun k => norm dim (gradient q k))) in *.
  exists q, red, g. split; [exact G|]. split; [intros k K; apply (largest_ge knots (fun k => norm dim (gradient q k)) k K)|].
  split; [apply (largest_attained knots (fun k => norm dim (gradient q k))), G|]. split; [|exact P].
  intros k K. set (f := largest knots (fun k => norm dim (force q k))) in *.
  apply (Rle_lt_trans _ f); [apply (largest_ge knots (fun k => norm dim (force q k)) k K)|].
  apply (Rmult_lt_compat_r g) in M; [|exact G]. replace (f / g * g) with f in M by (field; lra). exact M.
Qed.
Lemma single_bounds : forall dim L smooth force gradient s,
  (d_forces s <> None -> / 10 ^ 4 <= d_step (SinglePathDeformation dim L smooth force gradient s) <= 1 / 10) /\
  d_error (SinglePathDeformation dim L smooth force gradient s) <= d_error s.
Proof.
  intros. split; [apply single_step|]. destruct (single_cases dim L smooth force gradient s) as [(E & _)|(E & _)]; rewrite ?E; lra.
Qed.

(** the step size follows the knots at which the force turned around *)
Lemma turned_count : forall dim n a b, turned dim n a b = length (filter (fun k => if Rlt_dec (inner dim (a k) (b k)) 0 then true else false) (seq 0 n)).
Proof.
  intros dim n a b. induction n as [|n IH]; [reflexivity|]. cbn [turned]. rewrite seq_S, filter_app, app_length, <- IH. cbn [filter Nat.add].
  change dot with inner. destruct (Rlt_dec (inner dim (a n) (b n)) 0); cbn [length]; lia.
Qed.
Lemma single_reversal : forall dim L smooth force gradient s old, d_forces s = Some old ->
  let p := smooth (d_next s) in let f := force p in let s' := SinglePathDeformation dim L smooth force gradient s in
  let reversed := length (filter (fun k => if Rlt_dec (inner dim (f k) (old k)) 0 then true else false) (seq 0 50)) in
  d_forces s' = Some f /\
  ((8 <= reversed)%nat -> d_step s' = Rmax (Rmin (d_step s / 5) (1 / 10)) (/ 10 ^ 4) /\ d_next s' = d_best s') /\
  ((reversed <= 7)%nat -> d_step s' = Rmax (Rmin (d_step s * (3 / 2)) (1 / 10)) (/ 10 ^ 4) /\
     forall k i, (k < 50)%nat -> d_next s' k i = p k i + f k i / (d_gradient s / L / d_step s)).
Proof.
  intros dim L smooth force gradient s old O p f s' reversed.
  assert (C : turned dim knots f old = reversed) by exact (turned_count dim knots f old). clearbody reversed.
  assert (K : INR knots = 50) by (unfold knots; rewrite INR_IZR_INZ; reflexivity).
  unfold s', SinglePathDeformation. rewrite O. cbn zeta. fold p. fold f.
  match goal with |- context [if ?c then false else ?d] => generalize (if c then false else d) end. intros better.
  rewrite C, K. clear C K. split; [reflexivity|]. split; intros R.
  - assert (8 <= INR reversed) by (apply le_INR in R; rewrite (INR_IZR_INZ 8) in R; exact R).
    destruct (Rlt_dec (50 * (15 / 100)) (INR reversed)) as [_|N]; [cbn [d_step d_next d_best]; split; reflexivity|lra].
  - assert (INR reversed <= 7) by (apply le_INR in R; rewrite (INR_IZR_INZ 7) in R; exact R).
    destruct (Rlt_dec (50 * (15 / 100)) (INR reversed)) as [N|_]; [lra|]. cbn [d_step d_next]. split; [replace (15 / 10) with (3 / 2) by lra; reflexivity|].
    intros k i I. change knots with 50%nat. destruct (Nat.ltb_spec k 50); [reflexivity|lia].
Qed.
