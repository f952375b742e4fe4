(** Proofs about the roots of splines. *)
From Coq Require Import Reals Lra Lia List Arith Bool Sorted Psatz FinFun.
From Verif Require Import Model.Spline Model.SplineRoots Spec.SplineRootsSpec Proofs.SplineProofs.
Import ListNotations.
Local Open Scope R_scope.

(** * The depressed cubic *)
Lemma three_roots : forall p q z0 z1 z2 w, z0 + z1 + z2 = 0 -> z0 * z1 + z0 * z2 + z1 * z2 = - 3 * p -> z0 * z1 * z2 = 2 * q ->
  (w ^ 3 - 3 * p * w - 2 * q = 0 <-> w = z0 \/ w = z1 \/ w = z2).
Proof.
  intros p q z0 z1 z2 w E1 E2 E3.
  assert (K : w ^ 3 - 3 * p * w - 2 * q = (w - z0) * ((w - z1) * (w - z2))).
  { replace ((w - z0) * ((w - z1) * (w - z2))) with (w ^ 3 - (z0 + z1 + z2) * w ^ 2 + (z0 * z1 + z0 * z2 + z1 * z2) * w - z0 * z1 * z2) by ring.
    rewrite E1, E2, E3. ring. }
  rewrite K. split.
  - intros H. apply Rmult_integral in H. destruct H as [H|H]; [left; lra|]. apply Rmult_integral in H. destruct H as [H|H]; [right; left; lra|right; right; lra].
  - intros [E|[E|E]]; subst w; ring.
Qed.
Lemma trigonometric : forall p q, q * q < p * p * p ->
  let ac := 1 / 3 * acos (q / (p * sqrt p)) in let sq := 2 * sqrt p in
  let z0 := sq * cos ac in let z1 := sq * cos (ac - 2 * PI / 3) in let z2 := sq * cos (ac - 4 * PI / 3) in
  z2 < z1 < z0 /\ forall w, w ^ 3 - 3 * p * w - 2 * q = 0 <-> w = z0 \/ w = z1 \/ w = z2.
Proof.
  intros p q H ac sq z0 z1 z2.
  assert (P : 0 < p) by (destruct (Rle_or_lt p 0) as [N|N]; [exfalso; assert (0 <= q * q) by nra; assert (p * p * p <= 0) by (assert (0 <= p * p) by nra; nra); lra|exact N]).
  set (r := sqrt p) in *. assert (Rp : 0 < r) by (apply sqrt_lt_R0, P). assert (Rr : r * r = p) by (apply sqrt_sqrt; lra).
  assert (K : 0 < p * r) by nra.
  set (x := q / (p * r)) in *. assert (Q : q = x * (p * r)) by (unfold x; field; split; lra).
  assert (X : -1 < x < 1).
  { assert (Y : x * x < 1).
    { apply (Rmult_lt_reg_r ((p * r) * (p * r))); [nra|]. replace (x * x * (p * r * (p * r))) with (q * q) by (rewrite Q; ring).
      replace (1 * (p * r * (p * r))) with (p * p * (r * r)) by ring. rewrite Rr. exact H. } nra. }
  set (c := cos ac). set (s := sin ac).
  assert (A0 : 0 < ac < PI / 3).
  { assert (B : 0 < acos x < PI) by (apply acos_bound_lt; exact X). unfold ac. lra. }
  assert (PP := PI_RGT_0).
  assert (C3 : 4 * c ^ 3 - 3 * c = x).
  { transitivity (cos (acos x)); [|apply cos_acos; lra]. replace (acos x) with (ac + (ac + ac)) by (unfold ac; lra).
    rewrite cos_plus, cos_plus, sin_plus. fold c s. assert (T := sin2_cos2 ac). unfold Rsqr in T. fold c s in T.
    replace (s * s) with (1 - c * c) by lra. replace (s * (s * c + c * s)) with (2 * c * (s * s)) by ring. replace (s * s) with (1 - c * c) by lra. ring. }
  assert (T : s * s = 1 - c * c) by (assert (T := sin2_cos2 ac); unfold Rsqr in T; fold c s in T; lra).
  assert (S0 : 0 < s) by (apply sin_gt_0; lra).
  assert (C0 : 1 / 2 < c) by (rewrite <- cos_PI3; apply cos_decreasing_1; lra).
  set (t := sqrt 3). assert (T3 : t * t = 3) by (apply sqrt_sqrt; lra). assert (T0 : 0 < t) by (apply sqrt_lt_R0; lra).
  assert (E1 : cos (ac - 2 * PI / 3) = 1 / 2 * (- c + t * s)).
  { rewrite cos_minus. replace (2 * PI / 3) with (2 * (PI / 3)) by lra. rewrite cos_2PI3, sin_2PI3. fold c s t. lra. }
  assert (E2 : cos (ac - 4 * PI / 3) = 1 / 2 * (- c - t * s)).
  { rewrite cos_minus. replace (4 * PI / 3) with (PI / 3 + PI) by lra. rewrite neg_cos, neg_sin, cos_PI3, sin_PI3. fold c s t. lra. }
  assert (Z0 : z0 = 2 * r * c) by reflexivity. assert (Z1 : z1 = r * (- c + t * s)) by (unfold z1, sq; rewrite E1; lra).
  assert (Z2 : z2 = r * (- c - t * s)) by (unfold z2, sq; rewrite E2; lra).
  assert (TS : t * s < 3 / 2).
  { assert (s * s < 3 / 4) by nra. assert ((t * s) * (t * s) < 9 / 4) by (replace (t * s * (t * s)) with ((t * t) * (s * s)) by ring; rewrite T3; lra).
    assert (0 < t * s) by nra. nra. }
  assert (TS0 : 0 < t * s) by nra. clearbody z0 z1 z2 c s t r x. clear E1 E2 sq A0.
  split; [rewrite Z0, Z1, Z2; split; nra|].
  intros w. apply three_roots.
  - rewrite Z0, Z1, Z2. ring.
  - rewrite Z0, Z1, Z2. transitivity (r * r * (- 3 * (c * c) - t * t * (s * s))); [ring|]. rewrite T3, T, Rr. ring.
  - rewrite Z0, Z1, Z2. transitivity (2 * (r * r) * r * (c * (c * c - t * t * (s * s)))); [ring|]. rewrite T3, T, Rr. rewrite Q, <- C3. ring.
Qed.
Lemma cardano : forall p q, p * p * p < q * q ->
  let sgnq := if Rle_dec 0 q then 1 else -1 in let C := sgnq * Rpower (Rabs q + sqrt (- (p * p * p - q * q))) (1 / 3) in
  forall w, w ^ 3 - 3 * p * w - 2 * q = 0 <-> w = C + p / C.
Proof.
  intros p q H sgnq C w. set (D := sqrt (- (p * p * p - q * q))) in *.
  assert (D0 : 0 < D) by (apply sqrt_lt_R0; lra). assert (DD : D * D = q * q - p * p * p) by (unfold D; rewrite sqrt_sqrt by lra; ring).
  set (basis := Rabs q + D) in *. assert (B0 : 0 < basis) by (assert (A := Rabs_pos q); unfold basis; lra).
  assert (S1 : sgnq * sgnq = 1) by (unfold sgnq; destruct (Rle_dec 0 q); ring).
  assert (Sq : sgnq * Rabs q = q) by (unfold sgnq; destruct (Rle_dec 0 q); [rewrite Rabs_right by lra|rewrite Rabs_left by lra]; ring).
  assert (G0 : 0 < Rpower basis (1 / 3)) by apply exp_pos.
  assert (G3 : Rpower basis (1 / 3) ^ 3 = basis).
  { rewrite <- Rpower_pow by exact G0. rewrite Rpower_mult. replace (1 / 3 * INR 3) with 1 by (cbn; lra). apply Rpower_1, B0. }
  set (g := Rpower basis (1 / 3)) in *.
  assert (C0 : C <> 0) by (unfold C; intros E; apply Rmult_integral in E; destruct E as [E|E]; [rewrite E in S1; lra|lra]).
  assert (C3 : C ^ 3 = sgnq * basis) by (unfold C; rewrite Rpow_mult_distr, G3; replace (sgnq ^ 3) with (sgnq * sgnq * sgnq) by ring; rewrite S1; ring).
  assert (T0 : C ^ 3 <> 0) by (apply pow_nonzero, C0).
  assert (PT : p ^ 3 / C ^ 3 = sgnq * (Rabs q - D)).
  { apply (Rmult_eq_reg_r (C ^ 3)); [|exact T0]. replace (p ^ 3 / C ^ 3 * C ^ 3) with (p * p * p) by (field; exact C0). rewrite C3. unfold basis.
    replace (sgnq * (Rabs q - D) * (sgnq * (Rabs q + D))) with (sgnq * sgnq * (Rabs q * Rabs q - D * D)) by ring. rewrite S1, DD.
    rewrite <- Rabs_mult, (Rabs_right (q * q)) by nra. ring. }
  assert (R0 : (C + p / C) ^ 3 - 3 * p * (C + p / C) - 2 * q = 0).
  { replace ((C + p / C) ^ 3 - 3 * p * (C + p / C) - 2 * q) with (C ^ 3 + p ^ 3 / C ^ 3 - 2 * q) by (field; exact C0). rewrite PT, C3. unfold basis.
    transitivity (2 * (sgnq * Rabs q) - 2 * q); [ring|]. rewrite Sq. ring. }
  set (z := C + p / C) in *.
  assert (Z : 4 * p < z * z).
  { assert (E : z * z - 4 * p = (C - p / C) * (C - p / C)) by (unfold z; field; exact C0).
    assert (N : C - p / C <> 0).
    { intros N. assert (E' : C * C = p) by (apply (Rmult_eq_reg_r (/ C)); [|apply Rinv_neq_0_compat, C0]; replace (C * C * / C) with C by (field; exact C0); unfold Rdiv in N; lra).
      assert (F : C ^ 3 * C ^ 3 = p * p * p) by (rewrite <- E'; ring). rewrite C3 in F. unfold basis in F.
      assert (A := Rabs_pos q). assert (QQ : Rabs q * Rabs q = q * q) by (rewrite <- Rabs_mult; apply Rabs_right; nra).
      replace (sgnq * (Rabs q + D) * (sgnq * (Rabs q + D))) with (sgnq * sgnq * ((Rabs q + D) * (Rabs q + D))) in F by ring. rewrite S1 in F. nra. }
    assert (0 < (C - p / C) * (C - p / C)) by (destruct (Rlt_or_le 0 (C - p / C)) as [Y|Y]; [nra|destruct Y as [Y|Y]; [nra|contradiction]]). lra. }
  clearbody z. split; [|intros ->; exact R0]. intros W.
  assert (F : (w - z) * (w * w + w * z + z * z - 3 * p) = 0) by (transitivity ((w ^ 3 - 3 * p * w - 2 * q) - (z ^ 3 - 3 * p * z - 2 * q)); [ring|lra]).
  apply Rmult_integral in F. destruct F as [F|F]; [lra|]. exfalso.
  assert (Y := Rle_0_sqr (w + z / 2)). unfold Rsqr in Y. lra.
Qed.

(** * The list of zeros *)
Lemma newton_root : forall f f1 n x, f x = 0 -> newton f f1 n x = x.
Proof.
  intros f f1 n x H. unfold newton. set (g := fun x : R => if Rlt_dec (1 / 10 ^ 8) (Rabs (f1 x)) then x - f x / f1 x else x).
  induction n as [|n IH]; [reflexivity|]. change (g (Nat.iter n g x) = x). rewrite IH. unfold g. destruct (Rlt_dec (1 / 10 ^ 8) (Rabs (f1 x))); [|reflexivity].
  rewrite H. unfold Rdiv. ring.
Qed.
Lemma in_insert : forall x l y, In y (insert_sorted x l) <-> y = x \/ In y l.
Proof.
  intros x l y. induction l as [|z l IH]; cbn [insert_sorted]; [cbn; intuition|]. destruct (Rle_dec x z); cbn [In]; [intuition|]. rewrite IH. intuition.
Qed.
Lemma in_sort : forall l y, In y (sort l) <-> In y l.
Proof. induction l as [|x l IH]; intros y; [reflexivity|]. cbn [sort fold_right]. fold (sort l). rewrite in_insert, IH. cbn. intuition. Qed.
Lemma insert_sorted_lt : forall x l, StronglySorted Rlt l -> ~ In x l -> StronglySorted Rlt (insert_sorted x l).
Proof.
  intros x l H. induction H as [|y l S IH F]; intros N; cbn [insert_sorted]; [repeat constructor|].
  destruct (Rle_dec x y) as [L|L].
  - constructor; [constructor; assumption|]. assert (x < y) by (destruct L as [L|L]; [exact L|subst; exfalso; apply N; left; reflexivity]).
    constructor; [assumption|]. rewrite List.Forall_forall in *. intros z Z. specialize (F z Z). lra.
  - constructor; [apply IH; intros I; apply N; right; exact I|]. rewrite List.Forall_forall in *. intros z Z. apply in_insert in Z. destruct Z as [->|Z]; [lra|apply F, Z].
Qed.
Lemma sort_sorted : forall l, NoDup l -> StronglySorted Rlt (sort l).
Proof. intros l N. induction N as [|x l I N IH]; [constructor|]. cbn [sort fold_right]. fold (sort l). apply insert_sorted_lt; [exact IH|]. rewrite in_sort. exact I. Qed.
Lemma smallest_fold : forall z l acc, (forall i, In i l -> (i < length z)%nat) -> (snd acc < length z)%nat -> fst acc = Rabs (nth (snd acc) z 0) ->
  let r := fold_left (fun '(xmin, imin) i => let v := Rabs (nth i z 0) in if Rlt_dec v xmin then (v, i) else (xmin, imin)) l acc in
  (snd r < length z)%nat /\ fst r = Rabs (nth (snd r) z 0) /\ fst r <= fst acc /\ forall i, In i l -> fst r <= Rabs (nth i z 0).
Proof.
  intros z l. induction l as [|j l IH]; intros [xm im] L B E; cbn [fst snd] in *.
  - cbn. split; [exact B|]. split; [exact E|]. split; [lra|]. intros i [].
  - cbn [fold_left]. cbv zeta. destruct (Rlt_dec (Rabs (nth j z 0)) xm) as [Y|Y].
    + destruct (IH (Rabs (nth j z 0), j)) as (H1 & H2 & H3 & H4); [intros i I; apply L; right; exact I|apply L; left; reflexivity|reflexivity|]. cbv zeta in *.
      cbn [fst snd] in H3. split; [exact H1|]. split; [exact H2|]. split; [lra|]. intros i [<-|I]; [exact H3|apply H4, I].
    + destruct (IH (xm, im)) as (H1 & H2 & H3 & H4); [intros i I; apply L; right; exact I|exact B|exact E|]. cbv zeta in *.
      cbn [fst snd] in H3. split; [exact H1|]. split; [exact H2|]. split; [exact H3|]. intros i [<-|I]; [lra|apply H4, I].
Qed.
Lemma store_same : forall z i, (i < length z)%nat -> store z i (nth i z 0) = z.
Proof.
  induction z as [|x z IH]; intros i H; [cbn in H; lia|]. destruct i as [|i]; [reflexivity|]. unfold store. cbn [firstn skipn nth app].
  f_equal. cbn in H. apply IH. lia.
Qed.
Lemma fudge : forall z, In 0 z -> store z (smallest z) 0 = z.
Proof.
  intros z I. assert (L : (0 < length z)%nat) by (destruct z; [destruct I|cbn; lia]).
  destruct (smallest_fold z (seq 1 (length z - 1)) (Rabs (nth 0 z 0), 0%nat)) as (H1 & H2 & H3 & H4);
    [intros i J; apply in_seq in J; lia|exact L|reflexivity|]. cbv zeta in *. cbn [fst] in H3.
  change (snd (fold_left _ _ _)) with (smallest z) in H1, H2. set (m := fst (fold_left _ _ _)) in *.
  assert (Z : nth (smallest z) z 0 = 0).
  { apply (In_nth _ _ 0) in I. destruct I as (k & K & E). assert (M : m <= 0).
    { destruct k as [|k]; [rewrite E, Rabs_R0 in H3; exact H3|]. specialize (H4 (S k)). rewrite E, Rabs_R0 in H4. apply H4, in_seq. lia. }
    rewrite H2 in M. assert (A := Rabs_pos (nth (smallest z) z 0)). destruct (Req_dec (nth (smallest z) z 0) 0) as [Q|Q]; [exact Q|].
    apply Rabs_pos_lt in Q. lra. }
  rewrite <- Z at 1. apply store_same, H1.
Qed.

(** * Lines and parabolas *)
Lemma half : 0.5 = 1 / 2.
Proof. lra. Qed.
Lemma mhalf : - 0.5 = - (1 / 2).
Proof. lra. Qed.
Lemma linear_zeros : forall a b, b <> 0 \/ a <> 0 -> all_zeros (cubic a b 0 0) (solve_linear a b).
Proof.
  intros a b H. unfold solve_linear, all_zeros, cubic. destruct (Req_EM_T b 0) as [->|B].
  - destruct (Req_EM_T a 0) as [->|A]; [destruct H; contradiction|]. split; [constructor|]. intros x. split; [intros []|]. intros E. apply A. lra.
  - split; [repeat constructor|]. intros x. cbn [In]. split.
    + intros [<-|[]]. field. exact B.
    + intros E. left. apply (Rmult_eq_reg_r b); [|exact B]. unfold Rdiv. rewrite Rmult_assoc, Rinv_l by exact B. lra.
Qed.
Lemma map_same : forall (g : R -> R) l, (forall x, In x l -> g x = x) -> map g l = l.
Proof. intros g l H. rewrite <- (map_id l) at 2. apply map_ext_in. intros x I. apply H, I. Qed.
Lemma half_eps : 0.5 * get_eps = / 2 ^ 53.
Proof. unfold get_eps. change (2 ^ 53) with (2 * 2 ^ 52). rewrite Rinv_mult_distr; [lra|lra|apply pow_nonzero; lra]. Qed.
Lemma quadratic_zeros : forall a b c k, c <> 0 -> separated2 a b c -> all_zeros (cubic a b c 0) (solve_quadratic a b c k).
Proof.
  intros a b c k C S. unfold solve_quadratic. destruct (Req_EM_T c 0) as [E|_]; [contradiction|]. cbv zeta. rewrite half_eps, half.
  set (p := 1 / 2 * b / c). set (q := a / c). set (e := / 2 ^ 53). assert (E0 : 0 < e) by (apply Rinv_0_lt_compat, pow_lt; lra).
  assert (CC : 0 < c * c) by (destruct (Rlt_or_le 0 c); [nra|assert (c < 0) by lra; nra]).
  assert (D : disc2 a b c = 4 * (c * c) * (p * p - q)) by (unfold disc2, p, q; field; exact C).
  assert (W : forall x, cubic a b c 0 x = c * ((x + p) * (x + p) - (p * p - q))) by (intros x; unfold cubic, p, q; field; exact C).
  assert (Z : forall x, cubic a b c 0 x = 0 <-> (x + p) * (x + p) = p * p - q).
  { intros x. rewrite W. split; [|intros ->; ring]. intros H. apply Rmult_integral in H. destruct H; [contradiction|lra]. }
  assert (S' : p * p - q = 0 \/ (7 * (p * p) + 4 * Rabs q) * e < Rabs (p * p - q)).
  { destruct S as [S|S].
    - left. rewrite D in S. apply Rmult_integral in S. destruct S as [S|S]; [lra|exact S].
    - right. rewrite D, (Rabs_mult (4 * (c * c))), (Rabs_right (4 * (c * c))) in S by lra. unfold Rdiv in S. fold e in S.
      apply (Rmult_lt_reg_l (4 * (c * c))); [lra|]. eapply Rle_lt_trans; [|exact S]. apply Req_le.
      replace (Rabs (a * c)) with (c * c * Rabs q); [unfold p; field; exact C|]. unfold q.
      rewrite <- (Rabs_right (c * c)) at 1 by lra. rewrite <- Rabs_mult. f_equal. field. exact C. }
  clearbody p q. set (l := if Rle_dec _ _ then _ else _).
  assert (G : all_zeros (cubic a b c 0) l).
  { unfold l. destruct (Rle_dec (Rabs (p * p - q)) ((6 * (p * p) + 3 * Rabs q + Rabs (p * p - q)) * e)) as [L|L].
    - assert (F : p * p - q = 0).
      { destruct S' as [S'|S']; [exact S'|]. exfalso.
        assert (T : Rabs (p * p - q) <= p * p + Rabs q) by (unfold Rminus; eapply Rle_trans; [apply Rabs_triang|rewrite Rabs_Ropp, (Rabs_right (p * p)) by nra; lra]). nra. }
      split; [repeat constructor|]. intros x. rewrite Z, F. cbn [In]. split; [intros [<-|[]]; ring|]. intros H. left. apply Rmult_integral in H. lra.
    - destruct (Rlt_dec (p * p - q) 0) as [N|N].
      + split; [constructor|]. intros x. rewrite Z. split; [intros []|]. intros H. assert (0 <= (x + p) * (x + p)) by (apply Rle_0_sqr). lra.
      + assert (P : 0 < p * p - q).
        { destruct (Rle_lt_or_eq_dec 0 (p * p - q)) as [Y|Y]; [lra|exact Y|]. exfalso. apply L. rewrite <- Y, Rabs_R0.
          assert (A := Rabs_pos q). assert (0 <= p * p) by apply Rle_0_sqr. apply Rmult_le_pos; lra. }
        set (r := sqrt (p * p - q)). assert (R0 : 0 < r) by (apply sqrt_lt_R0, P). assert (RR : r * r = p * p - q) by (apply sqrt_sqrt; lra).
        split; [constructor; [repeat constructor|constructor; [lra|constructor]]|]. intros x. rewrite Z, <- RR. cbn [In]. split.
        * intros [<-|[<-|[]]]; ring.
        * intros H. assert (F : (x + p - r) * (x + p + r) = 0) by lra. apply Rmult_integral in F. destruct F; [right; left; lra|left; lra]. }
  destruct G as [G1 G2]. rewrite map_same; [split; assumption|]. intros x I. apply newton_root. apply G2 in I. unfold cubic in I. lra.
Qed.
Lemma quadratic_residual : forall a b c x, c <> 0 -> In x (solve_quadratic a b c 0) -> Rabs (cubic a b c 0 x) <= (7 * (b ^ 2 / Rabs c) + 16 * Rabs a) / 2 ^ 55.
Proof.
  intros a b c x C I. unfold solve_quadratic in I. destruct (Req_EM_T c 0) as [E|_]; [contradiction|]. cbv zeta in I. rewrite half_eps, half in I.
  set (p := 1 / 2 * b / c) in *. set (q := a / c) in *. set (e := / 2 ^ 53) in *. assert (E0 : 0 < e) by (apply Rinv_0_lt_compat, pow_lt; lra).
  assert (W : forall x, cubic a b c 0 x = c * ((x + p) * (x + p) - (p * p - q))) by (intros y; unfold cubic, p, q; field; exact C).
  assert (B : Rabs c * ((7 * (p * p) + 4 * Rabs q) * e) = (7 * (b ^ 2 / Rabs c) + 16 * Rabs a) / 2 ^ 55).
  { assert (C' : Rabs c <> 0) by (apply Rabs_no_R0, C). replace (p * p) with (1 / 4 * (b ^ 2 / (Rabs c * Rabs c))).
    - assert (QA : Rabs q = Rabs a / Rabs c) by (unfold q, Rdiv; rewrite Rabs_mult, Rabs_Rinv by exact C; reflexivity). rewrite QA. unfold e. change (2 ^ 55) with (2 * (2 * 2 ^ 53)). assert (N53 : 2 ^ 53 <> 0) by (apply pow_nonzero; lra). revert N53. generalize (2 ^ 53). intros t N53. field. tauto.
    - unfold p. rewrite <- Rabs_mult, (Rabs_right (c * c)) by (apply Rle_ge, Rle_0_sqr). field. exact C. }
  rewrite <- B. assert (N : 0 <= (7 * (p * p) + 4 * Rabs q) * e) by (assert (A := Rabs_pos q); assert (0 <= p * p) by apply Rle_0_sqr; apply Rmult_le_pos; lra).
  rewrite (map_ext _ (fun x => x)) in I by reflexivity. rewrite map_id in I. rewrite W, Rabs_mult. apply Rmult_le_compat_l; [apply Rabs_pos|].
  assert (T : Rabs (p * p - q) <= p * p + Rabs q) by (unfold Rminus; eapply Rle_trans; [apply Rabs_triang|rewrite Rabs_Ropp, (Rabs_right (p * p)) by (apply Rle_ge, Rle_0_sqr); lra]).
  destruct (Rle_dec (Rabs (p * p - q)) ((6 * (p * p) + 3 * Rabs q + Rabs (p * p - q)) * e)) as [L|L].
  - destruct I as [<-|[]]. replace ((- p + p) * (- p + p) - (p * p - q)) with (- (p * p - q)) by ring. rewrite Rabs_Ropp. eapply Rle_trans; [exact L|]. apply Rmult_le_compat_r; lra.
  - destruct (Rlt_dec (p * p - q) 0) as [Y|Y]; [destruct I|]. assert (RR : sqrt (p * p - q) * sqrt (p * p - q) = p * p - q) by (apply sqrt_sqrt; lra).
    destruct I as [<-|[<-|[]]]; match goal with |- Rabs ?t <= _ => replace t with 0 by lra end; rewrite Rabs_R0; exact N.
Qed.

(** * The cubic *)
Lemma depressed_zeros : forall p q pe de, 0 <= pe -> 0 <= de -> (p = 0 \/ pe < Rabs p) -> (p * p * p - q * q = 0 \/ de < Rabs (p * p * p - q * q)) ->
  NoDup (depressed p q (p * p * p - q * q) pe de) /\ forall w, In w (depressed p q (p * p * p - q * q) pe de) <-> w ^ 3 - 3 * p * w - 2 * q = 0.
Proof.
  intros p q pe de PE DE HP HD. unfold depressed.
  destruct (Rle_dec (Rabs (p * p * p - q * q)) de) as [L|L].
  - assert (Z : p * p * p - q * q = 0) by (destruct HD; [assumption|lra]). destruct (Rle_dec (Rabs p) pe) as [M|M].
    + assert (P0 : p = 0) by (destruct HP; [assumption|lra]). subst p. assert (Q0 : q * q = 0) by lra. assert (q = 0) by (apply Rmult_integral in Q0; tauto). subst q.
      split; [repeat constructor; intros []|]. intros w. cbn [In]. split; [intros [<-|[]]; ring|]. intros H. left.
      assert (E : w * (w * w) = 0) by lra. apply Rmult_integral in E. destruct E as [E|E]; [lra|]. apply Rmult_integral in E. lra.
    + assert (P0 : p <> 0) by (intros ->; rewrite Rabs_R0 in M; lra). assert (Q0 : q <> 0).
      { intros ->. assert (F : p * (p * p) = 0) by lra. apply Rmult_integral in F. destruct F as [F|F]; [contradiction|]. apply Rmult_integral in F. tauto. }
      assert (V : 2 * q / p <> - 0.5 * (2 * q / p)).
      { intros E. assert (E' : 2 * q / p = 0) by lra. apply Q0. replace q with (2 * q / p * p / 2) by (field; exact P0). rewrite E'. field. }
      split; [constructor; [intros [E|[]]; symmetry in E; exact (V E)|repeat constructor; intros []]|]. intros w.
      assert (T : q * q = p * p * p) by lra.
      rewrite (three_roots p q (2 * q / p) (- 0.5 * (2 * q / p)) (- 0.5 * (2 * q / p)) w).
      * cbn [In]. split; [intros [H|[H|[]]]; subst w; tauto|intros [H|[H|H]]; subst w; tauto].
      * lra.
      * transitivity (-3 * (q * q) / (p * p)); [rewrite mhalf; field; exact P0|]. rewrite T. field. exact P0.
      * transitivity (2 * q * (q * q) / (p * p * p)); [rewrite mhalf; field; exact P0|]. rewrite T. field. exact P0.
  - assert (N : p * p * p - q * q <> 0) by (intros E; apply L; rewrite E, Rabs_R0; exact DE).
    destruct (Rlt_dec 0 (p * p * p - q * q)) as [Y|Y].
    + destruct (trigonometric p q) as [O T]; [lra|]. cbv zeta in O, T |- *.
      set (z0 := 2 * sqrt p * cos (1 / 3 * acos (q / (p * sqrt p)))) in *. set (z1 := 2 * sqrt p * cos (1 / 3 * acos (q / (p * sqrt p)) - 2 * PI / 3)) in *.
      set (z2 := 2 * sqrt p * cos (1 / 3 * acos (q / (p * sqrt p)) - 4 * PI / 3)) in *. clearbody z0 z1 z2. split.
      * constructor; [cbn [In]; intros [E|[E|[]]]; lra|]. constructor; [cbn [In]; intros [E|[]]; lra|]. constructor; [intros []|constructor].
      * intros w. rewrite T. cbn [In]. split; [intros [H|[H|[H|[]]]]; subst w; tauto|intros [H|[H|H]]; subst w; tauto].
    + assert (K := cardano p q ltac:(lra)). cbv zeta in K |- *. split; [repeat constructor; intros []|]. intros w. rewrite K. cbn [In]. split; [intros [H|[]]; subst w; reflexivity|intros H; subst w; left; reflexivity].
Qed.
Lemma errors : forall A B C, let S := Rabs B + C ^ 2 in let Q := Rabs A + Rabs C * S in
  let p := - (1 / 3) * B + 1 / 9 * (C * C) in let r := 2 * (C * C) - 9 * B in let q := - 0.5 * A - 1 / 54 * (C * r) in
  let discr := p * p * p - q * q in let eps := get_eps in
  let p_err := eps * (3 / 3 * Rabs B + 4 / 9 * (C * C) + Rabs p) in
  let r_err := eps * (6 * (C * C) + 18 * Rabs B + Rabs r) in
  let q_err := 0.5 * Rabs A * eps + 1 / 54 * Rabs C * (r_err + Rabs r * 3 * eps) + Rabs q * eps in
  0 <= p_err <= eps * (4 / 3 * S) /\
  0 <= p * p * (3 * p_err + Rabs p * 2 * eps) + Rabs q * (2 * q_err + Rabs q * eps) + Rabs discr * eps <= eps * (S ^ 3 + 3 * Q ^ 2).
Proof.
  intros A B C S Q p r q discr eps p_err r_err q_err.
  assert (E0 : 0 < eps) by (apply Rinv_0_lt_compat, pow_lt; lra). clearbody eps.
  assert (a0 := Rabs_pos A). assert (b0 := Rabs_pos B). assert (c0 := Rabs_pos C). assert (C2 : 0 <= C * C) by apply Rle_0_sqr.
  assert (S0 : 0 <= S) by (unfold S; nra). assert (CS : 0 <= Rabs C * S) by (apply Rmult_le_pos; assumption). assert (Q0 : 0 <= Q) by (unfold Q; lra).
  assert (SB : Rabs B + C * C = S) by (unfold S; ring).
  assert (p0 := Rabs_pos p). assert (r0 := Rabs_pos r). assert (q0 := Rabs_pos q).
  assert (P1 : Rabs p <= 1 / 3 * S).
  { unfold p. eapply Rle_trans; [apply Rabs_triang|]. rewrite Rabs_mult, Rabs_Ropp, (Rabs_right (1 / 3)), (Rabs_right (1 / 9 * (C * C))) by lra. lra. }
  assert (R1 : Rabs r <= 9 * S).
  { unfold r, Rminus. eapply Rle_trans; [apply Rabs_triang|]. rewrite Rabs_Ropp, (Rabs_mult 9), (Rabs_right 9), (Rabs_right (2 * (C * C))) by lra. lra. }
  assert (Q1 : Rabs q <= 1 / 2 * Rabs A + 1 / 6 * (Rabs C * S)).
  { unfold q, Rminus. rewrite mhalf. eapply Rle_trans; [apply Rabs_triang|]. rewrite Rabs_Ropp, !Rabs_mult, Rabs_Ropp, (Rabs_right (1 / 2)), (Rabs_right (1 / 54)) by lra.
    assert (Rabs C * Rabs r <= Rabs C * (9 * S)) by (apply Rmult_le_compat_l; assumption). lra. }
  assert (Q2 : Rabs q <= 1 / 2 * Q) by (unfold Q; lra).
  assert (DD : Rabs discr <= 1 / 27 * S ^ 3 + 1 / 4 * Q ^ 2).
  { unfold discr, Rminus. eapply Rle_trans; [apply Rabs_triang|]. rewrite Rabs_Ropp, !Rabs_mult.
    assert (X1 : Rabs p * Rabs p <= 1 / 3 * S * (1 / 3 * S)) by (apply Rmult_le_compat; assumption).
    assert (X2 : Rabs p * Rabs p * Rabs p <= 1 / 3 * S * (1 / 3 * S) * (1 / 3 * S)) by (apply Rmult_le_compat; try assumption; apply Rmult_le_pos; assumption).
    assert (X3 : Rabs q * Rabs q <= 1 / 2 * Q * (1 / 2 * Q)) by (apply Rmult_le_compat; assumption). 
    replace (S ^ 3) with (S * S * S) by ring. replace (Q ^ 2) with (Q * Q) by ring. lra. }
  assert (d0 := Rabs_pos discr).
  assert (PE : 0 <= p_err <= eps * (4 / 3 * S)).
  { unfold p_err. split; [apply Rmult_le_pos; lra|]. apply Rmult_le_compat_l; lra. }
  split; [exact PE|].
  assert (RE : 0 <= r_err <= eps * (27 * S)).
  { unfold r_err. split; [apply Rmult_le_pos; lra|]. apply Rmult_le_compat_l; lra. }
  assert (QE : 0 <= q_err <= eps * (3 / 2 * Q)).
  { unfold q_err.
    assert (Y1 : 0 <= r_err + Rabs r * 3 * eps <= eps * (54 * S)) by (assert (0 <= Rabs r * eps <= 9 * S * eps) by (split; [apply Rmult_le_pos; lra|apply Rmult_le_compat_r; lra]); lra).
    assert (Y2 : 0 <= 1 / 54 * Rabs C * (r_err + Rabs r * 3 * eps) <= eps * (Rabs C * S)).
    { split; [apply Rmult_le_pos; lra|]. apply Rle_trans with (1 / 54 * Rabs C * (eps * (54 * S))); [apply Rmult_le_compat_l; lra|apply Req_le; field]. }
    assert (Y3 : 0 <= Rabs q * eps <= 1 / 2 * Q * eps) by (split; [apply Rmult_le_pos; lra|apply Rmult_le_compat_r; lra]).
    assert (Y4 : 0 <= Rabs A * eps) by (apply Rmult_le_pos; lra). assert (Y5 : 0 <= eps * (Rabs C * S)) by (apply Rmult_le_pos; lra).
    split; [lra|]. replace (eps * (3 / 2 * Q)) with (1 / 2 * Q * eps + eps * Rabs A + eps * (Rabs C * S)) by (unfold Q; field). lra. }
  clearbody p_err q_err r_err discr q r p Q S.
  assert (PP : 0 <= p * p <= 1 / 9 * (S * S)).
  { split; [apply Rle_0_sqr|]. replace (p * p) with (Rabs p * Rabs p) by (rewrite <- Rabs_mult; apply Rabs_right, Rle_ge, Rle_0_sqr).
    replace (1 / 9 * (S * S)) with (1 / 3 * S * (1 / 3 * S)) by field. apply Rmult_le_compat; assumption. }
  assert (W1 : 0 <= 3 * p_err + Rabs p * 2 * eps <= eps * (14 / 3 * S)).
  { assert (0 <= Rabs p * eps <= 1 / 3 * S * eps) by (split; [apply Rmult_le_pos; lra|apply Rmult_le_compat_r; lra]). lra. }
  assert (W2 : 0 <= 2 * q_err + Rabs q * eps <= eps * (7 / 2 * Q)).
  { assert (0 <= Rabs q * eps <= 1 / 2 * Q * eps) by (split; [apply Rmult_le_pos; lra|apply Rmult_le_compat_r; lra]). lra. }
  assert (V1 : 0 <= p * p * (3 * p_err + Rabs p * 2 * eps) <= 1 / 9 * (S * S) * (eps * (14 / 3 * S))) by (split; [apply Rmult_le_pos; lra|apply Rmult_le_compat; lra]).
  assert (V2 : 0 <= Rabs q * (2 * q_err + Rabs q * eps) <= 1 / 2 * Q * (eps * (7 / 2 * Q))) by (split; [apply Rmult_le_pos; lra|apply Rmult_le_compat; lra]).
  assert (V3 : 0 <= Rabs discr * eps <= (1 / 27 * S ^ 3 + 1 / 4 * Q ^ 2) * eps) by (split; [apply Rmult_le_pos; lra|apply Rmult_le_compat_r; lra]).
  split; [lra|].
  assert (U1 : 0 <= eps * S ^ 3) by (apply Rmult_le_pos; [lra|apply pow_le, S0]). assert (U2 : 0 <= eps * Q ^ 2) by (apply Rmult_le_pos; [lra|apply pow_le, Q0]).
  replace (1 / 9 * (S * S) * (eps * (14 / 3 * S))) with (14 / 27 * (eps * S ^ 3)) in V1 by field. replace (1 / 2 * Q * (eps * (7 / 2 * Q))) with (7 / 4 * (eps * Q ^ 2)) in V2 by field.
  replace ((1 / 27 * S ^ 3 + 1 / 4 * Q ^ 2) * eps) with (1 / 27 * (eps * S ^ 3) + 1 / 4 * (eps * Q ^ 2)) in V3 by field. lra.
Qed.
Lemma cubic_zeros : forall a b c d k, d <> 0 -> separated3 a b c d -> all_zeros (cubic a b c d) (solve_cubic a b c d k).
Proof.
  intros a b c d k D S. unfold separated3 in S. unfold solve_cubic. destruct (Req_EM_T d 0) as [E|_]; [contradiction|]. cbv zeta.
  assert (ER := errors (a / d) (b / d) (c / d)). cbv zeta in ER. destruct ER as [E1 E2].
  set (A := a / d) in *. set (B := b / d) in *. set (C := c / d) in *.
  set (p := - (1 / 3) * B + 1 / 9 * (C * C)) in *. set (q := - 0.5 * A - 1 / 54 * (C * (2 * (C * C) - 9 * B))) in *.
  set (pe := get_eps * (3 / 3 * Rabs B + 4 / 9 * (C * C) + Rabs p)) in *.
  match type of E2 with 0 <= ?t <= _ => set (de := t) in * end.
  assert (D4 : 0 < d ^ 4) by (replace (d ^ 4) with ((d * d) * (d * d)) by ring; assert (0 < d * d) by (destruct (Rlt_or_le 0 d); [nra|assert (d < 0) by lra; nra]); nra).
  assert (D2 : 0 < d ^ 2) by (destruct (Rlt_or_le 0 d); [nra|assert (d < 0) by lra; nra]).
  assert (F1 : disc3 a b c d = 108 * d ^ 4 * (p * p * p - q * q)) by (unfold disc3, p, q, A, B, C; rewrite mhalf; field; exact D).
  assert (F2 : c ^ 2 - 3 * b * d = 9 * d ^ 2 * p) by (unfold p, B, C; field; exact D).
  assert (HD : p * p * p - q * q = 0 \/ de < Rabs (p * p * p - q * q)).
  { destruct S as [[S _]|S]; [left; rewrite F1 in S; apply Rmult_integral in S; destruct S; [lra|assumption]|]. right. apply Rle_lt_trans with (1 := proj2 E2).
    rewrite F1, (Rabs_mult (108 * d ^ 4)), (Rabs_right (108 * d ^ 4)) in S by lra. apply (Rmult_lt_reg_l (108 * d ^ 4)); [lra|]. eapply Rle_lt_trans; [|exact S]. apply Req_le. unfold get_eps, Rdiv. ring. }
  assert (HP : p * p * p - q * q = 0 -> p = 0 \/ pe < Rabs p).
  { intros Z. destruct S as [[_ [S|S]]|S].
    - left. assert (Y : 9 * d ^ 2 * p = 0) by lra. apply Rmult_integral in Y. destruct Y; [lra|assumption].
    - right. apply Rle_lt_trans with (1 := proj2 E1). rewrite F2, (Rabs_mult (9 * d ^ 2)), (Rabs_right (9 * d ^ 2)) in S by lra.
      apply (Rmult_lt_reg_l (9 * d ^ 2)); [lra|]. eapply Rle_lt_trans; [|exact S]. apply Req_le. unfold get_eps.
      replace (c ^ 2) with (d ^ 2 * C ^ 2) by (unfold C; field; exact D). replace (Rabs (b * d)) with (d ^ 2 * Rabs B); [field; apply pow_nonzero; lra|].
      rewrite <- (Rabs_right (d ^ 2)) at 1 by lra. rewrite <- Rabs_mult. f_equal. unfold B. field. exact D.
    - exfalso. rewrite F1, Z, Rmult_0_r, Rabs_R0 in S. assert (X : 0 <= 108 * d ^ 4 * ((Rabs B + C ^ 2) ^ 3 + 3 * (Rabs A + Rabs C * (Rabs B + C ^ 2)) ^ 2) / 2 ^ 52); [|exact (Rlt_not_le _ _ S X)].
      apply Rmult_le_pos; [|apply Rlt_le, Rinv_0_lt_compat, pow_lt; lra]. apply Rmult_le_pos; [lra|].
      assert (0 <= (Rabs B + C ^ 2) ^ 3) by (apply pow_le; assert (U := Rabs_pos B); assert (V := pow2_ge_0 C); lra).
      assert (V := pow2_ge_0 (Rabs A + Rabs C * (Rabs B + C ^ 2))). lra. }
  assert (G : NoDup (depressed p q (p * p * p - q * q) pe de) /\ forall w, In w (depressed p q (p * p * p - q * q) pe de) <-> w ^ 3 - 3 * p * w - 2 * q = 0).
  { destruct (Req_dec (p * p * p - q * q) 0) as [Z|Z].
    - apply depressed_zeros; [apply E1|apply E2|apply HP, Z|left; exact Z].
    - destruct HD as [HD|HD]; [contradiction|].
      assert (K : depressed p q (p * p * p - q * q) pe de = depressed p q (p * p * p - q * q) 0 de).
      { unfold depressed. destruct (Rle_dec (Rabs (p * p * p - q * q)) de); [lra|reflexivity]. }
      rewrite K. apply depressed_zeros; [lra|apply E2| |right; exact HD]. destruct (Req_dec p 0) as [Y|Y]; [left; exact Y|right; apply Rabs_pos_lt, Y]. }
  set (z := depressed p q (p * p * p - q * q) pe de) in *. clearbody z. destruct G as [G1 G2].
  assert (X : forall x, cubic a b c d x = d * ((x + 1 / 3 * C) ^ 3 - 3 * p * (x + 1 / 3 * C) - 2 * q)) by (intros x; unfold cubic, p, q, A, B, C; rewrite mhalf; field; exact D).
  assert (X' : forall x, cubic a b c d x = d * (((x + C) * x + B) * x + A)) by (intros x; unfold cubic, A, B, C; field; exact D).
  set (z' := map _ z). assert (M : z' = map (fun w => w - 1 / 3 * C) z).
  { unfold z'. apply map_ext_in. intros w I. apply newton_root. apply G2 in I. apply (Rmult_eq_reg_l d); [|exact D]. rewrite <- X', X. replace (w - 1 / 3 * C + 1 / 3 * C) with w by ring. rewrite I. ring. }
  rewrite M. clear z' M. set (z' := map (fun w => w - 1 / 3 * C) z).
  assert (Z1 : NoDup z') by (apply FinFun.Injective_map_NoDup; [intros u v E; lra|exact G1]).
  assert (Z2 : forall x, In x z' <-> cubic a b c d x = 0).
  { intros x. unfold z'. rewrite in_map_iff, X. split.
    - intros (w & <- & I). apply G2 in I. replace (w - 1 / 3 * C + 1 / 3 * C) with w by ring. rewrite I. ring.
    - intros H. apply Rmult_integral in H. destruct H as [H|H]; [contradiction|]. exists (x + 1 / 3 * C). split; [ring|]. apply G2, H. }
  clearbody z'. assert (Z3 : (if Req_EM_T A 0 then store z' (smallest z') 0 else z') = z').
  { destruct (Req_EM_T A 0) as [Q|Q]; [|reflexivity]. apply fudge, Z2. rewrite X', Q. ring. }
  rewrite Z3. split; [apply sort_sorted, Z1|]. intros x. rewrite in_sort. apply Z2.
Qed.
Lemma zeros : forall a b c d k, separated a b c d -> all_zeros (cubic a b c d) (solve_cubic a b c d k).
Proof.
  intros a b c d k [[D S]|[[D [C S]]|[D [C S]]]]; [apply cubic_zeros; assumption| |]; subst d; unfold solve_cubic; destruct (Req_EM_T 0 0) as [_|N]; try (exfalso; apply N; reflexivity).
  - apply quadratic_zeros; assumption.
  - subst c. unfold solve_quadratic. destruct (Req_EM_T 0 0) as [_|N]; [|exfalso; apply N; reflexivity]. apply linear_zeros, S.
Qed.

(** * Splines *)
Definition apart (u e v : R) : Prop := (u = v /\ 0 < e) \/ u + / 2 ^ 43 <= v.
Fixpoint ok (acc : list R) (news : list (R * R)) : Prop :=
  match news with [] => True | (e, v) :: t => (forall u, In u acc -> apart u e v) /\ ok (v :: acc) t end.
Lemma ok_incl : forall news acc acc', (forall u, In u acc' -> In u acc) -> ok acc news -> ok acc' news.
Proof.
  induction news as [|[e v] t IH]; intros acc acc' I H; [exact Logic.I|]. cbn in *. destruct H as [H1 H2]. split; [intros u U; apply H1, I, U|].
  apply (IH (v :: acc)); [|exact H2]. intros u [<-|U]; [left; reflexivity|right; apply I, U].
Qed.
Lemma ok_app : forall l1 l2 acc, ok acc l1 -> ok (rev (map snd l1) ++ acc) l2 -> ok acc (l1 ++ l2).
Proof.
  induction l1 as [|[e v] t IH]; intros l2 acc H1 H2; [exact H2|]. cbn in *. destruct H1 as [H1 H1']. split; [exact H1|]. apply IH; [exact H1'|].
  rewrite <- app_assoc in H2. exact H2.
Qed.
Lemma add_all : forall news acc, (forall e v, In (e, v) news -> e <= / 2 ^ 43) -> StronglySorted Rgt acc -> ok acc news ->
  let r := fold_left (fun x '(e, v) => add_root e x v) news acc in
  StronglySorted Rgt r /\ forall t, In t r <-> In t acc \/ In t (map snd news).
Proof.
  induction news as [|[e v] l IH]; intros acc E S K; cbn [fold_left]; cbv zeta.
  - split; [exact S|]. intros t. cbn. tauto.
  - cbn in K. destruct K as [K1 K2].
    assert (D : 0 < / 2 ^ 43) by (apply Rinv_0_lt_compat, pow_lt; lra).
    assert (A : StronglySorted Rgt (add_root e acc v) /\ forall t, In t (add_root e acc v) <-> In t acc \/ t = v).
    { destruct acc as [|back t].
      - cbn. split; [repeat constructor|]. intros t. split; [intros [<-|[]]; tauto|intros [[]|H]; left; symmetry; exact H].
      - cbn [add_root]. specialize (E e v (or_introl eq_refl)). destruct (K1 back (or_introl eq_refl)) as [[-> P]|P].
        + destruct (Rlt_dec v (v + e)) as [_|N]; [|lra]. split; [exact S|]. intros w. cbn. split; [tauto|intros [H|H]; [tauto|left; symmetry; exact H]].
        + destruct (Rlt_dec v (back + e)) as [N|_]; [lra|]. split.
          * constructor; [exact S|]. inversion S as [|? ? S1 S2]; subst. constructor; [red; lra|]. rewrite List.Forall_forall in *. intros w W. specialize (S2 w W). red in S2 |- *. lra.
          * intros w. cbn. split; [intros [H|H]; [right; symmetry; exact H|tauto]|intros [H|H]; [tauto|left; symmetry; exact H]]. }
    destruct A as [A1 A2]. destruct (IH (add_root e acc v)) as [B1 B2]; [intros e' v' I; apply (E e' v'); right; exact I|exact A1| |].
    { apply (ok_incl _ (v :: acc)); [|exact K2]. intros u U. apply A2 in U. destruct U as [U| ->]; [right; exact U|left; reflexivity]. }
    cbv zeta in B1, B2. split; [exact B1|]. intros t. rewrite B2, A2. cbn. split; [intros [[H|H]|H]; [tauto|right; left; symmetry; exact H|tauto]|intros [H|[H|H]]; [tauto|left; right; symmetry; exact H|tauto]].
Qed.
Definition in_window (s : spline) (i : nat) (root : R) : bool :=
  (if Rle_dec (- segment_eps s i) root then if Rlt_dec root (sx s (i + 1)%nat - sx s i) then true else false else false).
Definition news_of (s : spline) (y : R) (i : nat) : list (R * R) :=
  map (fun root => (segment_eps s i, sx s i + root)) (filter (in_window s i) (solve_cubic (sy s i - y) (sb s i) (sc s i) (sd s i) 1)).
Lemma piece_news : forall s y x i, solve_piece s y x i = fold_left (fun x '(e, v) => add_root e x v) (news_of s y i) x.
Proof.
  intros s y x i. unfold solve_piece, news_of. cbv zeta. generalize (solve_cubic (sy s i - y) (sb s i) (sc s i) (sd s i) 1). intros l. revert x.
  induction l as [|root l IH]; intros x; [reflexivity|]. cbn [fold_left filter]. rewrite IH. unfold in_window at 2.
  destruct (Rle_dec (- segment_eps s i) root); [|reflexivity]. destruct (Rlt_dec root (sx s (i + 1)%nat - sx s i)); reflexivity.
Qed.
Lemma inner_news : forall s y l x, fold_left (solve_piece s y) l x = fold_left (fun x '(e, v) => add_root e x v) (flat_map (news_of s y) l) x.
Proof. intros s y l. induction l as [|i l IH]; intros x; [reflexivity|]. cbn [fold_left flat_map]. rewrite fold_left_app, IH, piece_news. reflexivity. Qed.
Lemma eps_tolerance : forall s i, segment_eps s i = tolerance (sx s) i.
Proof.
  intros s i. unfold segment_eps, tolerance, get_eps. cbv zeta. destruct i as [|j]; cbn [Nat.ltb Nat.leb].
  - rewrite Rmin_left by lra. ring.
  - replace (S j - 1)%nat with j by lia. change (2 ^ 52) with (2 * (2 * (2 * (2 * (2 * (2 * (2 * (2 * (2 * 2 ^ 43))))))))).
    generalize (pow_nonzero 2 43 ltac:(lra)). generalize (2 ^ 43). intros t T. field. exact T.
Qed.
Lemma tolerance_bounds : forall x i, (forall j, i = S j -> x j < x i) -> tolerance x i <= / 2 ^ 43 /\ (forall j, i = S j -> 0 < tolerance x i).
Proof.
  intros x i H. assert (D : 0 < / 2 ^ 43) by (apply Rinv_0_lt_compat, pow_lt; lra). destruct i as [|j]; cbn [tolerance].
  - split; [lra|discriminate].
  - assert (L := Rmin_r (x (S j) - x j) 1). assert (P : 0 < Rmin (x (S j) - x j) 1) by (apply Rmin_glb_lt; [specialize (H j eq_refl); lra|lra]).
    unfold Rdiv. split; [|intros k _; apply Rmult_lt_0_compat; assumption]. apply Rle_trans with (1 * / 2 ^ 43); [|lra]. apply Rmult_le_compat_r; lra.
Qed.
Definition all_separated (s : spline) (y : R) : Prop := forall i, (S i < sn s)%nat -> separated (sy s i - y) (sb s i) (sc s i) (sd s i).
Lemma news_spec : forall s y i e t, (S i < sn s)%nat -> all_separated s y ->
  (In (e, t) (news_of s y i) <-> e = tolerance (sx s) i /\ cubic (sy s i - y) (sb s i) (sc s i) (sd s i) (t - sx s i) = 0 /\ - tolerance (sx s) i <= t - sx s i < sx s (S i) - sx s i).
Proof.
  intros s y i e t I A. destruct (zeros _ _ _ _ 1 (A i I)) as [_ Z]. unfold news_of. rewrite in_map_iff, <- eps_tolerance. split.
  - intros (r & E & F). injection E as <- <-. apply filter_In in F. destruct F as [F W]. apply Z in F. replace (sx s i + r - sx s i) with r by ring.
    split; [reflexivity|]. split; [exact F|]. unfold in_window in W. destruct (Rle_dec (- segment_eps s i) r); [|discriminate].
    destruct (Rlt_dec r (sx s (i + 1)%nat - sx s i)) as [L|]; [|discriminate]. rewrite Nat.add_1_r in L. lra.
  - intros (-> & F & W). exists (t - sx s i). split; [f_equal; ring|]. apply filter_In. split; [apply Z, F|]. unfold in_window.
    destruct (Rle_dec (- segment_eps s i) (t - sx s i)) as [_|N]; [|lra]. rewrite Nat.add_1_r. destruct (Rlt_dec (t - sx s i) (sx s (S i) - sx s i)) as [_|N]; [reflexivity|lra].
Qed.
Definition crosses (s : spline) (y t : R) : Prop := crossing (sn s) (sx s) (sy s) (sb s) (sc s) (sd s) y t.
Lemma news_crosses : forall s y, all_separated s y -> forall t, In t (map snd (flat_map (news_of s y) (seq 0 (sn s - 1)))) <-> crosses s y t.
Proof.
  intros s y A t. rewrite in_map_iff. unfold crosses, crossing. split.
  - intros ([e u] & E & I). cbn in E. subst u. apply in_flat_map in I. destruct I as (i & J & I). apply in_seq in J. apply news_spec in I; [|lia|exact A].
    exists i. split; [lia|]. tauto.
  - intros (i & I & H). exists (tolerance (sx s) i, t). split; [reflexivity|]. apply in_flat_map. exists i. split; [apply in_seq; lia|]. apply news_spec; [exact I|exact A|]. tauto.
Qed.
Lemma add_sound : forall news acc t, In t (fold_left (fun x '(e, v) => add_root e x v) news acc) -> In t acc \/ In t (map snd news).
Proof.
  induction news as [|[e v] l IH]; intros acc t H; [left; exact H|]. cbn [fold_left] in H. apply IH in H. cbn. destruct H as [H|H]; [|tauto].
  unfold add_root in H. destruct acc as [|b acc]; [cbn in H; tauto|]. destruct (Rlt_dec v (b + e)); cbn in H |- *; tauto.
Qed.
Lemma solve_sound : forall s y t, all_separated s y -> In t (solve s y true) -> crosses s y t.
Proof.
  intros s y t A I. unfold solve in I. rewrite app_nil_r, <- in_rev, inner_news in I. apply add_sound in I. destruct I as [[]|I]. apply news_crosses; assumption.
Qed.
Lemma seg_ok : forall (cr : R -> Prop) (gap : forall u v, cr u -> cr v -> u < v -> u + / 2 ^ 43 <= v) xi e l acc, StronglySorted Rlt l -> e <= / 2 ^ 43 ->
  (forall v, In v l -> cr v /\ xi - e <= v) -> (forall u, In u acc -> cr u /\ ((u < xi /\ 0 < e) \/ forall v, In v l -> u < v)) -> ok acc (map (fun v => (e, v)) l).
Proof.
  intros cr gap xi e l. induction l as [|v l IH]; intros acc S E V U; [exact Logic.I|]. cbn [map ok]. inversion S as [|? ? S1 S2]; subst. rewrite List.Forall_forall in S2.
  destruct (V v (or_introl eq_refl)) as [V1 V2]. split.
  - intros u I. destruct (U u I) as [U1 U2]. unfold apart. destruct (Rtotal_order u v) as [L|[L|L]]; [right; apply gap; assumption|destruct U2 as [[_ U2]|U2]; [left; split; assumption|]|].
    + specialize (U2 v (or_introl eq_refl)). lra.
    + exfalso. destruct U2 as [[U2 _]|U2]; [|specialize (U2 v (or_introl eq_refl)); lra]. assert (G := gap v u V1 U1 L). lra.
  - apply IH; [exact S1|exact E|intros w W; apply V; right; exact W|]. intros u [<-|I]; [split; [exact V1|right; exact S2]|].
    destruct (U u I) as [U1 [U2|U2]]; split; try exact U1; [left; exact U2|right; intros w W; apply U2; right; exact W].
Qed.
Lemma sorted_filter_shift : forall (f : R -> bool) k l, StronglySorted Rlt l -> StronglySorted Rlt (map (fun r => k + r) (filter f l)).
Proof.
  intros f k l S. induction S as [|x l S IH F]; [constructor|]. cbn [filter]. destruct (f x); [|exact IH]. cbn [map]. constructor; [exact IH|].
  rewrite List.Forall_forall in *. intros y Y. apply in_map_iff in Y. destruct Y as (r & <- & I). apply filter_In in I. specialize (F r (proj1 I)). lra.
Qed.
Lemma all_ok : forall s y, (forall i, (S i < sn s)%nat -> sx s i < sx s (S i)) -> all_separated s y ->
  (forall u v, crosses s y u -> crosses s y v -> u < v -> u + / 2 ^ 43 <= v) ->
  forall k i acc, (i + k = sn s - 1)%nat -> (forall u, In u acc -> crosses s y u /\ u < sx s i /\ (0 < i)%nat) -> ok acc (flat_map (news_of s y) (seq i k)).
Proof.
  intros s y INC A gap k. induction k as [|k IH]; intros i acc K U; [exact Logic.I|]. cbn [seq flat_map].
  assert (Ii : (S i < sn s)%nat) by lia.
  assert (TB := tolerance_bounds (sx s) i ltac:(intros j ->; apply INC; lia)). destruct TB as [T1 T2].
  assert (C : forall e t, In (e, t) (news_of s y i) -> crosses s y t /\ sx s i - tolerance (sx s) i <= t < sx s (S i)).
  { intros e t I. apply news_spec in I; [|exact Ii|exact A]. destruct I as (_ & I1 & I2). split; [exists i; tauto|lra]. }
  apply ok_app.
  - assert (E : news_of s y i = map (fun v => (tolerance (sx s) i, v)) (map (fun r => sx s i + r) (filter (in_window s i) (solve_cubic (sy s i - y) (sb s i) (sc s i) (sd s i) 1)))).
    { unfold news_of. rewrite map_map, <- eps_tolerance. reflexivity. }
    rewrite E. apply (seg_ok (crosses s y) gap (sx s i)).
    + apply sorted_filter_shift. apply (zeros _ _ _ _ 1 (A i Ii)).
    + exact T1.
    + intros v V. assert (I : In (tolerance (sx s) i, v) (news_of s y i)) by (rewrite E; apply in_map, V). apply C in I. split; [apply I|lra].
    + intros u I. destruct (U u I) as (U1 & U2 & U3). split; [exact U1|]. left. split; [exact U2|]. destruct i as [|j]; [lia|]. apply (T2 j eq_refl).
  - apply IH; [lia|]. intros u I. apply in_app_iff in I. destruct I as [I|I].
    + apply in_rev, in_map_iff in I. destruct I as ([e t] & <- & I). cbn [snd]. apply C in I. split; [apply I|]. split; [lra|lia].
    + destruct (U u I) as (U1 & U2 & U3). split; [exact U1|]. split; [assert (X := INC i Ii); lra|lia].
Qed.
Lemma rev_sorted : forall l, StronglySorted Rgt l -> StronglySorted Rlt (rev l).
Proof.
  intros l S. induction S as [|x l S IH F]; [constructor|]. cbn [rev]. rewrite List.Forall_forall in F.
  assert (G : forall y, In y (rev l) -> y < x) by (intros y Y; apply in_rev in Y; exact (F y Y)). clear -IH G.
  induction IH as [|y r R IH' F']; [repeat constructor|]. cbn [app]. constructor; [apply IH'; intros z Z; apply G; right; exact Z|].
  rewrite List.Forall_forall in *. intros z Z. apply in_app_iff in Z. destruct Z as [Z|[<-|[]]]; [apply F', Z|apply G; left; reflexivity].
Qed.
Lemma solve_complete : forall s y, (forall i, (S i < sn s)%nat -> sx s i < sx s (S i)) -> all_separated s y ->
  (forall u v, crosses s y u -> crosses s y v -> u < v -> u + / 2 ^ 43 <= v) ->
  StronglySorted Rlt (solve s y true) /\ forall t, In t (solve s y true) <-> crosses s y t.
Proof.
  intros s y INC A gap. assert (K := all_ok s y INC A gap (sn s - 1) 0 [] ltac:(lia) ltac:(intros u [])).
  destruct (add_all (flat_map (news_of s y) (seq 0 (sn s - 1))) []) as [R1 R2]; [|constructor|exact K|].
  { intros e v I. apply in_flat_map in I. destruct I as (i & J & I). apply in_seq in J. apply news_spec in I; [|lia|exact A]. destruct I as [-> _].
    apply tolerance_bounds. intros j ->. apply INC. lia. }
  cbv zeta in R1, R2. unfold solve. rewrite app_nil_r, inner_news. split; [apply rev_sorted, R1|]. intros t. rewrite <- in_rev, R2, news_crosses by exact A. cbn. tauto.
Qed.
(** crossings on the piece are points where the spline has the value *)
Lemma eval_segment : forall s i t, (forall i, (S i < sn s)%nat -> sx s i < sx s (S i)) -> (S i < sn s)%nat -> sx s i <= t < sx s (S i) ->
  eval s t = cubic (sy s i) (sb s i) (sc s i) (sd s i) (t - sx s i).
Proof.
  intros s i t INC I T. unfold eval, find_closest.
  assert (U : upper_bound (sx s) t 0 (sn s) = S i).
  { apply (ub_char (sn s) (sx s)); [lia| |intros _; lra]. intros j J. apply Rle_trans with (sx s i); [|lra]. apply (inc_le (sn s) (sx s) INC); lia. }
  rewrite U. replace (S i - 1)%nat with i by lia.
  assert (X0 : sx s 0%nat <= sx s i) by (apply (inc_le (sn s) (sx s) INC); lia).
  assert (X1 : sx s (S i) <= sx s (sn s - 1)%nat) by (apply (inc_le (sn s) (sx s) INC); lia).
  destruct (Rlt_dec t (sx s 0%nat)); [lra|]. destruct (Rlt_dec (sx s (sn s - 1)%nat) t); [lra|]. unfold cubic. ring.
Qed.
Lemma find_segment : forall (n : nat) (x : nat -> R) t, x 0%nat <= t -> forall k, (k < n)%nat -> t < x k -> exists i, (S i <= k)%nat /\ x i <= t < x (S i).
Proof.
  intros n x t H k. induction k as [|k IH]; intros K T; [lra|]. destruct (Rle_or_lt (x k) t) as [L|L]; [exists k; split; [lia|lra]|].
  destruct IH as (i & I1 & I2); [lia|exact L|]. exists i. split; [lia|exact I2].
Qed.
Lemma solve_eval : forall s y, (forall i, (S i < sn s)%nat -> sx s i < sx s (S i)) -> all_separated s y ->
  (forall u v, crosses s y u -> crosses s y v -> u < v -> u + / 2 ^ 43 <= v) ->
  forall t, sx s 0%nat <= t < sx s (sn s - 1)%nat -> eval s t = y -> In t (solve s y true).
Proof.
  intros s y INC A gap t T E. apply (solve_complete s y INC A gap). destruct (sn s) as [|[|n]] eqn:N; [cbn in T; lra|cbn in T; lra|]. rewrite <- N in *.
  destruct (find_segment (sn s) (sx s) t (proj1 T) (sn s - 1) ltac:(lia) (proj2 T)) as (i & I & S').
  exists i. assert (Ii : (S i < sn s)%nat) by lia. split; [exact Ii|]. rewrite (eval_segment s i t INC Ii S') in E. split; [unfold cubic in *; lra|].
  assert (0 <= tolerance (sx s) i) by (destruct i as [|j]; [cbn; lra|apply Rlt_le, (proj2 (tolerance_bounds (sx s) (S j) ltac:(intros k K; injection K as <-; apply INC; lia)) j eq_refl)]). lra.
Qed.
(** the last point is not found *)
Definition identity3 : spline := set_linear 3 INR INR second_deriv second_deriv.
Lemma last_missed : exists s y, set_points 3 INR INR linear second_deriv 0 second_deriv 0 = Some s /\ eval s (sx s (sn s - 1)%nat) = y /\ solve s y true = [].
Proof.
  exists identity3, 2. split; [|split].
  - unfold set_points. replace (points_ok 3 INR second_deriv second_deriv) with true; [reflexivity|]. unfold points_ok. cbn [Nat.leb is_nak orb andb Nat.sub increasing].
    destruct (Rlt_dec (INR 0) (INR 1)) as [_|N]; [|exfalso; apply N, lt_INR; lia]. destruct (Rlt_dec (INR 1) (INR 2)) as [_|N]; [reflexivity|exfalso; apply N, lt_INR; lia].
  - unfold eval, identity3, set_linear, find_closest. cbn [sn sx sy sb sc sd sc0 Nat.sub]. cbn [upper_bound].
    assert (E0 : INR 0 = 0) by reflexivity. assert (E1 : INR 1 = 1) by reflexivity. assert (E2 : INR 2 = 2) by (cbn; lra).
    rewrite E0, E1, E2. destruct (Rlt_dec 2 0); [lra|]. destruct (Rlt_dec 2 1); [lra|]. destruct (Rlt_dec 2 2); [lra|]. cbn [Nat.sub]. rewrite E2. ring.
  - assert (E0 : INR 0 = 0) by reflexivity. assert (E1 : INR 1 = 1) by reflexivity. assert (E2 : INR 2 = 2) by (cbn; lra).
    unfold solve, identity3. cbn [sn set_linear Nat.sub seq fold_left]. rewrite app_nil_r.
    assert (P : forall i, (i < 2)%nat -> solve_piece (set_linear 3 INR INR second_deriv second_deriv) 2 [] i = []).
    { intros i I. unfold solve_piece. cbn [set_linear sn sx sy sb sc sd]. unfold solve_cubic. destruct (Req_EM_T 0 0) as [_|N]; [|exfalso; apply N; reflexivity].
      unfold solve_quadratic. destruct (Req_EM_T 0 0) as [_|N]; [|exfalso; apply N; reflexivity].
      assert (B : updf (fun i : nat => (INR (i + 1) - INR i) / (INR (i + 1) - INR i)) (3 - 1) ((INR (3 - 2 + 1) - INR (3 - 2)) / (INR (3 - 2 + 1) - INR (3 - 2))) i = 1).
      { unfold updf. cbn [Nat.sub]. destruct (Nat.eqb i 2) eqn:Q; [apply Nat.eqb_eq in Q; lia|]. rewrite plus_INR, E1. field. lra. }
      rewrite B. unfold solve_linear. destruct (Req_EM_T 1 0) as [Y|_]; [lra|]. cbn [fold_left]. rewrite plus_INR, E1.
      destruct (Rle_dec _ _); [|reflexivity]. destruct (Rlt_dec (- (INR i - 2) / 1) (INR i + 1 - INR i)) as [L|_]; [|reflexivity]. exfalso.
      assert (INR i <= 1) by (rewrite <- E1; apply le_INR; lia). lra. }
    rewrite (P 0%nat), (P 1%nat) by lia. reflexivity.
Qed.
(** two close roots are merged into a number that is no root *)
Lemma close_merged : exists a b c, (exists x x', x < x' /\ cubic a b c 0 x = 0 /\ cubic a b c 0 x' = 0) /\ forall k, solve_cubic a b c 0 k = [-1] /\ cubic a b c 0 (-1) <> 0.
Proof.
  exists (1 - 1 / 10 ^ 20), 2, 1. split; [exists (-1 - 1 / 10 ^ 10), (-1 + 1 / 10 ^ 10); unfold cubic; split; [lra|split; field]|].
  intros k. split; [|unfold cubic; lra]. unfold solve_cubic. destruct (Req_EM_T 0 0) as [_|N]; [|exfalso; apply N; reflexivity].
  unfold solve_quadratic. destruct (Req_EM_T 1 0) as [N|_]; [lra|]. cbv zeta. rewrite half_eps, half. replace (1 / 2 * 2 / 1) with 1 by field.
  replace ((1 - 1 / 10 ^ 20) / 1) with (1 - 1 / 10 ^ 20) by field. replace (1 * 1 - (1 - 1 / 10 ^ 20)) with (1 / 10 ^ 20) by ring.
  destruct (Rle_dec (Rabs (1 / 10 ^ 20)) _) as [_|N].
  - cbn [map]. f_equal. replace (- (1)) with (-1) by lra. unfold newton. set (g := fun x : R => if Rlt_dec _ _ then _ else _).
    induction k as [|k IH]; [reflexivity|]. change (g (Nat.iter k g (-1)) = -1). rewrite IH. unfold g. replace (2 * 1 * -1 + 2) with 0 by ring. rewrite Rabs_R0. destruct (Rlt_dec (1 / 10 ^ 8) 0); [lra|reflexivity].
  - exfalso. apply N. rewrite (Rabs_right (1 / 10 ^ 20)), (Rabs_right (1 - 1 / 10 ^ 20)) by lra. lra.
Qed.

(** ** Extrapolation *)
Lemma add_over : forall news acc left, (forall e v b, In (e, v) news -> In b left -> b + e <= v) ->
  fold_left (fun x '(e, v) => add_root e x v) news (acc ++ left) = fold_left (fun x '(e, v) => add_root e x v) news acc ++ left.
Proof.
  induction news as [|[e v] l IH]; intros acc left H; [reflexivity|]. cbn [fold_left].
  assert (E : add_root e (acc ++ left) v = add_root e acc v ++ left).
  { destruct acc as [|a t].
    - cbn [app]. destruct left as [|b left]; [reflexivity|]. cbn [add_root app]. destruct (Rlt_dec v (b + e)) as [L|_]; [|reflexivity].
      assert (X := H e v b (or_introl eq_refl) (or_introl eq_refl)). lra.
    - cbn [app add_root]. destruct (Rlt_dec v (a + e)); reflexivity. }
  rewrite E. apply IH. intros e' v' b I J. apply H; [right; exact I|exact J].
Qed.
Lemma eval_left : forall s t, t < sx s 0%nat -> eval s t = cubic (sy s 0%nat) (sb s 0%nat) (sc0 s) 0 (t - sx s 0%nat).
Proof.
  intros s t T. unfold eval. destruct (Rlt_dec t (sx s 0%nat)) as [_|N]; [|contradiction]. unfold find_closest.
  assert (U : (upper_bound (sx s) t 0 (sn s) - 1 = 0)%nat).
  { destruct (sn s) as [|n]; [reflexivity|]. cbn [upper_bound]. destruct (Rlt_dec t (sx s 0%nat)); [reflexivity|contradiction]. }
  rewrite U. unfold cubic. ring.
Qed.
Lemma eval_right : forall s t, (forall i, (S i < sn s)%nat -> sx s i < sx s (S i)) -> (1 < sn s)%nat -> sx s (sn s - 1)%nat <= t ->
  eval s t = cubic (sy s (sn s - 1)%nat) (sb s (sn s - 1)%nat) (sc s (sn s - 1)%nat) 0 (t - sx s (sn s - 1)%nat).
Proof.
  intros s t INC N T. unfold eval, find_closest.
  assert (U : upper_bound (sx s) t 0 (sn s) = sn s).
  { apply (ub_char (sn s) (sx s)); [lia| |lia]. intros j J. apply Rle_trans with (sx s (sn s - 1)%nat); [|exact T]. apply (inc_le (sn s) (sx s) INC); lia. }
  rewrite U. assert (X : sx s 0%nat <= sx s (sn s - 1)%nat) by (apply (inc_le (sn s) (sx s) INC); lia).
  destruct (Rlt_dec t (sx s 0%nat)); [lra|]. destruct (Rlt_dec (sx s (sn s - 1)%nat) t) as [L|L]; [unfold cubic; ring|].
  assert (Q : t - sx s (sn s - 1)%nat = 0) by lra. rewrite Q. unfold cubic. ring.
Qed.
Lemma filter_zeros : forall f (P : R -> bool) k l, all_zeros f l -> StronglySorted Rlt (map (fun r => k + r) (filter P l)) /\
  forall t, In t (map (fun r => k + r) (filter P l)) <-> P (t - k) = true /\ f (t - k) = 0.
Proof.
  intros f P k l [S Z]. split; [apply sorted_filter_shift, S|]. intros t. rewrite in_map_iff. split.
  - intros (r & <- & I). apply filter_In in I. destruct I as [I1 I2]. replace (k + r - k) with r by ring. split; [exact I2|apply Z, I1].
  - intros [A B]. exists (t - k). split; [ring|]. apply filter_In. split; [apply Z, B|exact A].
Qed.
Lemma solve_extrapolated : forall s y, (forall i, (S i < sn s)%nat -> sx s i < sx s (S i)) -> (1 < sn s)%nat -> all_separated s y ->
  separated (sy s 0%nat - y) (sb s 0%nat) (sc0 s) 0 -> separated (sy s (sn s - 1)%nat - y) (sb s (sn s - 1)%nat) (sc s (sn s - 1)%nat) 0 ->
  exists l r, solve s y false = l ++ solve s y true ++ r /\ StronglySorted Rlt l /\ StronglySorted Rlt r /\
    (forall t, In t l <-> t < sx s 0%nat /\ eval s t = y) /\ (forall t, In t r <-> sx s (sn s - 1)%nat <= t /\ eval s t = y).
Proof.
  intros s y INC N A SL SR.
  set (l := map (fun root => sx s 0%nat + root) (filter (fun root => Rlt_b root 0) (solve_cubic (sy s 0%nat - y) (sb s 0%nat) (sc0 s) 0 1))).
  set (r := map (fun root => sx s (sn s - 1)%nat + root) (filter (fun root => Rle_b 0 root) (solve_cubic (sy s (sn s - 1)%nat - y) (sb s (sn s - 1)%nat) (sc s (sn s - 1)%nat) 0 1))).
  destruct (filter_zeros _ (fun root => Rlt_b root 0) (sx s 0%nat) _ (zeros _ _ _ _ 1 SL)) as [L1 L2]. fold l in L1, L2.
  destruct (filter_zeros _ (fun root => Rle_b 0 root) (sx s (sn s - 1)%nat) _ (zeros _ _ _ _ 1 SR)) as [R1 R2]. fold r in R1, R2.
  assert (L3 : forall t, In t l <-> t < sx s 0%nat /\ eval s t = y).
  { intros t. rewrite L2. unfold Rlt_b. destruct (Rlt_dec (t - sx s 0%nat) 0) as [T|T].
    - rewrite (eval_left s t) by lra. unfold cubic. split; intros [H1 H2]; (split; [first [lra|reflexivity]|lra]).
    - split; [intros [H _]; discriminate|intros [H _]; lra]. }
  exists l, r. split; [|split; [exact L1|split; [exact R1|split; [exact L3|]]]].
  - unfold solve. fold l r. rewrite app_nil_r, !inner_news, app_assoc. f_equal.
    rewrite <- (app_nil_l (rev l)) at 1. rewrite add_over, rev_app_distr, rev_involutive; [reflexivity|].
    intros e v b I J. apply in_rev, L3 in J. destruct J as [J _]. apply in_flat_map in I. destruct I as (i & K & I). apply in_seq in K.
    apply news_spec in I; [|lia|exact A]. destruct I as (-> & _ & I). destruct i as [|j]; [cbn [tolerance] in *; lra|].
    assert (X : sx s 0%nat <= sx s j) by (apply (inc_le (sn s) (sx s) INC); lia). assert (Y : sx s j < sx s (S j)) by (apply INC; lia).
    assert (Z : tolerance (sx s) (S j) <= (sx s (S j) - sx s j) / 2).
    { cbn [tolerance]. assert (M := Rmin_l (sx s (S j) - sx s j) 1). assert (D : / 2 ^ 43 <= / 2).
      { apply Rinv_le_contravar; [lra|]. change (2 ^ 43) with (2 * 2 ^ 42). assert (1 <= 2 ^ 42) by (apply pow_R1_Rle; lra). lra. }
      assert (D0 : 0 < / 2 ^ 43) by (apply Rinv_0_lt_compat, pow_lt; lra). unfold Rdiv.
      apply Rle_trans with ((sx s (S j) - sx s j) * / 2 ^ 43); [apply Rmult_le_compat_r; lra|apply Rmult_le_compat_l; lra]. }
    lra.
  - intros t. rewrite R2. unfold Rle_b. destruct (Rle_dec 0 (t - sx s (sn s - 1)%nat)) as [T|T].
    + rewrite (eval_right s t) by (try assumption; lra). unfold cubic. split; intros [H1 H2]; (split; [first [lra|reflexivity]|lra]).
    + split; [intros [H _]; discriminate|intros [H _]; lra].
Qed.

(** a root left of a knot that the spline does not have *)
Definition kink (i : nat) : R := match i with O => 1 | 1%nat => 1 / 2 ^ 50 | _ => 1 + 1 / 2 ^ 50 end.
Definition kinked : spline := set_linear 3 INR kink second_deriv second_deriv.
Lemma spurious : exists s, set_points 3 INR kink linear second_deriv 0 second_deriv 0 = Some s /\ (exists t, In t (solve s 0 true) /\ sx s 0%nat <= t <= sx s 2%nat) /\
  forall t, sx s 0%nat <= t <= sx s 2%nat -> eval s t <> 0.
Proof.
  assert (E0 : INR 0 = 0) by reflexivity. assert (E1 : INR 1 = 1) by reflexivity. assert (E2 : INR 2 = 2) by (cbn; lra).
  assert (P0 : 0 < 1 / 2 ^ 50 < 1 / 2 ^ 43) by lra. set (q := 1 / 2 ^ 50) in *.
  assert (B0 : sb kinked 0%nat = q - 1) by (unfold kinked, set_linear, updf; cbn [sb Nat.sub Nat.eqb Nat.add]; unfold kink; fold q; rewrite E0, E1; field).
  assert (B1 : sb kinked 1%nat = 1) by (unfold kinked, set_linear, updf; cbn [sb Nat.sub Nat.eqb Nat.add]; unfold kink; fold q; rewrite E1, E2; field).
  assert (INC : forall i, (S i < 3)%nat -> INR i < INR (S i)) by (intros i _; apply lt_INR; lia).
  assert (A : all_separated kinked 0).
  { intros i I. right. right. split; [reflexivity|]. split; [reflexivity|]. left. cbn [kinked set_linear sn] in I. destruct i as [|[|i]]; [rewrite B0; lra|rewrite B1; lra|lia]. }
  exists kinked. split; [|split].
  - unfold set_points. replace (points_ok 3 INR second_deriv second_deriv) with true; [reflexivity|]. unfold points_ok. cbn [Nat.leb is_nak orb andb Nat.sub increasing].
    destruct (Rlt_dec (INR 0) (INR 1)) as [_|N]; [|exfalso; apply N, lt_INR; lia]. destruct (Rlt_dec (INR 1) (INR 2)) as [_|N]; [reflexivity|exfalso; apply N, lt_INR; lia].
  - exists (1 - q). split; [|cbn [kinked set_linear sx]; rewrite E0, E2; lra]. apply (solve_complete kinked 0 INC A).
    + intros u v (i & I1 & I2 & I3) (j & J1 & J2 & J3) L. cbn [kinked set_linear sn] in I1, J1. exfalso.
      assert (Z : forall i w, (S i < 3)%nat -> cubic (sy kinked i - 0) (sb kinked i) (sc kinked i) (sd kinked i) (w - sx kinked i) = 0 ->
        - tolerance (sx kinked) i <= w - sx kinked i < sx kinked (S i) - sx kinked i -> w = 1 - q).
      { intros k w K Y W. destruct k as [|[|k]]; [|clear W|lia].
        - rewrite B0 in Y. cbn [kinked set_linear sy sc sd sx kink tolerance] in Y, W. unfold cubic in Y. rewrite E0 in Y, W. rewrite E1 in W. exfalso. nra.
        - rewrite B1 in Y. cbn [kinked set_linear sy sc sd sx kink] in Y. unfold cubic in Y. fold q in Y. rewrite E1 in Y. lra. }
      rewrite (Z i u I1 I2 I3), (Z j v J1 J2 J3) in L. lra.
    + exists 1%nat. split; [cbn; lia|]. rewrite B1. cbn [kinked set_linear sy sc sd sx kink tolerance]. fold q. rewrite E0, E1, E2. split; [unfold cubic; ring|].
      rewrite Rmin_left by lra. lra.
  - intros t T Z. cbn [kinked set_linear sx] in T. rewrite E0, E2 in T.
    destruct (Rlt_or_le t 1) as [L|L]; [|destruct (Rlt_or_le t 2) as [M|M]].
    + rewrite (eval_segment kinked 0 t INC) in Z by (cbn [kinked set_linear sn sx]; first [lia|rewrite E0, E1; lra]).
      rewrite B0 in Z. cbn [kinked set_linear sy sc sd sx kink] in Z. unfold cubic in Z. rewrite E0 in Z. nra.
    + rewrite (eval_segment kinked 1 t INC) in Z by (cbn [kinked set_linear sn sx]; first [lia|rewrite E1, E2; lra]).
      rewrite B1 in Z. cbn [kinked set_linear sy sc sd sx kink] in Z. unfold cubic in Z. fold q in Z. rewrite E1 in Z. lra.
    + rewrite (eval_right kinked t INC) in Z by (cbn [kinked set_linear sn sx Nat.sub]; first [lia|rewrite E2; lra]).
      cbn [kinked set_linear sn sy sc sx kink Nat.sub] in Z. assert (Q : t - INR 2 = 0) by (rewrite E2; lra). rewrite Q in Z. unfold cubic in Z. fold q in Z. lra.
Qed.

Lemma zero_polynomial k : solve_cubic 0 0 0 0 k = [0].
Proof. unfold solve_cubic, solve_quadratic, solve_linear. destruct (Req_EM_T 0 0) as [_|N]; [reflexivity|contradiction N; reflexivity]. Qed.
