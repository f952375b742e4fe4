(** Proofs about the minimiser layer. *)
From Coq Require Import QArith Qabs Qround Lqa.
From Verif.Model Require Import Base Minim.
From Verif.Spec Require Import MinimSpec.
From Verif.Proofs Require Import TrackProofs.
Local Open Scope Z_scope.

(** ** C37 *)
Lemma decode_encode hc hn g c n :
  GetMinimizers hc hn (CalcWhichMinimizer g c n) = {| useCMAES := c && hc; useGSL := g; useNLopt := n && hn |}.
Proof. destruct g, c, n; reflexivity. Qed.
Lemma rem2_abs w : (Z.rem w 2 =? 0) = (Z.abs w mod 2 =? 0).
Proof.
  rewrite <- Z.rem_mod_nonneg by lia.
  destruct (Z_le_gt_dec 0 w).
  - now rewrite Z.abs_eq.
  - rewrite Z.abs_neq by lia. rewrite Z.rem_opp_l by lia.
    destruct (Z.eqb_spec (Z.rem w 2) 0), (Z.eqb_spec (- Z.rem w 2) 0); try reflexivity; lia.
Qed.
Lemma quot2_abs w : Z.abs (Z.quot w 2) = Z.abs w / 2.
Proof.
  rewrite <- Z.quot_abs by lia. rewrite Z.quot_div_nonneg by lia. reflexivity.
Qed.
Lemma encode_decode w :
  let u := GetMinimizers true true w in CalcWhichMinimizer (useGSL u) (useCMAES u) (useNLopt u) = Z.abs w mod 8.
Proof.
  cbv zeta. unfold GetMinimizers, CalcWhichMinimizer. cbn [useGSL useCMAES useNLopt]. rewrite !andb_true_r.
  rewrite !rem2_abs, !quot2_abs. set (a := Z.abs w). assert (0 <= a) by lia.
  assert (D : a mod 8 = a mod 2 + 2 * ((a / 2) mod 2) + 4 * ((a / 2 / 2) mod 2)).
  { rewrite Z.div_div by lia. Z.to_euclidean_division_equations. lia. }
  rewrite D. pose proof (Z.mod_pos_bound a 2 ltac:(lia)). pose proof (Z.mod_pos_bound (a / 2) 2 ltac:(lia)).
  pose proof (Z.mod_pos_bound (a / 2 / 2) 2 ltac:(lia)). unfold b2z.
  destruct (Z.eqb_spec (a mod 2) 0), (Z.eqb_spec ((a / 2) mod 2) 0), (Z.eqb_spec ((a / 2 / 2) mod 2) 0); cbn [negb]; lia.
Qed.

Local Open Scope Q_scope.
(** ** C38 *)
Lemma dlt_true a b : dlt a b = true <-> exists x y, a = Some x /\ b = Some y /\ x < y.
Proof.
  unfold dlt. destruct a as [x|], b as [y|]; try (split; [discriminate|intros (? & ? & ? & ? & ?); congruence]).
  rewrite negb_true_iff, Qle_bool_false. split; [eauto|]. intros (? & ? & E & F & L). congruence.
Qed.
Lemma skipn_cons {A} (d v : A) : forall l i r, skipn i l = v :: r -> nth i l d = v /\ skipn (S i) l = r.
Proof.
  induction l as [|a l IH]; intros [|i] r E; cbn in *; try discriminate.
  - inversion E. now split.
  - exact (IH i r E).
Qed.
Lemma min_index_spec all : forall vals i best,
  (best < length all)%nat -> skipn i all = vals -> (i + length vals = length all)%nat ->
  (exists x, nth best all None = Some x) ->
  (forall k y x, (k < i)%nat -> nth k all None = Some y -> nth best all None = Some x -> x <= y) ->
  let r := min_index_from vals i best all in
  (r < length all)%nat /\ exists x, nth r all None = Some x /\ forall k y, (k < length all)%nat -> nth k all None = Some y -> x <= y.
Proof.
  induction vals as [|v vals IH]; intros i best B S L (x & X) Inv; cbn [min_index_from].
  - cbn in L. split; [exact B|]. exists x. split; [exact X|]. intros k y K Y. apply (Inv k); [lia|exact Y|exact X].
  - assert (V : nth i all None = v).
    { apply (skipn_cons None) in S. apply S. }
    assert (S' : skipn (Datatypes.S i) all = vals).
    { apply (skipn_cons None) in S. apply S. }
    cbn in L. destruct (dlt v (nth best all None)) eqn:D.
    + apply dlt_true in D as (a & b & -> & Eb & Lt). apply IH; [lia|exact S'|lia|eauto|].
      intros k y z K Y Z. rewrite V in Z. assert (z = a) by congruence. subst z.
      destruct (Nat.eq_dec k i) as [->|N].
      * assert (y = a) by congruence. subst. apply Qle_refl.
      * apply Qle_trans with b; [now apply Qlt_le_weak|]. eapply Inv; [|exact Y|exact Eb]. lia.
    + apply IH; [exact B|exact S'|lia|eauto|].
      intros k y z K Y Z. destruct (Nat.eq_dec k i) as [->|N]; [|eapply Inv; [|exact Y|exact Z]; lia].
      rewrite V in Y. rewrite Y, Z in D. cbn in D. apply negb_false_iff, Qle_bool_iff in D. exact D.
Qed.
Lemma min_index_lowest {A} (c0 : A * option Q) (l : list (A * option Q)) d x0 :
  snd c0 = Some x0 -> lowest (fun c => In c (c0 :: l)) (nth (min_index (map snd (c0 :: l))) (c0 :: l) (d, None)).
Proof.
  intro H. unfold min_index. set (all := c0 :: l).
  destruct (min_index_spec (map snd all) (tl (map snd all)) 1 0) as (B & x & X & M).
  - cbn. lia.
  - reflexivity.
  - cbn. rewrite map_length. reflexivity.
  - exists x0. exact H.
  - intros k y z K Y Z. assert (k = 0)%nat by lia. subst. assert (y = z) by congruence. subst. apply Qle_refl.
  - set (r := min_index_from _ _ _ _) in *. rewrite map_length in B.
    assert (N : forall k, nth k (map snd all) None = snd (nth k all (d, None))).
    { intro k. change (@None Q) with (snd (d, @None Q)) at 1. apply map_nth. }
    split; [now apply nth_In|]. exists x. rewrite <- N. split; [exact X|].
    intros c' y I Y. destruct (In_nth all c' (d, None) I) as (k & K & E).
    apply (M k); [now rewrite map_length|]. rewrite N, E. exact Y.
Qed.

(** ** C38 *)
Lemma candidate_list_spec hc hn P w mt C c :
  let u := GetMinimizers hc hn w in
  In c (candidate_list hc hn P w mt C) <-> produced P (mt && useCMAES u) (useGSL u) (useNLopt u) C c.
Proof.
  cbn zeta. unfold candidate_list. set (u := GetMinimizers hc hn w). split.
  - intro I. apply in_app_or in I as [I|I].
    { destruct I as [<-|[]]. apply at_origin. }
    apply in_app_or in I as [I|I].
    { destruct (useNLopt u) eqn:N; [|contradiction]. destruct (c_nlopt C) as [c'|] eqn:E; [|contradiction].
      destruct I as [<-|[]]. now apply by_nlopt. }
    apply in_app_or in I as [I|I].
    { destruct mt; [|contradiction]. cbn [andb] in *. destruct (useCMAES u); [|contradiction]. cbn [andb] in *.
      destruct (Nat.leb (p_nVEV P) 2) eqn:L; [contradiction|]. destruct I as [<-|[]]. apply by_cmaes; [reflexivity|].
      apply Nat.leb_gt in L. exact L. }
    destruct (_ || _) eqn:G; [|contradiction]. destruct (c_gsl C) as [v|] eqn:E; [|contradiction].
    destruct I as [<-|[]]. apply by_gsl; [|exact E]. apply orb_true_iff in G as [G|G]; [now left|right; now apply Nat.leb_le].
  - intro H. destruct H as [|c N E|M L|v G E].
    + apply in_or_app. left. now left.
    + apply in_or_app. right. apply in_or_app. left. rewrite N, E. now left.
    + apply andb_true_iff in M as [-> M]. rewrite M. apply in_or_app. right. apply in_or_app. right. apply in_or_app. left.
      replace (Nat.leb (p_nVEV P) 2) with false by (symmetry; apply Nat.leb_gt; exact L). now left.
    + do 3 (apply in_or_app; right). rewrite E.
      replace (useGSL u || Nat.leb (p_nVEV P) 2) with true; [now left|]. symmetry. apply orb_true_iff.
      destruct G as [G|G]; [now left|right; now apply Nat.leb_le].
Qed.
Lemma cleaned_ok P v : cleaned P v match p_EW P v with
  | Some e => if Qle_bool e (1 # 2) then p_zero P v else v
  | None => v
  end.
Proof.
  split.
  - intros e -> L. apply Qle_bool_iff in L. now rewrite L.
  - intros [-> |(e & -> & L)]; [reflexivity|]. apply Qle_bool_false in L. now rewrite L.
Qed.
Lemma Minimize_best hc hn P w mt C :
  p_V P (repeat 0 (p_nVEV P)) <> None ->
  let u := GetMinimizers hc hn w in
  exists c, lowest (produced P (mt && useCMAES u) (useGSL u) (useNLopt u) C) c /\
    cleaned P (fst c) (Minimize_gen_all hc hn P w mt C).
Proof.
  cbn zeta. intro O. unfold Minimize_gen_all. set (l := candidate_list hc hn P w mt C).
  set (c := nth (min_index (map snd l)) l ([], None)). exists c. split; [|apply cleaned_ok].
  destruct (p_V P (repeat 0 (p_nVEV P))) as [x0|] eqn:E; [|congruence].
  assert (L : lowest (fun c => In c l) c).
  { unfold c, l, candidate_list. cbn [app]. eapply min_index_lowest. cbn [snd]. exact E. }
  destruct L as (I & x & Ex & M). split; [now apply candidate_list_spec|]. exists x. split; [exact Ex|].
  intros c' y H Y. apply (M c'); [|exact Y]. now apply candidate_list_spec in H.
Qed.
Lemma min_index_nan vals : forall i all, nth 0 all None = None -> min_index_from vals i 0 all = 0%nat.
Proof.
  induction vals as [|v vals IH]; intros i all N; [reflexivity|]. cbn [min_index_from]. rewrite N.
  replace (dlt v None) with false by (destruct v; reflexivity). now apply IH.
Qed.
(** a NaN potential at the origin hides every other candidate *)
Lemma Minimize_nan_origin hc hn P w mt C : p_V P (repeat 0 (p_nVEV P)) = None ->
  cleaned P (repeat 0 (p_nVEV P)) (Minimize_gen_all hc hn P w mt C).
Proof.
  intro N. unfold Minimize_gen_all. set (l := candidate_list hc hn P w mt C).
  replace (min_index (map snd l)) with 0%nat.
  - change (fst (nth 0 l ([], None))) with (repeat 0 (p_nVEV P)). apply cleaned_ok.
  - symmetry. apply min_index_nan. exact N.
Qed.
Lemma Minimize_threads_irrelevant hc hn P w C :
  useCMAES (GetMinimizers hc hn w) = false \/ (p_nVEV P <= 2)%nat ->
  Minimize_gen_all hc hn P w true C = Minimize_gen_all hc hn P w false C.
Proof.
  intro H. unfold Minimize_gen_all.
  replace (candidate_list hc hn P w true C) with (candidate_list hc hn P w false C); [reflexivity|].
  unfold candidate_list. cbn [andb]. replace (useCMAES _ && _) with false; [reflexivity|].
  symmetry. apply andb_false_iff. destruct H as [H|H]; [now left|right]. apply negb_false_iff. now apply Nat.leb_le.
Qed.

(** the best of the collected local minima *)
Lemma best_last_fold : forall (rows : list (vec * option Q)) (b : vec * option Q), (exists x, snd b = Some x) ->
  lowest (fun c => In c (b :: rows)) (fold_left (fun b c => if dle (snd c) (snd b) then c else b) rows b).
Proof.
  induction rows as [|c rows IH]; intros b (x & X); cbn [fold_left].
  - split; [now left|]. exists x. split; [exact X|]. intros c' y [<-|[]] Y. assert (x = y) by congruence. subst. apply Qle_refl.
  - destruct (dle (snd c) (snd b)) eqn:D.
    + unfold dle in D. rewrite X in D. destruct (snd c) as [z|] eqn:Z; [|discriminate]. apply Qle_bool_iff in D.
      destruct (IH c (ex_intro _ z Z)) as (I & w & W & M). split.
      * destruct I as [E|I]; [right; left; exact E|right; now right].
      * exists w. split; [exact W|]. intros c' y [<-|I'] Y; [|now apply (M c')].
        assert (x = y) by congruence. subst y. apply Qle_trans with z; [|exact D]. apply (M c); [now left|exact Z].
    + destruct (IH b (ex_intro _ x X)) as (I & w & W & M). split.
      * destruct I as [E|I]; [left; exact E|right; now right].
      * exists w. split; [exact W|]. intros c' y [<-|[<-|I']] Y.
        -- apply (M b); [now left|exact Y].
        -- unfold dle in D. rewrite X, Y in D. apply Qle_bool_false in D.
           apply Qle_trans with x; [apply (M b); [now left|exact X]|]. apply Qlt_le_weak. exact D.
        -- apply (M c'); [now right|exact Y].
Qed.

(** ** C39 *)
Section PT.
  Variable minim : Q -> vec -> vec.
  Variable ew : vec -> Q.
  Variable stable : vec -> bool.
  Variable dim : nat.
  Variable tree : vec.
  Variables T0 T1 : Q.

  Definition found_at (r : ptstate) : Prop :=
    (s_TA r = T0 /\ s_pv r = 0 /\ s_psol r = repeat 0 dim) \/
    (exists st, s_psol r = minim (s_TA r) st /\ s_pv r = ew (s_psol r) /\ Distance <= s_pv r /\ s_pv r < 255 /\
       C_PT <= s_pv r / s_TA r).
  Definition end_at (T : Q) : Prop := exists st, ew (minim T st) < Distance.
  Definition ptinv (s : ptstate) : Prop :=
    found_at s /\ end_at (s_TE s) /\
    (T0 <= T1 -> T0 <= s_TA s /\ s_TA s <= s_TE s /\ s_TE s <= T1) /\
    (T1 <= T0 -> T1 <= s_TE s /\ s_TE s <= s_TA s /\ s_TA s <= T0).

  Lemma mid_eq a b : Qred ((1 # 2) * (a + b)) == (1 # 2) * (a + b).
  Proof. apply Qred_correct. Qed.

  Lemma pt_success fuel : forall s r, ptinv s -> pt_loop minim ew fuel s = Ok r -> e_status r = SUCCESS ->
    exists s', ptinv s' /\ Qabs (s_TE s' - s_TA s') <= Distance /\
      e_vc r = s_pv s' /\ e_Tc r = s_TA s' /\ e_min r = s_psol s'.
  Proof.
    induction fuel as [|fuel IH]; intros s r I E ST; [discriminate|]. cbn [pt_loop] in E.
    pose proof (mid_eq (s_TA s) (s_TE s)) as M.
    set (TM := Qred _) in *. set (sol := minim TM (s_start s)) in *.
    destruct (Qle_bool 255 (ew sol)) eqn:V255.
    { assert (e_status r = NUMERICALLYUNSTABLE) by (inversion E; reflexivity). congruence. }
    destruct (_ && _) eqn:BT.
    { assert (e_status r = BELOWTHRESHOLD) by (inversion E; reflexivity). congruence. }
    apply Qle_bool_false in V255.
    set (s' := if Qle_bool Distance (ew sol) then _ else _) in *.
    assert (I' : ptinv s').
    { destruct I as (F & G & Up & Dn). unfold s'. destruct (Qle_bool Distance (ew sol)) eqn:DV.
      - apply Qle_bool_iff in DV. split; [|split; [exact G|]].
        + right. exists (s_start s). cbn [s_TA s_TE s_pv s_psol]. split; [reflexivity|]. split; [reflexivity|]. split; [assumption|]. split; [assumption|].
          apply andb_false_iff in BT as [BT|BT]; apply negb_false_iff in BT; [apply Qeq_bool_iff in BT; unfold Distance in DV; lra|].
          now apply Qle_bool_iff in BT.
        + cbn [s_TA s_TE]. split; intro H; [destruct (Up H) as (? & ? & ?)|destruct (Dn H) as (? & ? & ?)]; (split; [|split]); lra.
      - apply Qle_bool_false in DV. split; [|split].
        + destruct F as [F|F]; [left|right]; exact F.
        + exists (s_start s). exact DV.
        + cbn [s_TA s_TE]. split; intro H; [destruct (Up H) as (? & ? & ?)|destruct (Dn H) as (? & ? & ?)]; (split; [|split]); lra. }
    destruct (negb (Qle_bool (Qabs (s_TE s' - s_TA s')) Distance)) eqn:W.
    - exact (IH s' r I' E ST).
    - apply negb_false_iff, Qle_bool_iff in W. exists s'. split; [exact I'|]. split; [exact W|].
      inversion E; subst r. cbn. auto.
  Qed.

  Lemma pt_terminates n : forall fuel s, Qabs (s_TE s - s_TA s) <= Distance * inject_Z (2 ^ Z.of_nat n) -> (n < fuel)%nat ->
    exists r, pt_loop minim ew fuel s = Ok r.
  Proof.
    induction n as [|n IH]; intros [|fuel] s W F; try lia; cbn [pt_loop];
    pose proof (mid_eq (s_TA s) (s_TE s)) as M; set (TM := Qred _) in *; set (sol := minim TM (s_start s)) in *;
    (destruct (Qle_bool 255 (ew sol)); [eauto|]); (destruct (_ && _); [eauto|]);
    set (s' := if Qle_bool Distance (ew sol) then _ else _) in *;
    assert (H : Qabs (s_TE s' - s_TA s') == (1 # 2) * Qabs (s_TE s - s_TA s)).
    1, 3: assert (E : Qabs (s_TE s' - s_TA s') == Qabs ((1 # 2) * (s_TE s - s_TA s)));
      [apply Qabs_wd; unfold s'; destruct (Qle_bool Distance (ew sol)); cbn [s_TA s_TE]; rewrite M; ring
      |rewrite E, Qabs_Qmult; reflexivity].
    - destruct (negb _) eqn:N; [|eauto]. exfalso. apply negb_true_iff, Qle_bool_false in N.
      change (inject_Z (2 ^ Z.of_nat 0)) with 1 in W. pose proof (Qabs_nonneg (s_TE s - s_TA s)). lra.
    - destruct (negb _) eqn:N; [|eauto]. apply IH; [|lia].
      rewrite Nat2Z.inj_succ, Z.pow_succ_r, inject_Z_mult in W by lia.
      change (inject_Z 2) with 2 in W. rewrite H. lra.
  Qed.
End PT.


Lemma PTFinder_success minim ew stable dim tree fuel T0 T1 r :
  PTFinder minim ew stable dim tree fuel T0 T1 = Ok r -> e_status r = SUCCESS ->
  disappears_near minim ew T0 T1 r /\
  ((e_Tc r = T0 /\ e_vc r = 0 /\ e_min r = repeat 0 dim) \/ broken_at minim ew C_PT r) /\
  C_threshold < ew (minim T0 tree) /\ ew (minim T0 tree) < 255.
Proof.
  unfold PTFinder. intros E S. destruct (negb (Qle_bool _ C_threshold)) eqn:A.
  { inversion E; subst; discriminate. }
  destruct (_ || _) eqn:B. { inversion E; subst; discriminate. }
  destruct (negb (stable _) && _). { inversion E; subst; discriminate. }
  apply negb_false_iff, Qle_bool_iff in A. apply orb_false_iff in B as [B1 B2]. apply Qle_bool_false in B1, B2.
  assert (I0 : ptinv minim ew dim T0 T1 {| s_TA := T0; s_TE := T1; s_start := tree; s_pv := 0; s_psol := repeat 0 dim |}).
  { split; [left; cbn [s_TA s_TE s_pv s_psol]; auto|]. split; [exists tree; cbn [s_TE]; unfold Distance, C_threshold in *; lra|].
    cbn [s_TA s_TE]. split; intro; (split; [|split]); lra. }
  destruct (pt_success minim ew dim T0 T1 fuel _ r I0 E S) as (s' & (F & G & Up & Dn) & W & Ev & Et & Em).
  split; [|split].
  - destruct G as (st & G). exists (s_TE s'), st. rewrite Et. auto.
  - destruct F as [(F1 & F2 & F3)|(st & F1 & F2 & F3 & F4 & F5)]; [left|right].
    + rewrite Et, Ev, Em. auto.
    + exists st. rewrite Et, Ev, Em. auto 10.
  - split; assumption.
Qed.
Lemma PTFinder_terminates minim ew stable dim tree n fuel T0 T1 :
  Qabs (T1 - T0) <= Distance * inject_Z (2 ^ Z.of_nat n) -> (n < fuel)%nat ->
  exists r, PTFinder minim ew stable dim tree fuel T0 T1 = Ok r.
Proof.
  intros W F. unfold PTFinder. destruct (negb _); [eauto|]. destruct (_ || _); [eauto|]. destruct (negb _ && _); [eauto|].
  eapply pt_terminates; [exact W|exact F].
Qed.

(** ** C41 *)
Section Dev.
  Variable next : Q -> vec -> list vec.
  Variables start final step : Q.

  Definition temps_of (p : track) : list Q := map fst p.
  Lemma extend_temps T p q : In q (extend next T p) -> temps_of q = temps_of p ++ [T].
  Proof. unfold extend. rewrite in_map_iff. intros (nm & <- & _). unfold temps_of. rewrite map_app. reflexivity. Qed.
  Lemma dev_tracks fuel : forall T res r ts pre, (forall p, In p res -> temps_of p = pre) ->
    dev_loop next fuel start final step T res = Ok (r, ts) -> forall p, In p r -> temps_of p = pre ++ ts.
  Proof.
    induction fuel as [|fuel IH]; intros T res r ts pre H E p Ip; [discriminate|]. cbn [dev_loop] in E.
    destruct (go_on start final step T).
    - destruct (dev_loop _ _ _ _ _ _ _) as [[r' ts']| | |] eqn:D; try discriminate.
      assert (r' = r) by congruence. assert (ts = T :: ts') by congruence. subst.
      rewrite (IH _ _ _ _ (pre ++ [T])) with (2 := D) (3 := Ip).
      + rewrite <- app_assoc. reflexivity.
      + intros q Iq. apply in_flat_map in Iq as (p0 & I0 & Iq). rewrite (extend_temps _ _ _ Iq), (H _ I0). reflexivity.
    - assert (r = res) by congruence. assert (ts = []) by congruence. subst. rewrite app_nil_r. now apply H.
  Qed.
  Lemma dev_arith fuel : forall T res r ts, dev_loop next fuel start final step T res = Ok (r, ts) ->
    (forall k, (k < length ts)%nat -> nth k ts 0 == T + inject_Z (Z.of_nat k) * step) /\
    (forall t, In t ts -> go_on start final step t = true) /\
    (exists t, t == T + inject_Z (Z.of_nat (length ts)) * step /\ go_on start final step t = false).
  Proof.
    induction fuel as [|fuel IH]; intros T res r ts E; [discriminate|]. cbn [dev_loop] in E.
    destruct (go_on start final step T) eqn:G.
    - destruct (dev_loop _ _ _ _ _ _ _) as [[r' ts']| | |] eqn:D; try discriminate.
      assert (ts = T :: ts') by congruence. subst. destruct (IH _ _ _ _ D) as (A & B & t & C1 & C2).
      pose proof (Qred_correct (T + step)) as R.
      assert (SS : forall k, inject_Z (Z.of_nat (S k)) == inject_Z (Z.of_nat k) + 1).
      { intro k. rewrite Nat2Z.inj_succ, <- Z.add_1_r, inject_Z_plus. reflexivity. }
      split; [|split].
      + intros [|k] K; cbn [nth]; [cbn; ring|]. cbn in K. rewrite (A k) by lia. rewrite R, SS. ring.
      + intros x [<-|X]; [exact G|now apply B].
      + exists t. split; [|exact C2]. cbn [length]. rewrite C1, R, SS. ring.
    - assert (ts = []) by congruence. subst. split; [|split].
      + cbn. intros. lia.
      + intros ? [].
      + exists T. split; [cbn; ring|exact G].
  Qed.

  Definition eps : Q := Qabs ((final - start) / step) * (1 # 100).
  Lemma go_on_up T : 0 < step -> start < final -> (go_on start final step T = true <-> T < final + eps).
  Proof.
    intros S H. unfold go_on. replace (Qeq_bool step 0) with false by (symmetry; apply Qeq_bool_false; lra).
    replace (Qle_bool final start) with false by (symmetry; apply Qle_bool_false; exact H). cbn [negb].
    fold eps. rewrite negb_true_iff, Qle_bool_false. reflexivity.
  Qed.
  Lemma go_on_dn T : step < 0 -> final <= start -> (go_on start final step T = true <-> final - eps < T).
  Proof.
    intros S H. unfold go_on. replace (Qeq_bool step 0) with false by (symmetry; apply Qeq_bool_false; lra).
    replace (Qle_bool final start) with true by (symmetry; apply Qle_bool_iff; exact H). cbn [negb].
    fold eps. rewrite negb_true_iff, Qle_bool_false. reflexivity.
  Qed.
  Lemma eps_nonneg : 0 <= eps.
  Proof. unfold eps. pose proof (Qabs_nonneg ((final - start) / step)). lra. Qed.

  (** termination: the remaining distance shrinks by |step| *)
  Lemma dev_terminates n : forall fuel T res, ~ step == 0 ->
    (0 < step /\ start < final /\ final + eps - T <= inject_Z (Z.of_nat n) * step \/
     step < 0 /\ final <= start /\ T - (final - eps) <= inject_Z (Z.of_nat n) * (- step)) -> (n < fuel)%nat ->
    exists r, dev_loop next fuel start final step T res = Ok r.
  Proof.
    induction n as [|n IH]; intros [|fuel] T res S0 H F; try lia; cbn [dev_loop].
    - destruct (go_on start final step T) eqn:G; [|eauto]. exfalso. change (inject_Z (Z.of_nat 0)) with 0 in H.
      destruct H as [(A & B & C)|(A & B & C)]; [apply go_on_up in G|apply go_on_dn in G]; try assumption; lra.
    - destruct (go_on start final step T) eqn:G; [|eauto].
      destruct (IH fuel (Qred (T + step)) (flat_map (extend next T) res) S0) as ((r & ts) & ->); [|lia|eauto].
      pose proof (Qred_correct (T + step)) as R.
      assert (SS : inject_Z (Z.of_nat (S n)) == inject_Z (Z.of_nat n) + 1).
      { rewrite Nat2Z.inj_succ, <- Z.add_1_r, inject_Z_plus. reflexivity. }
      destruct H as [(A & B & C)|(A & B & C)]; [left|right]; (split; [exact A|split; [exact B|]]); rewrite SS in C; rewrite R; nra.
  Qed.
  (** a step pointing away from the final temperature never ends *)
  Lemma dev_diverges_aux fuel : forall T res,
    (step <= 0 /\ start < final /\ T <= start \/ 0 <= step /\ final < start /\ start <= T) ->
    dev_loop next fuel start final step T res = OutOfFuel.
  Proof.
    induction fuel as [|fuel IH]; intros T res H; [reflexivity|]. cbn [dev_loop].
    assert (G : go_on start final step T = true).
    { unfold go_on. destruct (Qeq_bool step 0) eqn:Z.
      - apply negb_true_iff, Qeq_bool_false. destruct H as [(_ & H & _)|(_ & H & _)]; lra.
      - fold eps. pose proof eps_nonneg. destruct H as [(A & B & C)|(A & B & C)].
        + replace (Qle_bool final start) with false by (symmetry; apply Qle_bool_false; exact B). cbn [negb].
          apply negb_true_iff, Qle_bool_false. lra.
        + replace (Qle_bool final start) with true by (symmetry; apply Qle_bool_iff; lra). cbn [negb].
          apply negb_true_iff, Qle_bool_false. lra. }
    rewrite G. rewrite IH; [reflexivity|]. pose proof (Qred_correct (T + step)) as R.
    destruct H as [(A & B & C)|(A & B & C)]; [left|right]; (split; [exact A|split; [exact B|]]); lra.
  Qed.
End Dev.

(** summary for an upward or downward scan *)
Section DevSummary.
  Variable next : Q -> vec -> list vec.
  Variables start final step : Q.

  Lemma dev_init_temps points p : In p (flat_map (fun q => map (fun m => [(start, m)]) (next start q)) points) -> temps_of p = [start].
  Proof.
    intro I. apply in_flat_map in I as (q & _ & I). apply in_map_iff in I as (m & <- & _). reflexivity.
  Qed.
  Lemma dev_summary fuel points r ts : MinimaDevelopment next fuel start final step points = Ok (r, ts) ->
    arithmetic start step ts /\ (forall p, In p r -> map fst p = start :: ts) /\
    (forall t, In t ts -> go_on start final step t = true) /\
    (exists t, t == start + inject_Z (Z.of_nat (S (length ts))) * step /\ go_on start final step t = false).
  Proof.
    unfold MinimaDevelopment. intro E. destruct (dev_arith _ _ _ _ _ _ _ _ _ E) as (A & B & t & C1 & C2).
    pose proof (Qred_correct (start + step)) as R.
    assert (SS : forall k, inject_Z (Z.of_nat (S k)) == inject_Z (Z.of_nat k) + 1).
    { intro k. rewrite Nat2Z.inj_succ, <- Z.add_1_r, inject_Z_plus. reflexivity. }
    split; [|split; [|split]].
    - intros k K. rewrite (A k K), R, SS. ring.
    - intros p Ip. assert (H : temps_of p = [start] ++ ts); [|exact H].
      eapply dev_tracks; [|exact E|exact Ip]. apply dev_init_temps.
    - exact B.
    - exists t. split; [|exact C2]. rewrite C1, R, SS. ring.
  Qed.
  Lemma go_on_compat t t' : t == t' -> go_on start final step t = go_on start final step t'.
  Proof.
    intro E. unfold go_on. destruct (Qeq_bool step 0); [reflexivity|].
    destruct (negb (Qle_bool final start)); f_equal; apply Bool.eq_iff_eq_true; rewrite !Qle_bool_iff; lra.
  Qed.
  Lemma inj_le n m : (n <= m)%nat -> inject_Z (Z.of_nat n) <= inject_Z (Z.of_nat m).
  Proof. intro H. rewrite <- Zle_Qle. lia. Qed.
  (** number of steps in the tolerance *)
  Lemma eps_steps n : ~ step == 0 -> final == start + inject_Z (Z.of_nat n) * step ->
    eps start final step == inject_Z (Z.of_nat n) * (1 # 100).
  Proof.
    intros S F. unfold eps. assert (H : (final - start) / step == inject_Z (Z.of_nat n)).
    { rewrite F. field. exact S. }
    rewrite H. rewrite Qabs_pos; [reflexivity|]. change 0 with (inject_Z (Z.of_nat 0)). apply inj_le. lia.
  Qed.
  Lemma dev_exact fuel points r ts n : (0 < n)%nat -> ~ step == 0 -> final == start + inject_Z (Z.of_nat n) * step ->
    inject_Z (Z.of_nat n) <= 100 * Qabs step -> MinimaDevelopment next fuel start final step points = Ok (r, ts) ->
    length ts = n.
  Proof.
    intros N S0 F W E. destruct (dev_summary _ _ _ _ E) as (A & _ & B & t & C1 & C2).
    pose proof (eps_steps n S0 F) as EP.
    assert (N0 : 1 <= inject_Z (Z.of_nat n)) by (change 1 with (inject_Z (Z.of_nat 1)); apply inj_le; lia).
    destruct (Nat.lt_trichotomy (length ts) n) as [H|[H|H]]; [exfalso|exact H|exfalso].
    - pose proof (inj_le (S (length ts)) n H) as L. set (k := inject_Z (Z.of_nat (S (length ts)))) in *.
      set (m := inject_Z (Z.of_nat n)) in *.
      assert (G : go_on start final step t = true); [|congruence].
      destruct (Qlt_le_dec 0 step) as [SP|SN].
      + apply go_on_up; [exact SP|nra|]. rewrite EP, C1, F. nra.
      + assert (SN' : step < 0) by (destruct (Qle_lt_or_eq _ _ SN); [assumption|contradiction]).
        apply go_on_dn; [exact SN'|nra|]. rewrite EP, C1, F. nra.
    - pose proof (A n H) as At. pose proof (B _ (nth_In ts 0 H)) as G.
      rewrite Nat2Z.inj_succ, <- Z.add_1_r, inject_Z_plus in At. change (inject_Z 1) with 1 in At.
      set (m := inject_Z (Z.of_nat n)) in *. set (x := nth n ts 0) in *.
      destruct (Qlt_le_dec 0 step) as [SP|SN].
      + rewrite Qabs_pos in W by lra. apply go_on_up in G; [|exact SP|nra]. rewrite EP in G. nra.
      + assert (SN' : step < 0) by (destruct (Qle_lt_or_eq _ _ SN); [assumption|contradiction]).
        rewrite Qabs_neg in W by lra. apply go_on_dn in G; [|exact SN'|nra]. rewrite EP in G. nra.
  Qed.
  Lemma dev_ends points : ~ step == 0 -> (0 < step /\ start < final \/ step < 0 /\ final <= start) ->
    exists fuel r, MinimaDevelopment next fuel start final step points = Ok r.
  Proof.
    intros S0 H. set (e := eps start final step).
    set (d := if Qlt_le_dec 0 step then (final + e - start) / step else (start - (final - e)) / (- step)).
    set (n := Z.to_nat (Qceiling d)).
    assert (Hn : d <= inject_Z (Z.of_nat n)).
    { apply Qle_trans with (inject_Z (Qceiling d)); [apply Qle_ceiling|]. rewrite <- Zle_Qle. unfold n. lia. }
    exists (S n). unfold MinimaDevelopment. apply dev_terminates with (n := n); [exact S0| |lia].
    pose proof (Qred_correct (start + step)) as R. fold e. unfold d in Hn. clearbody n e.
    destruct (Qlt_le_dec 0 step) as [SP|SN].
    - left. destruct H as [(_ & H)|(H & _)]; [|lra]. split; [exact SP|]. split; [exact H|].
      apply (Qmult_le_r _ _ step) in Hn; [|exact SP].
      assert (X : (final + e - start) / step * step == final + e - start) by (field; lra). rewrite X in Hn. rewrite R. lra.
    - right. destruct H as [(H & _)|(SP & H)]; [lra|]. split; [exact SP|]. split; [exact H|].
      apply (Qmult_le_r _ _ (- step)) in Hn; [|lra].
      assert (X : (start - (final - e)) / - step * - step == start - (final - e)) by (field; lra). rewrite X in Hn. rewrite R. lra.
  Qed.
End DevSummary.

(** ** the other outcomes of the search *)
Lemma pt_loop_other minim ew dim T0 T1 fuel : forall s r, ptinv minim ew dim T0 T1 s -> pt_loop minim ew fuel s = Ok r ->
  e_status r = SUCCESS \/ (minimum_between minim ew T0 T1 r /\
    ((e_status r = NUMERICALLYUNSTABLE /\ 255 <= e_vc r) \/ (e_status r = BELOWTHRESHOLD /\ ~ e_vc r == 0 /\ e_vc r / e_Tc r < 0))).
Proof.
  induction fuel as [|fuel IH]; intros s r I E; [discriminate|]. cbn [pt_loop] in E.
  pose proof (mid_eq (s_TA s) (s_TE s)) as M.
  set (TM := Qred _) in *. set (sol := minim TM (s_start s)) in *.
  assert (BW : (T0 <= T1 -> T0 <= TM /\ TM <= T1) /\ (T1 <= T0 -> T1 <= TM /\ TM <= T0)).
  { destruct I as (_ & _ & Up & Dn). split; intro H; [destruct (Up H) as (? & ? & ?)|destruct (Dn H) as (? & ? & ?)]; split; lra. }
  destruct (Qle_bool 255 (ew sol)) eqn:V255.
  { injection E as <-. right. cbn [e_status e_vc e_Tc e_min]. apply Qle_bool_iff in V255. split; [|left; auto]. split; [exists (s_start s); reflexivity|]. split; [reflexivity|exact BW]. }
  destruct (_ && _) eqn:BT.
  { injection E as <-. right. cbn [e_status e_vc e_Tc e_min]. split; [split; [exists (s_start s); reflexivity|]; split; [reflexivity|exact BW]|]. right.
    apply andb_prop in BT as (B1 & B2). apply negb_true_iff in B1, B2. apply Qeq_bool_false in B1. apply Qle_bool_false in B2.
    split; [reflexivity|]. split; [exact B1|exact B2]. }
  apply Qle_bool_false in V255.
  set (s' := if Qle_bool Distance (ew sol) then _ else _) in *.
  assert (I' : ptinv minim ew dim T0 T1 s').
  { destruct I as (F & G & Up & Dn). unfold s'. destruct (Qle_bool Distance (ew sol)) eqn:DV.
    - apply Qle_bool_iff in DV. split; [|split; [exact G|]].
      + right. exists (s_start s). cbn [s_TA s_TE s_pv s_psol]. split; [reflexivity|]. split; [reflexivity|]. split; [assumption|]. split; [assumption|].
        apply andb_false_iff in BT as [BT|BT]; apply negb_false_iff in BT; [apply Qeq_bool_iff in BT; unfold Distance in DV; lra|].
        now apply Qle_bool_iff in BT.
      + cbn [s_TA s_TE]. split; intro H; [destruct (Up H) as (? & ? & ?)|destruct (Dn H) as (? & ? & ?)]; (split; [|split]); lra.
    - apply Qle_bool_false in DV. split; [|split].
      + destruct F as [F|F]; [left|right]; exact F.
      + exists (s_start s). exact DV.
      + cbn [s_TA s_TE]. split; intro H; [destruct (Up H) as (? & ? & ?)|destruct (Dn H) as (? & ? & ?)]; (split; [|split]); lra. }
  destruct (negb (Qle_bool (Qabs (s_TE s' - s_TA s')) Distance)) eqn:W.
  - exact (IH s' r I' E).
  - left. now injection E as <-.
Qed.
Lemma PTFinder_status minim ew stable dim tree fuel T0 T1 r :
  PTFinder minim ew stable dim tree fuel T0 T1 = Ok r -> status_meaning minim ew stable tree T0 T1 r.
Proof.
  unfold PTFinder, status_meaning. intro E. destruct (negb (Qle_bool _ C_threshold)) eqn:A.
  { injection E as <-. cbn [e_status e_min e_vc e_Tc]. apply negb_true_iff, Qle_bool_false in A. auto. }
  apply negb_false_iff, Qle_bool_iff in A.
  destruct (_ || _) eqn:B.
  { injection E as <-. cbn [e_status e_min e_vc e_Tc]. split; [exact A|]. split; [|reflexivity].
    apply orb_prop in B as [B|B]; apply Qle_bool_iff in B; [left|right]; exact B. }
  apply orb_false_iff in B as [B1 B2]. apply Qle_bool_false in B1, B2.
  assert (SB : start_is_broken minim ew stable tree T0 T1) by (split; [exact A|split; assumption]).
  destruct (negb (stable _) && _) eqn:C.
  { injection E as <-. cbn [e_status e_min e_vc e_Tc]. apply andb_prop in C as (C1 & C2). apply negb_true_iff in C1. apply Qeq_bool_iff in C2. auto. }
  assert (ST : stable (minim T0 tree) = true \/ ~ T0 == 0).
  { apply andb_false_iff in C as [C|C]; [left; now apply negb_false_iff in C|right; now apply Qeq_bool_false in C]. }
  assert (I0 : ptinv minim ew dim T0 T1 {| s_TA := T0; s_TE := T1; s_start := tree; s_pv := 0; s_psol := repeat 0 dim |}).
  { split; [left; cbn [s_TA s_TE s_pv s_psol]; auto|]. split; [exists tree; cbn [s_TE]; unfold Distance, C_threshold in *; lra|].
    cbn [s_TA s_TE]. split; intro; (split; [|split]); lra. }
  destruct (pt_loop_other minim ew dim T0 T1 fuel _ r I0 E) as [-> | (MB & [(-> & V)|(-> & V)])]; auto.
Qed.

(** ** the tracks are exactly the chains *)
Lemma extend_iff next T p q : In q (extend next T p) <-> exists m, In m (next T (snd (last p (0, [])))) /\ q = p ++ [(T, m)].
Proof. unfold extend. rewrite in_map_iff. split; intros (m & H & K); exists m; auto. Qed.
Lemma chain_nonempty next start points c : chain next start points c -> exists c' T m, c = c' ++ [(T, m)].
Proof. intros [p m _ _|c0 T m T' m' _ _]; [exists [], start, m; reflexivity|exists (c0 ++ [(T, m)]), T', m'; now rewrite <- app_assoc]. Qed.
Lemma chain_snoc next start points c T m : c <> [] -> chain next start points (c ++ [(T, m)]) <->
  chain next start points c /\ In m (next T (snd (last c (0, [])))).
Proof.
  intro N. destruct (exists_last N) as (c' & (T0 & m0) & ->). rewrite last_last. cbn [snd]. rewrite <- app_assoc. cbn [app]. split.
  - intro H. remember (c' ++ [(T0, m0); (T, m)]) as x. destruct H as [p m1 _ _|c1 T1 m1 T2 m2 H1 H2].
    + exfalso. destruct c' as [|? [|? ?]]; discriminate Heqx.
    + change (c1 ++ [(T1, m1)] ++ [(T2, m2)] = c' ++ [(T0, m0)] ++ [(T, m)]) in Heqx. rewrite !app_assoc in Heqx.
      apply app_inj_tail in Heqx as (E1 & E2). rewrite <- E1. apply app_inj_tail in E1 as (E1 & E3).
      assert (T2 = T) by congruence. assert (m2 = m) by congruence. assert (m1 = m0) by congruence. subst. auto.
  - intros (H1 & H2). now apply chain_next.
Qed.
Lemma dev_loop_chains next start final step points fuel : forall T res r ts pre,
  (forall p, In p res <-> chain next start points p /\ map fst p = pre) -> pre <> [] ->
  dev_loop next fuel start final step T res = Ok (r, ts) -> forall p, In p r <-> chain next start points p /\ map fst p = pre ++ ts.
Proof.
  induction fuel as [|fuel IH]; intros T res r ts pre H N E; [discriminate|]. cbn [dev_loop] in E.
  destruct (go_on start final step T).
  - destruct (dev_loop next fuel _ _ _ _ _) as [[r' ts']| | |] eqn:D; try discriminate.
    assert (r' = r) by congruence. assert (ts = T :: ts') by congruence. subst.
    intro p. change (pre ++ T :: ts') with (pre ++ [T] ++ ts'). rewrite app_assoc. revert p. refine (IH _ _ _ _ _ _ _ D).
    + intro p. rewrite in_flat_map. split.
      * intros (q & Iq & Ip). apply H in Iq as (Cq & Eq). apply extend_iff in Ip as (m & Im & ->).
        split; [|rewrite map_app, Eq; reflexivity]. apply chain_snoc; [intros ->; apply N; now rewrite <- Eq|auto].
      * intros (Cp & Ep). destruct (chain_nonempty _ _ _ _ Cp) as (q & T' & m & ->). rewrite map_app in Ep. cbn [map fst] in Ep.
        apply app_inj_tail in Ep as (Eq & ET). subst T'. assert (Nq : q <> []) by (intros ->; apply N; now rewrite <- Eq).
        apply (chain_snoc next start points q T m Nq) in Cp as (Cq & Im). exists q. split; [apply H; auto|]. apply extend_iff. eauto.
    + destruct pre; discriminate.
  - assert (res = r) by congruence. assert (ts = []) by congruence. subst. intro p. rewrite app_nil_r. apply H.
Qed.
Lemma dev_chains next start final step fuel points r ts :
  MinimaDevelopment next fuel start final step points = Ok (r, ts) -> forall p, In p r <-> chain next start points p /\ map fst p = start :: ts.
Proof.
  intro E. change (start :: ts) with ([start] ++ ts). refine (dev_loop_chains _ _ _ _ _ _ _ _ _ _ _ _ _ E); [|discriminate].
  intro p. rewrite in_flat_map. split.
  - intros (q & Iq & Ip). apply in_map_iff in Ip as (m & <- & Im). split; [now apply (chain_start next start points q m)|reflexivity].
  - intros (C & Ep). destruct C as [q m Iq Im|c T m T' m' C I']; [exists q; split; [exact Iq|]; apply in_map_iff; eauto|].
    exfalso. rewrite map_app in Ep. cbn [map fst] in Ep. apply (f_equal (@length Q)) in Ep. rewrite app_length in Ep. cbn in Ep. lia.
Qed.
