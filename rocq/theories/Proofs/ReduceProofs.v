From Coq Require Import ZifyBool Permutation.
From Verif.Model Require Import Base Signs.
From Verif.Spec Require Import SignsSpec.
From Verif.Proofs Require Import SignsProofs.
Open Scope Z_scope.

Section R.
Variable thr : Z.
Hypothesis thr_pos : 0 < thr.
Notation bit x := (if thr <=? x then 1 else 0).
Notation measure := (measure thr).
Notation reduce_loop := (reduce_loop thr).

Lemma fold_measure v : forall acc,
  fold_left (fun a x => 2 * a + bit x) v acc = acc * 2 ^ Z.of_nat (length v) + measure v.
Proof.
  unfold Signs.measure. induction v as [|x v IH]; intro acc; cbn [fold_left length].
  - rewrite Z.pow_0_r. lia.
  - rewrite IH, (IH (2 * 0 + _)). rewrite Nat2Z.inj_succ, Z.pow_succ_r by lia. lia.
Qed.
Lemma measure_cons x v : measure (x :: v) = bit x * 2 ^ Z.of_nat (length v) + measure v.
Proof. unfold Signs.measure at 1. cbn [fold_left]. rewrite fold_measure. lia. Qed.
Lemma measure_bounds v : 0 <= measure v < 2 ^ Z.of_nat (length v).
Proof.
  induction v as [|x v IH]; [cbn; lia|]. rewrite measure_cons. cbn [length]. rewrite Nat2Z.inj_succ, Z.pow_succ_r by lia.
  destruct (thr <=? x); lia.
Qed.
Lemma measure_full v : measure v = 2 ^ Z.of_nat (length v) - 1 -> Forall (fun x => thr <= x) v.
Proof.
  induction v as [|x v IH]; intro H; constructor; rewrite measure_cons in H; cbn [length] in H;
    rewrite Nat2Z.inj_succ, Z.pow_succ_r in H by lia; pose proof (measure_bounds v).
  - destruct (thr <=? x) eqn:E; lia.
  - apply IH. destruct (thr <=? x); lia.
Qed.

Lemma apply_cons s g x v : apply_signs (s :: g) (x :: v) = x * s :: apply_signs g v.
Proof. reflexivity. Qed.
Lemma apply_length g v : length g = length v -> length (apply_signs g v) = length v.
Proof. intro H. unfold apply_signs. rewrite map_length, combine_length. lia. Qed.
Lemma apply_id v : apply_signs (identity (length v)) v = v.
Proof. induction v as [|x v IH]; [reflexivity|]. cbn. unfold apply_signs, identity in IH. rewrite IH. f_equal. lia. Qed.
Lemma apply_times g : forall h v, length g = length v -> length h = length v ->
  apply_signs g (apply_signs h v) = apply_signs (times g h) v.
Proof.
  induction g as [|a g IH]; intros [|b h] [|x v] H1 H2; cbn in H1, H2; try discriminate; [reflexivity|].
  rewrite apply_cons. cbn [times]. rewrite !apply_cons. rewrite IH by lia. f_equal. lia.
Qed.

(** ** the result is an image of the vev *)
Lemma loop_invariant (P : list Z -> Prop) gs : (forall g w, In g gs -> P w -> P (apply_signs g w)) ->
  forall mx v, P v -> P (reduce_loop gs mx v).
Proof.
  induction gs as [|g gs IH]; intros HP mx v Hv; cbn [Signs.reduce_loop]; [auto|].
  assert (HP' : forall h w, In h gs -> P w -> P (apply_signs h w)) by (intros; apply HP; [right|]; auto).
  assert (Hw : P (apply_signs g v)) by (apply HP; [left|]; auto).
  destruct (mx <? _); destruct (_ =? _); auto.
Qed.

Lemma reduce_ok gs v : (forall g, In g gs -> length g = length v) -> ReduceVEV thr gs v = Ok (reduce_loop gs (-1) v).
Proof.
  intro H. unfold ReduceVEV. replace (forallb _ gs) with true; [auto|]. symmetry. apply forallb_forall. intros g Hg.
  apply Nat.leb_le. rewrite (H g Hg). auto.
Qed.

Lemma reduce_orbit n G v : sign_group n G -> length v = n ->
  exists g, In g G /\ ReduceVEV thr G v = Ok (apply_signs g v).
Proof.
  intros (HI & HS & HM) Hn.
  assert (HL : forall g, In g G -> length g = length v) by (intros g Hg; apply HS in Hg as [-> _]; auto).
  assert (X : exists g, In g G /\ reduce_loop G (-1) v = apply_signs g v).
  { apply (loop_invariant (fun w => exists g, In g G /\ w = apply_signs g v)).
    - intros g w Hg (h & Hh & ->). exists (times g h). split; [auto|]. apply apply_times; auto.
    - exists (identity n). split; [auto|]. subst n. symmetry. apply apply_id. }
  destruct X as (g & Hg & E). exists g. split; [auto|]. now rewrite reduce_ok, E.
Qed.

Lemma reduce_potential {T} (V : list Z -> T) G v w :
  (forall g, In g G -> length g = length v) ->
  (forall g u, In g G -> length u = length v -> V (apply_signs g u) = V u) ->
  ReduceVEV thr G v = Ok w -> V w = V v /\ length w = length v.
Proof.
  intros HL HV H. rewrite reduce_ok in H by auto. injection H as <-.
  apply (loop_invariant (fun w => V w = V v /\ length w = length v)); [|auto].
  intros g u Hg [E L]. split; [rewrite HV; auto|]. rewrite apply_length; [auto|]. rewrite L; auto.
Qed.

Lemma loop_measure gs : forall v, (forall g, In g gs -> length g = length v) ->
  measure v <= measure (reduce_loop gs (measure v) v).
Proof.
  induction gs as [|g gs IH]; intros v HL; cbn [Signs.reduce_loop]; [lia|].
  assert (Lw : length (apply_signs g v) = length v) by (apply apply_length, HL; left; auto).
  destruct (measure v <? measure (apply_signs g v)) eqn:E; destruct (_ =? _); try lia.
  - etransitivity; [|apply IH; intros h Hh; rewrite Lw; apply HL; right; auto]. lia.
  - apply IH. intros h Hh. apply HL; right; auto.
Qed.

Lemma reduce_measure G v w : (forall g, In g G -> length g = length v) ->
  ReduceVEV thr (identity (length v) :: G) v = Ok w -> measure v <= measure w.
Proof.
  intros HL H. rewrite reduce_ok in H.
  2:{ intros g [<-|Hg]; [apply repeat_length|auto]. }
  injection H as <-. cbn [Signs.reduce_loop]. rewrite apply_id. pose proof (measure_bounds v).
  replace (-1 <? measure v) with true by lia. destruct (_ =? _); [lia|]. now apply loop_measure.
Qed.

(** ** the case of independent flips *)
Definition Dn (i : nat) (w : list Z) : Prop := forall x, nth_error w i = Some x -> - thr < x.

Inductive Rel : list bool -> list Z -> list Z -> Prop :=
| Rel_nil : Rel [] [] []
| Rel_same b x S v w : Rel S v w -> Rel (b :: S) (x :: v) (x :: w)
| Rel_abs x S v w : thr <= Z.abs x -> Rel S v w -> Rel (true :: S) (x :: v) (Z.abs x :: w).

Lemma Rel_refl S : forall v, length S = length v -> Rel S v v.
Proof. induction S as [|b S IH]; intros [|x v] H; cbn in H; try discriminate; constructor. apply IH. lia. Qed.
Lemma Rel_length S v w : Rel S v w -> length S = length w.
Proof. induction 1; cbn; lia. Qed.
Lemma Rel_length' S v w : Rel S v w -> length S = length v.
Proof. induction 1; cbn; lia. Qed.

Lemma count_zero_apply l : forall w, length l = length w -> count_occ bool_dec l true = 0%nat ->
  apply_signs (map es l) w = w.
Proof. intros w H C. rewrite (count_zero _ C), H. apply apply_id. Qed.

Lemma single_step l : forall w, length l = length w -> (count_occ bool_dec l true <= 1)%nat ->
  let w' := apply_signs (map es l) w in
  (measure w < measure w' ->
     (forall i, Dn i w -> Dn i w') /\ (forall i, nth_error l i = Some true -> Dn i w')) /\
  (measure w' <= measure w -> forall i, nth_error l i = Some true -> Dn i w).
Proof.
  induction l as [|b l IH]; intros [|x w] HL HC; cbn in HL; try discriminate.
  - cbn. split; [lia|]. intros _ [|i]; discriminate.
  - cbn [map]. rewrite apply_cons. assert (LL : length (apply_signs (map es l) w) = length w) by (apply apply_length; rewrite map_length; lia).
    cbv zeta. rewrite !measure_cons, LL. destruct b; cbn [es count_occ] in *.
    + destruct (bool_dec true true); [|congruence]. rewrite count_zero_apply by lia.
      pose proof (measure_bounds w). split.
      * intro H1. assert (thr <= - x) by (destruct (thr <=? x) eqn:E1, (thr <=? x * -1) eqn:E2; lia). split.
        { intros [|i] D; [|exact (D)]. intros y E. cbn in E. injection E as <-. lia. }
        { intros [|i] E y Ey; cbn in *; [injection Ey as <-; lia|]. exfalso.
          assert (Z0 : count_occ bool_dec l true = 0%nat) by lia. apply count_occ_not_In in Z0. apply nth_error_In in E. auto. }
      * intros H1 [|i] E; cbn in *.
        { intros y Ey. injection Ey as <-. destruct (thr <=? x) eqn:E1, (thr <=? x * -1) eqn:E2; lia. }
        { exfalso. assert (Z0 : count_occ bool_dec l true = 0%nat) by lia. apply count_occ_not_In in Z0. apply nth_error_In in E. auto. }
    + destruct (bool_dec false true); [congruence|]. rewrite Z.mul_1_r. destruct (IH w) as [A B]; [lia|lia|]. split.
      * intro H1. destruct A as [A1 A2]; [lia|]. split.
        { intros [|i] D; [exact D|]. apply A1. exact D. }
        { intros [|i] E; [discriminate|]. apply A2. exact E. }
      * intros H1 [|i] E; [discriminate|]. apply B; [lia|exact E].
Qed.

Lemma flips_cons b S s g : flips_only (b :: S) (s :: g) -> flips_only S g.
Proof. intros H i E. apply (H (Datatypes.S i) E). Qed.

Lemma Rel_step S v w : Rel S v w -> forall l, length l = length w -> (count_occ bool_dec l true <= 1)%nat ->
  flips_only S (map es l) -> measure w < measure (apply_signs (map es l) w) -> Rel S v (apply_signs (map es l) w).
Proof.
  induction 1 as [|b x S v w R IH|x S v w Hx R IH]; intros l HL HC HF HM.
  - destruct l; [cbn in HM; lia|discriminate].
  - destruct l as [|c l]; [discriminate|]. cbn in HL. cbn [map] in *. rewrite apply_cons in *. rewrite !measure_cons in HM.
    assert (LL : length (apply_signs (map es l) w) = length w) by (apply apply_length; rewrite map_length; lia).
    rewrite LL in HM. destruct c; cbn [es count_occ] in *.
    + destruct (bool_dec true true); [|congruence]. rewrite count_zero_apply in * by lia.
      assert (thr <= - x) by (destruct (thr <=? x) eqn:E1, (thr <=? x * -1) eqn:E2; lia).
      specialize (HF 0%nat eq_refl). cbn in HF. injection HF as ->. replace (x * -1) with (Z.abs x) by lia. constructor; [lia|auto].
    + destruct (bool_dec false true); [congruence|]. rewrite Z.mul_1_r in *. constructor. apply IH; [lia|lia|eapply flips_cons; eauto|lia].
  - destruct l as [|c l]; [discriminate|]. cbn in HL. cbn [map] in *. rewrite apply_cons in *. rewrite !measure_cons in HM.
    assert (LL : length (apply_signs (map es l) w) = length w) by (apply apply_length; rewrite map_length; lia).
    rewrite LL in HM. destruct c; cbn [es count_occ] in *.
    + destruct (bool_dec true true); [|congruence]. rewrite count_zero_apply in * by lia. exfalso.
      destruct (thr <=? Z.abs x) eqn:E1, (thr <=? Z.abs x * -1) eqn:E2; lia.
    + destruct (bool_dec false true); [congruence|]. rewrite Z.mul_1_r in *. constructor; [auto|]. apply IH; [lia|lia|eapply flips_cons; eauto|lia].
Qed.

Lemma Rel_final S v w : Rel S v w -> (forall i, nth_error S i = Some true -> Dn i w) -> w = abs_on thr S v.
Proof.
  induction 1 as [|b x S v w R IH|x S v w Hx R IH]; intro HD; cbn [abs_on].
  - reflexivity.
  - rewrite <- IH by (intros i Hi; apply (HD (Datatypes.S i) Hi)). f_equal. destruct b; cbn [andb]; [|auto].
    destruct (thr <=? Z.abs x) eqn:E; [|auto]. specialize (HD 0%nat eq_refl x eq_refl). lia.
  - rewrite <- IH by (intros i Hi; apply (HD (Datatypes.S i) Hi)). f_equal. cbn [andb]. now replace (thr <=? Z.abs x) with true by lia.
Qed.

Lemma full_final S v w : Rel S v w -> measure w = 2 ^ Z.of_nat (length w) - 1 -> w = abs_on thr S v.
Proof.
  intros R F. apply Rel_final; [auto|]. apply measure_full in F. rewrite Forall_forall in F. intros i _ x Hx.
  apply nth_error_In in Hx. apply F in Hx. lia.
Qed.

Lemma singles_loop S v : forall ls rest w, Rel S v w ->
  (forall l, In l ls -> length l = length S /\ (count_occ bool_dec l true <= 1)%nat /\ flips_only S (map es l)) ->
  reduce_loop (map (map es) ls ++ rest) (measure w) w = abs_on thr S v \/
  exists w', reduce_loop (map (map es) ls ++ rest) (measure w) w = reduce_loop rest (measure w') w' /\ Rel S v w' /\
    (forall i, Dn i w -> Dn i w') /\
    (forall i l, In l ls -> nth_error l i = Some true -> Dn i w').
Proof.
  induction ls as [|l ls IH]; intros rest w R HL; cbn [map app].
  - right. exists w. split; [auto|]. split; [auto|]. split; [auto|]. intros i l [].
  - cbn [Signs.reduce_loop]. destruct (HL l (or_introl eq_refl)) as (L1 & C1 & F1).
    assert (Lw : length l = length w) by (rewrite L1; eapply Rel_length; eauto).
    pose proof (single_step l w Lw C1) as [A B]. cbv zeta in A, B.
    assert (HL' : forall l, In l ls -> length l = length S /\ (count_occ bool_dec l true <= 1)%nat /\ flips_only S (map es l)) by (intros; apply HL; right; auto).
    assert (LL : length (apply_signs (map es l) w) = length w) by (apply apply_length; rewrite map_length; lia).
    destruct (measure w <? measure (apply_signs (map es l) w)) eqn:E.
    + assert (E' : measure w < measure (apply_signs (map es l) w)) by lia.
      pose proof (Rel_step S v w R l Lw C1 F1 E') as R'. destruct (A E') as [A1 A2].
      destruct (_ =? _) eqn:Ef; [left; apply full_final; [auto|rewrite LL; lia]|].
      destruct (IH rest _ R' HL') as [X|(w' & X & R2 & D1 & D2)]; [left; exact X|]. right. exists w'. split; [exact X|]. split; [exact R2|].
      split; [intros i D; apply D1, A1, D|]. intros i m [<-|Hm] Hi; [apply D1, A2, Hi|eapply D2; eauto].
    + specialize (B ltac:(lia)). destruct (_ =? _) eqn:Ef; [left; apply full_final; [auto|lia]|].
      destruct (IH rest _ R HL') as [X|(w' & X & R2 & D1 & D2)]; [left; exact X|]. right. exists w'. split; [exact X|]. split; [exact R2|].
      split; [exact D1|]. intros i m [<-|Hm] Hi; [apply D1, B, Hi|eapply D2; eauto].
Qed.

Lemma no_gain S : forall w l, length l = length w -> length S = length w -> flips_only S (map es l) ->
  (forall i, nth_error S i = Some true -> Dn i w) -> measure (apply_signs (map es l) w) <= measure w.
Proof.
  induction S as [|b S IH]; intros [|x w] [|c l] HL HS HF HD; cbn in HL, HS; try discriminate.
  cbn [map] in *. rewrite apply_cons, !measure_cons.
  assert (LL : length (apply_signs (map es l) w) = length w) by (apply apply_length; rewrite map_length; lia). rewrite LL.
  assert (I : measure (apply_signs (map es l) w) <= measure w).
  { apply IH; [lia|lia|eapply flips_cons; eauto|]. intros i Hi. apply (HD (Datatypes.S i) Hi). }
  destruct c; cbn [es].
  - specialize (HF 0%nat eq_refl). cbn in HF. injection HF as ->. specialize (HD 0%nat eq_refl x eq_refl).
    destruct (thr <=? x) eqn:E1, (thr <=? x * -1) eqn:E2; lia.
  - rewrite Z.mul_1_r. lia.
Qed.

Lemma rest_loop S : forall ls w, length S = length w -> (forall i, nth_error S i = Some true -> Dn i w) ->
  (forall l, In l ls -> length l = length w /\ flips_only S (map es l)) ->
  reduce_loop (map (map es) ls) (measure w) w = w.
Proof.
  induction ls as [|l ls IH]; intros w HS HD HL; cbn [map Signs.reduce_loop]; [auto|].
  destruct (HL l (or_introl eq_refl)) as [L F]. pose proof (no_gain S w l L HS F HD).
  replace (measure w <? _) with false by lia. destruct (_ =? _); [auto|]. apply IH; auto. intros; apply HL; right; auto.
Qed.

Lemma filter_map {A B} (f : A -> B) p l : filter p (map f l) = map f (filter (fun x => p (f x)) l).
Proof. induction l as [|x l IH]; cbn; [auto|]. rewrite IH. destruct (p (f x)); reflexivity. Qed.

Lemma repeat_false_flips S n : flips_only S (map es (repeat false n)).
Proof. intros i H. exfalso. apply nth_error_In in H. apply in_map_iff in H as (b & E & Hb). apply repeat_spec in Hb. subst b. discriminate. Qed.

Lemma single_in n i : (i < n)%nat -> let l := repeat false i ++ true :: repeat false (n - 1 - i) in
  length l = n /\ count_occ bool_dec l true = 1%nat /\ nth_error l i = Some true /\ forall j, nth_error l j = Some true -> j = i.
Proof.
  intro H. cbv zeta.
  assert (C0 : forall m, count_occ bool_dec (repeat false m) true = 0%nat) by (induction m; cbn; auto).
  split; [rewrite app_length; cbn; rewrite !repeat_length; lia|]. split; [rewrite count_occ_app; cbn; rewrite !C0; auto|].
  split; [rewrite nth_error_app2 by (rewrite repeat_length; lia); rewrite repeat_length, Nat.sub_diag; reflexivity|].
  intros j Hj. destruct (Nat.lt_trichotomy j i) as [L|[L|L]]; [|auto|]; exfalso.
  - rewrite nth_error_app1 in Hj by (rewrite repeat_length; auto). apply nth_error_In, repeat_spec in Hj. discriminate.
  - rewrite nth_error_app2 in Hj by (rewrite repeat_length; lia). rewrite repeat_length in Hj.
    destruct (j - i)%nat eqn:E; [lia|]. cbn in Hj. apply nth_error_In, repeat_spec in Hj. discriminate.
Qed.

Theorem reduce_canonical n S check : length S = n ->
  (forall g, sign_vector n g -> (check g = true <-> flips_only S g)) ->
  exists fuel G, FindDiscreteSymmetries check n fuel = Ok G /\
    forall v, length v = n -> ReduceVEV thr G v = Ok (abs_on thr S v).
Proof.
  intros HS HC. exists (length (all_desc n 0 (Datatypes.S n))). eexists. unfold FindDiscreteSymmetries, C2GroupElements.
  rewrite c2_eq by lia. cbn [bind]. split; [reflexivity|]. intros v Hv.
  assert (Hlen : forall l k m, In l (all_desc n k m) -> length l = n).
  { intros l k m H. apply in_flat_map in H as (j & _ & H). apply desc_in in H. tauto. }
  rewrite reduce_ok.
  2:{ intros g Hg. apply filter_In in Hg as [Hg _]. apply in_map_iff in Hg as (l & <- & Hl). rewrite map_length. apply Hlen in Hl. lia. }
  f_equal. set (p := fun l => check (map es l)). rewrite filter_map. fold p.
  assert (Hp : forall l, length l = n -> (p l = true <-> flips_only S (map es l))).
  { intros l L. apply HC. apply sign_vector_es. eauto. }
  assert (D0 : desc n 0 = [repeat false n]).
  { clear. induction n as [|n IH]; [reflexivity|]. cbn [desc app]. rewrite IH. reflexivity. }
  assert (E : all_desc n 0 (Datatypes.S n) = repeat false n :: all_desc n 1 n).
  { unfold all_desc. cbn [seq flat_map]. rewrite D0. reflexivity. }
  rewrite E. cbn [filter]. assert (P0 : p (repeat false n) = true).
  { apply Hp; [apply repeat_length|]. apply repeat_false_flips. }
  rewrite P0. cbn [map Signs.reduce_loop].
  assert (Eid : apply_signs (map es (repeat false n)) v = v).
  { rewrite map_repeat. cbn [es]. subst n. rewrite <- Hv. apply apply_id. }
  rewrite Eid. pose proof (measure_bounds v). replace (-1 <? measure v) with true by lia.
  assert (R0 : Rel S v v) by (apply Rel_refl; lia).
  destruct (measure v =? _) eqn:Ef; [apply full_final; [auto|lia]|].
  destruct n as [|n'].
  { destruct v; [|discriminate]. cbn in Ef. discriminate. }
  assert (E1 : all_desc (Datatypes.S n') 1 (Datatypes.S n') = desc (Datatypes.S n') 1 ++ all_desc (Datatypes.S n') 2 n') by reflexivity.
  rewrite E1. set (n := Datatypes.S n') in *. rewrite filter_app, map_app.
  assert (HL : forall l, In l (filter p (desc n 1)) -> length l = length S /\ (count_occ bool_dec l true <= 1)%nat /\ flips_only S (map es l)).
  { intros l Hl. apply filter_In in Hl as [Hl Pl]. apply desc_in in Hl as [L C]. split; [lia|]. split; [lia|]. now apply Hp. }
  destruct (singles_loop S v (filter p (desc n 1)) (map (map es) (filter p (all_desc n 2 n'))) v R0 HL)
    as [X|(w & X & R1 & _ & D)]; [exact X|].
  rewrite X. clear X. assert (Lw : length S = length w) by (eapply Rel_length; eauto).
  assert (Done : forall i, nth_error S i = Some true -> Dn i w).
  { intros i Hi. assert (Hin : (i < n)%nat) by (rewrite <- HS; apply nth_error_Some; congruence).
    destruct (single_in n i Hin) as (L1 & C1 & N1 & U1). eapply D; [|exact N1]. apply filter_In.
    split; [apply desc_in; auto|]. apply Hp; [exact L1|]. intros j Hj. rewrite nth_error_map in Hj.
    destruct (nth_error _ j) as [[]|] eqn:Ej in Hj; cbn in Hj; try discriminate. apply U1 in Ej. subst j. exact Hi. }
  rewrite (rest_loop S); [apply Rel_final; auto|exact Lw|exact Done|].
  intros l Hl. apply filter_In in Hl as [Hl Pl]. apply Hlen in Hl. split; [lia|]. now apply Hp.
Qed.

Lemma abs_on_invariant S : forall g v, length S = length v -> length g = length v -> flips_only S g ->
  sign_vector (length v) g -> Forall (fun x => thr <= Z.abs x) v -> abs_on thr S (apply_signs g v) = abs_on thr S v.
Proof.
  induction S as [|b S IH]; intros [|s g] [|x v] HS HG HF HV HT; cbn in HS, HG; try discriminate; [reflexivity|].
  rewrite apply_cons. cbn [abs_on]. destruct HV as [_ HV]. inversion HV; subst. inversion HT; subst.
  rewrite IH; [|lia|lia|eapply flips_cons; eauto|split; [lia|auto]|auto]. f_equal.
  match goal with H : s = 1 \/ s = -1 |- _ => destruct H as [-> | ->] end.
  - now rewrite Z.mul_1_r.
  - specialize (HF 0%nat eq_refl). cbn in HF. injection HF as ->. cbn [andb]. replace (thr <=? Z.abs x) with true by lia.
    replace (thr <=? Z.abs (x * -1)) with true by lia. lia.
Qed.
End R.
