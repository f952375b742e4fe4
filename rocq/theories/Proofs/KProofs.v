(** Proofs for the K functions. *)
From Coq Require Import Reals List ZArith Lra Lia FinFun.
From Verif Require Import Base Model.KFunctions Spec.KSpec Proofs.DerivLib.
Import ListNotations.
Open Scope R_scope.

Definition sign (s : Z) : Prop := s = 1%Z \/ s = (-1)%Z.

Lemma denominator : forall E T s, 0 < T -> 0 < E -> sign s -> 0 < exp (1 / T * E) + IZR s.
Proof.
  intros E T s HT HE S. assert (P : 0 < 1 / T * E) by (apply Rmult_lt_0_compat; [apply Rdiv_lt_0_compat; lra|exact HE]).
  assert (1 < exp (1 / T * E)) by (pose proof (exp_increasing _ _ P) as X; rewrite exp_0 in X; exact X). destruct S; subst; lra.
Qed.

Lemma f0_is_thermal : forall E s T, T <> 0 -> distribution_f0 E s T 0 = thermal (IZR s) T E.
Proof.
  intros. unfold distribution_f0, thermal. cbn [Z.eqb]. replace (1 / T * E) with (E / T) by (field; assumption). unfold Rdiv. ring.
Qed.
Lemma dl_expE : forall T E, dl (fun E => exp (1 / T * E)) E (exp (1 / T * E) * (1 / T)).
Proof.
  intros. eapply dl_eq; [apply (dl_exp (fun E => 1 / T * E)); apply (dl_mult (fun _ => 1 / T) (fun E => E)); [apply dl_const|apply dl_id]|]. ring.
Qed.
Lemma f0_derivatives : forall E s T, 0 < T -> 0 < E -> sign s ->
  dl (fun E => distribution_f0 E s T 0) E (distribution_f0 E s T 1) /\ dl (fun E => distribution_f0 E s T 1) E (distribution_f0 E s T 2).
Proof.
  intros E s T HT HE S. pose proof (denominator E T s HT HE S) as D. unfold distribution_f0. cbn [Z.eqb Pos.eqb].
  set (b := 1 / T). split.
  - eapply dl_eq.
    + apply (dl_div (fun _ => 1) (fun E => exp (b * E) + IZR s)); [apply dl_const|apply dl_plus; [apply dl_expE|apply dl_const]|fold b in D; lra].
    + fold b in D. fold b. field. lra.
  - eapply dl_eq.
    + apply (dl_div (fun E => - b * exp (b * E)) (fun E => (exp (b * E) + IZR s) ^ 2)).
      * apply (dl_mult (fun _ => - b) (fun E => exp (b * E))); [apply dl_const|apply dl_expE].
      * apply (dl_pow (fun E => exp (b * E) + IZR s)). apply dl_plus; [apply dl_expE|apply dl_const].
      * apply pow_nonzero. fold b in D. lra.
    + fold b in D. fold b. cbn [INR pred pow]. field. lra.
Qed.
Lemma f0_other : forall E s T d, d <> 0%Z -> d <> 1%Z -> d <> 2%Z -> distribution_f0 E s T d = 0.
Proof.
  intros E s T d A B C. unfold distribution_f0.
  destruct (Z.eqb_spec d 0); [contradiction|]. destruct (Z.eqb_spec d 1); [contradiction|]. destruct (Z.eqb_spec d 2); [contradiction|]. reflexivity.
Qed.

Lemma energy_eq : forall px py pz m2, sqrt (px * px + py * py + pz * pz + m2) = energy px py pz m2.
Proof. intros. unfold energy. f_equal. ring. Qed.
Lemma energy_pos : forall px py pz m2, 0 < px ^ 2 + py ^ 2 + pz ^ 2 + m2 -> 0 < energy px py pz m2 /\ energy px py pz m2 ^ 2 = px ^ 2 + py ^ 2 + pz ^ 2 + m2.
Proof. intros. unfold energy. split; [apply sqrt_lt_R0; assumption|apply pow2_sqrt; lra]. Qed.
Lemma energy_dpz : forall px py pz m2, 0 < px ^ 2 + py ^ 2 + pz ^ 2 + m2 ->
  dl (fun p => energy px py p m2) pz (pz / energy px py pz m2).
Proof.
  intros px py pz m2 H. destruct (energy_pos _ _ _ _ H) as [P _]. unfold energy in *. eapply dl_eq.
  - apply (dl_sqrt (fun p => px ^ 2 + py ^ 2 + p ^ 2 + m2)); [|exact H].
    apply dl_plus; [apply dl_plus; [apply dl_const|apply (dl_pow (fun p => p) 2); apply dl_id]|apply dl_const].
  - cbn [INR pred pow]. cbn [pow] in P. field. lra.
Qed.
Lemma energy_dm : forall px py pz m2, 0 < px ^ 2 + py ^ 2 + pz ^ 2 + m2 ->
  dl (fun m => energy px py pz m) m2 (1 / (2 * energy px py pz m2)).
Proof.
  intros px py pz m2 H. destruct (energy_pos _ _ _ _ H) as [P _]. unfold energy in *. eapply dl_eq.
  - apply (dl_sqrt (fun m => px ^ 2 + py ^ 2 + pz ^ 2 + m)); [|exact H]. apply dl_plus; [apply dl_const|apply dl_id].
  - field. lra.
Qed.

Section Meaning.
Variables px py pz m2 T : R.
Variable s : Z.
Hypothesis HT : 0 < T.
Hypothesis HE : 0 < px ^ 2 + py ^ 2 + pz ^ 2 + m2.
Hypothesis S : sign s.
Let E := energy px py pz m2.
Let f := fun d E => distribution_f0 E s T d.

Lemma meaning_pz : exists d0 d1 dv,
  dl (fun p => f 0 (energy px py p m2)) pz d0 /\ dl (fun p => f 1 (energy px py p m2)) pz d1 /\ dl (fun p => p / energy px py p m2) pz dv /\
  K_integrand px py pz m2 1 s T = - pz * d1 /\
  K_integrand px py pz m2 4 s T = pz / E * d0 /\
  K_integrand px py pz m2 5 s T = pz * d0 /\
  K_integrand px py pz m2 6 s T = / 2 * f 1 E * dv.
Proof.
  destruct (energy_pos px py pz m2 HE) as [P P2]. fold E in P, P2.
  destruct (f0_derivatives E s T HT P S) as [D0 D1].
  exists (f 1 E * (pz / E)), (f 2 E * (pz / E)), ((1 * E - pz / E * pz) / E ^ 2). repeat split.
  - apply (dl_comp (fun p => energy px py p m2) (f 0%Z)); [apply energy_dpz; exact HE|exact D0].
  - apply (dl_comp (fun p => energy px py p m2) (f 1%Z)); [apply energy_dpz; exact HE|exact D1].
  - apply (dl_div (fun p => p) (fun p => energy px py p m2)); [apply dl_id|apply energy_dpz; exact HE|fold E; lra].
  - unfold K_integrand. rewrite energy_eq. fold E. unfold f. field. lra.
  - unfold K_integrand. rewrite energy_eq. fold E. unfold f. field. lra.
  - unfold K_integrand. rewrite energy_eq. fold E. unfold f. field. lra.
  - unfold K_integrand. rewrite energy_eq. fold E. unfold f. field. lra.
Qed.

Lemma meaning_mass : exists d0 d1,
  dl (fun m => f 0 (energy px py pz m)) m2 d0 /\ dl (fun m => f 1 (energy px py pz m)) m2 d1 /\
  K_integrand px py pz m2 2 s T = d1 /\ K_integrand px py pz m2 3 s T = d0.
Proof.
  destruct (energy_pos px py pz m2 HE) as [P P2]. fold E in P, P2.
  destruct (f0_derivatives E s T HT P S) as [D0 D1].
  exists (f 1 E * (1 / (2 * E))), (f 2 E * (1 / (2 * E))). repeat split.
  - apply (dl_comp (fun m => energy px py pz m) (f 0%Z)); [apply energy_dm; exact HE|exact D0].
  - apply (dl_comp (fun m => energy px py pz m) (f 1%Z)); [apply energy_dm; exact HE|exact D1].
  - unfold K_integrand. rewrite energy_eq. fold E. unfold f. field. lra.
  - unfold K_integrand. rewrite energy_eq. fold E. unfold f. field. lra.
Qed.

Lemma meaning_speed : 0 < pz ^ 2 + m2 -> exists d,
  dl (fun E => f 1 E / E) E d /\
  K_integrand px py pz m2 7 s T = - speed pz m2 / (2 * E) * d /\
  K_integrand px py pz m2 9 s T = - speed pz m2 / (4 * E ^ 2) * d /\
  K_integrand px py pz m2 8 s T = speed pz m2 / (2 * E ^ 2) * f 1 E /\
  K_integrand px py pz m2 10 s T = speed pz m2 / (2 * E ^ 3) * f 0 E.
Proof.
  intro HZ. destruct (energy_pos px py pz m2 HE) as [P P2]. fold E in P, P2.
  destruct (f0_derivatives E s T HT P S) as [D0 D1].
  assert (ZP : 0 < sqrt (pz ^ 2 + m2)) by (apply sqrt_lt_R0; exact HZ).
  exists ((f 2 E * E - 1 * f 1 E) / E ^ 2). split.
  - apply (dl_div (f 1%Z) (fun E => E)); [exact D1|apply dl_id|lra].
  - unfold K_integrand, speed. rewrite energy_eq. fold E. replace (pz * pz + m2) with (pz ^ 2 + m2) by ring. unfold f.
    set (z := sqrt (pz ^ 2 + m2)) in *. repeat split; field; lra.
Qed.
End Meaning.

Lemma even : forall px py pz m2 sw s T,
  K_integrand (- px) py pz m2 sw s T = K_integrand px py pz m2 sw s T /\
  K_integrand px (- py) pz m2 sw s T = K_integrand px py pz m2 sw s T /\
  K_integrand px py (- pz) m2 sw s T = K_integrand px py pz m2 sw s T.
Proof.
  intros. unfold K_integrand. repeat split.
  - replace (- px * - px) with (px * px) by ring. reflexivity.
  - replace (- py * - py) with (py * py) by ring. reflexivity.
  - rewrite Rabs_Ropp. replace (- pz * - pz) with (pz * pz) by ring. replace (- - pz * - pz) with (- pz * pz) by ring. reflexivity.
Qed.

Ltac powers := unfold powerRZ in *; change (Pos.to_nat 1) with 1%nat in *; change (Pos.to_nat 2) with 2%nat in *;
  change (Pos.to_nat 3) with 3%nat in *; change (Pos.to_nat 4) with 4%nat in *; change (Pos.to_nat 5) with 5%nat in *.

Lemma f0_scale : forall l E s T d, 0 < l -> 0 < T -> sign s -> 0 < E -> (d = 0 \/ d = 1 \/ d = 2)%Z ->
  distribution_f0 (l * E) s (l * T) d * powerRZ l d = distribution_f0 E s T d.
Proof.
  intros l E s T d L HT S HE H. pose proof (denominator E T s HT HE S) as D. unfold distribution_f0.
  replace (1 / (l * T) * (l * E)) with (1 / T * E) by (field; lra).
  set (x := exp (1 / T * E)) in *. destruct H as [-> | [-> | ->]]; cbn [Z.eqb Pos.eqb]; powers; field; lra.
Qed.

Lemma scaling : forall l px py pz m2 sw s T, 0 < l -> 0 < T -> sign s ->
  0 < px ^ 2 + py ^ 2 + pz ^ 2 + m2 -> 0 < pz ^ 2 + m2 ->
  K_integrand (l * px) (l * py) (l * pz) (l ^ 2 * m2) sw s (l * T) = powerRZ l (degree sw) * K_integrand px py pz m2 sw s T.
Proof.
  intros l px py pz m2 sw s T L HT S HE HZ.
  destruct (energy_pos px py pz m2 HE) as [P _].
  assert (ES : sqrt (l * px * (l * px) + l * py * (l * py) + l * pz * (l * pz) + l ^ 2 * m2) = l * energy px py pz m2).
  { unfold energy. transitivity (sqrt (l ^ 2) * sqrt (px ^ 2 + py ^ 2 + pz ^ 2 + m2)); [rewrite <- sqrt_mult by nra; f_equal; ring|rewrite sqrt_pow2 by lra; reflexivity]. }
  assert (ZS : sqrt (l * pz * (l * pz) + l ^ 2 * m2) = l * sqrt (pz * pz + m2)).
  { transitivity (sqrt (l ^ 2) * sqrt (pz * pz + m2)); [rewrite <- sqrt_mult by nra; f_equal; ring|rewrite sqrt_pow2 by lra; reflexivity]. }
  assert (ZP : 0 < sqrt (pz * pz + m2)) by (apply sqrt_lt_R0; nra).
  unfold K_integrand. rewrite ES, ZS, energy_eq. set (E := energy px py pz m2) in *. set (z := sqrt (pz * pz + m2)) in *.
  rewrite Rabs_mult, (Rabs_pos_eq l) by lra.
  pose proof (f0_scale l E s T 0 L HT S P ltac:(auto)) as F0. pose proof (f0_scale l E s T 1 L HT S P ltac:(auto)) as F1.
  pose proof (f0_scale l E s T 2 L HT S P ltac:(auto)) as F2.
  powers.
  set (g0 := distribution_f0 (l * E) s (l * T) 0) in *. set (g1 := distribution_f0 (l * E) s (l * T) 1) in *. set (g2 := distribution_f0 (l * E) s (l * T) 2) in *.
  rewrite <- F0, <- F1, <- F2. clear F0 F1 F2. set (a := Rabs pz).
  assert (DEF : 0 = powerRZ l 0 * 0) by (cbn; ring).
  unfold degree.
  destruct sw as [|p|p]; [exact DEF| |exact DEF].
  do 4 (try (destruct p as [p|p|])); try exact DEF; powers; field; lra.
Qed.

(** normalisations *)
Section Norms.
Variable cube : (R -> R -> R -> R) -> R.
Variable line : (R -> R) -> R.
Hypothesis line_ext : forall f g, (forall x, f x = g x) -> line f = line g.

Lemma Ktilde_scale : forall T s m2, T <> 0 -> Ktilde_normalization line T s m2 = T ^ 3 * Ktilde_normalization line 1 s (m2 / T ^ 2).
Proof.
  intros T s m2 H. unfold Ktilde_normalization.
  rewrite (line_ext (fun x => x ^ 2 / (exp (sqrt (m2 * (1 / T) ^ 2 + x ^ 2)) + IZR s)) (fun x => x ^ 2 / (exp (sqrt (m2 / T ^ 2 * (1 / 1) ^ 2 + x ^ 2)) + IZR s))).
  2: { intro x. do 5 f_equal. field. exact H. }
  ring.
Qed.

Lemma normalized_agrees : forall fermion boson K sw s m2 T i, sign s -> 0 < T -> m2 / T ^ 2 = INR i ->
  (forall i, fermion (INR i) = Ktilde_grid line 1 i) -> (forall i, boson (INR i) = Ktilde_grid line (-1) i) ->
  K sw s m2 T = table_entry cube sw s m2 T ->
  In sw [1; 2; 4; 5; 6]%Z \/ sw = 9%Z /\ / 10 ^ 15 <= m2 ->
  K_functions cube line m2 T sw s = Value (normalized fermion boson K sw s m2 T).
Proof.
  intros fermion boson K sw s m2 T i S HT I F B KT H.
  assert (N2 : CalculateNorm2 fermion boson m2 T s = Ktilde_normalization line T s m2).
  { rewrite Ktilde_scale by lra. unfold CalculateNorm2. rewrite I. destruct S; subst s; cbn [Z.eqb Pos.eqb]; rewrite ?F, ?B; unfold Ktilde_grid; ring. }
  unfold K_functions, normalized. rewrite N2. unfold CalculateNorm1.
  destruct H as [H|[H M]].
  - cbn in H. destruct H as [<- | [<- | [<- | [<- | [<- | []]]]]]; cbn [Z.ltb Z.compare Pos.compare Pos.compare_cont Z.eqb Pos.eqb orb]; rewrite KT; reflexivity.
  - subst sw. cbn [Z.ltb Z.compare Pos.compare Pos.compare_cont Z.eqb Pos.eqb orb]. rewrite KT. unfold table_entry. cbn [Z.eqb Pos.eqb]. rewrite Rmax_left by exact M. reflexivity.
Qed.

Lemma K8_factor : forall fermion boson K m2 T i r, 0 < T -> m2 / T ^ 2 = INR i ->
  (forall i, fermion (INR i) = Ktilde_grid line 1 i) ->
  K 8%Z 1%Z m2 T = table_entry cube 8 1 m2 T -> Ktilde_normalization line T 1 m2 <> 0 ->
  K_functions cube line m2 T 8 1 = Value r ->
  normalized fermion boson K 8 1 m2 T = r * ((- PI ^ 3 * T ^ 2 * 2 / 3) / Ktilde_normalization line T 1 m2).
Proof.
  intros fermion boson K m2 T i r HT I F KT N E.
  assert (N2 : CalculateNorm2 fermion boson m2 T 1 = Ktilde_normalization line T 1 m2).
  { rewrite Ktilde_scale by lra. unfold CalculateNorm2. rewrite I. cbn [Z.eqb Pos.eqb]. rewrite F. unfold Ktilde_grid. ring. }
  unfold K_functions in E. cbn [Z.ltb Z.compare Pos.compare Pos.compare_cont Z.eqb Pos.eqb orb] in E.
  apply (f_equal (fun v => match v with Value x => x | _ => r end)) in E. subst r.
  unfold normalized. rewrite N2, KT. unfold table_entry. cbn [Z.eqb Pos.eqb]. pose proof PI_RGT_0. field; repeat split; (exact N || lra).
Qed.
Lemma K_exits : forall m2 T sw s, K_functions cube line m2 T sw s = Exits <-> (10 < sw)%Z.
Proof.
  intros. unfold K_functions. destruct (Z.ltb_spec 10 sw) as [H|H].
  - split; [intros _; exact H|reflexivity].
  - split; [|lia]. destruct ((sw =? 5) || (sw =? 6) || (sw =? 10))%Z; discriminate.
Qed.
End Norms.

Lemma Ktilde_range : forall m2 T, 0 <= m2 <= 200 ^ 2 -> 10 <= T -> 0 <= m2 / T ^ 2 <= 400.
Proof.
  intros m2 T [M0 M1] HT. assert (P : 0 < T ^ 2) by nra. split.
  - apply Rmult_le_pos; [exact M0|left; apply Rinv_0_lt_compat; exact P].
  - apply Rmult_le_reg_r with (T ^ 2); [exact P|]. replace (m2 / T ^ 2 * T ^ 2) with m2 by (field; nra). nra.
Qed.

(** the array *)
Lemma set_at_ok : forall v k x, (k < length v)%nat -> exists v', set_at v k x = Ok v' /\ length v' = length v /\
  nth k v' 0 = x /\ forall j, j <> k -> nth j v' 0 = nth j v 0.
Proof.
  intros v k x H. unfold set_at. destruct (Nat.ltb_spec k (length v)); [|lia]. eexists. split; [reflexivity|].
  assert (FL : length (firstn k v) = k) by (apply firstn_length_le; lia).
  split; [|split].
  - rewrite app_length. cbn [length]. rewrite FL, skipn_length. lia.
  - rewrite app_nth2 by lia. rewrite FL, Nat.sub_diag. reflexivity.
  - intros j J. destruct (Nat.lt_ge_cases j k) as [L|L].
    + rewrite app_nth1 by lia. rewrite <- (firstn_skipn k v) at 2. rewrite app_nth1 by lia. reflexivity.
    + rewrite app_nth2 by lia. rewrite FL. replace (j - k)%nat with (S (j - S k)) by lia. cbn [nth].
      rewrite <- (firstn_skipn (S k) v) at 2. rewrite app_nth2; rewrite firstn_length_le by lia; [reflexivity|lia].
Qed.

Lemma fill_ok : forall M N table ijs v, length v = (M * N)%nat -> NoDup ijs ->
  (forall i j, In (i, j) ijs -> (i < M)%nat /\ (j < N)%nat) ->
  exists v', fill M table ijs v = Ok v' /\ length v' = (M * N)%nat /\
    (forall i j, In (i, j) ijs -> nth (j * M + i) v' 0 = table i j) /\
    (forall i j, (i < M)%nat -> ~ In (i, j) ijs -> nth (j * M + i) v' 0 = nth (j * M + i) v 0).
Proof.
  intros M N table ijs. induction ijs as [|[i j] ijs IH]; intros v L ND B.
  - exists v. split; [reflexivity|]. split; [exact L|]. split; [intros ? ? []|reflexivity].
  - destruct (B i j (or_introl eq_refl)) as [BI BJ]. cbn [fill].
    assert (K : (j * M + i < length v)%nat) by (rewrite L; nia).
    destruct (set_at_ok v (j * M + i) (table i j) K) as [v1 [E [L1 [A O]]]]. rewrite E. cbn [bind].
    inversion ND as [|? ? NI ND']; subst.
    destruct (IH v1 ltac:(lia) ND' ltac:(intros a b H; apply B; right; exact H)) as [v2 [E2 [L2 [A2 O2]]]].
    exists v2. split; [exact E2|]. split; [exact L2|].
    assert (INJ : forall a b, (a < M)%nat -> (a, b) <> (i, j) -> (b * M + a <> j * M + i)%nat).
    { intros a b HA NE EQ. apply NE. assert (b = j) by nia. subst b. f_equal. lia. }
    split.
    + intros a b [H|H]; [|apply A2; exact H]. apply pair_equal_spec in H. destruct H as [<- <-]. rewrite O2 by assumption. exact A.
    + intros a b HA NIn. rewrite O2; [|exact HA|intro X; apply NIn; right; exact X]. apply O. apply INJ; [exact HA|]. intro X. apply NIn. left. congruence.
Qed.

Lemma NoDup_app_lem : forall (A : Type) (l r : list A), NoDup l -> NoDup r -> (forall x, In x l -> ~ In x r) -> NoDup (l ++ r).
Proof.
  intros A l r NL NR D. induction NL as [|x l NI NL IH]; [exact NR|]. cbn. constructor.
  - rewrite in_app_iff. intros [H|H]; [exact (NI H)|exact (D x (or_introl eq_refl) H)].
  - apply IH. intros y H. apply D. right. exact H.
Qed.
Lemma NoDup_list_prod : forall (A B : Type) (l : list A) (r : list B), NoDup l -> NoDup r -> NoDup (list_prod l r).
Proof.
  intros A B l r NL NR. induction NL as [|x l NI NL IH]; [constructor|]. cbn [list_prod].
  apply NoDup_app_lem.
  - apply Injective_map_NoDup; [intros a b E; congruence|exact NR].
  - exact IH.
  - intros [a b] H1 H2. apply in_map_iff in H1. destruct H1 as [c [E _]]. apply in_prod_iff in H2. destruct H2 as [H2 _]. apply NI. congruence.
Qed.

Lemma grid_ok : forall M N table, exists v, grid_array M N table = Ok v /\ length v = (M * N)%nat /\
  forall i j, (i < M)%nat -> (j < N)%nat -> nth (j * M + i) v 0 = table i j.
Proof.
  intros M N table. unfold grid_array.
  destruct (fill_ok M N table (list_prod (seq 0 M) (seq 0 N)) (repeat 0 (M * N))) as [v [E [L [A _]]]].
  - apply repeat_length.
  - apply NoDup_list_prod; apply seq_NoDup.
  - intros i j H. apply in_prod_iff in H. destruct H as [H1 H2]. apply in_seq in H1. apply in_seq in H2. lia.
  - exists v. split; [exact E|]. split; [exact L|]. intros i j HI HJ. apply A. apply in_prod_iff. split; apply in_seq; lia.
Qed.

(** rescaling of the averages *)
Lemma powerRZ_pos : forall l n, 0 < l -> powerRZ l n <> 0.
Proof. intros. apply powerRZ_NOR. lra. Qed.
Lemma functions_scale : forall cube line l m2 T sw s r,
  (forall f g, (forall x y z, f x y z = g x y z) -> cube f = cube g) ->
  (forall a f, cube (fun x y z => a * f x y z) = a * cube f) ->
  (forall f, cube (fun x y z => f (x / l) (y / l) (z / l)) = l ^ 3 * cube f) ->
  (forall f g, (forall x, f x = g x) -> line f = line g) ->
  0 < l -> 0 < T -> 0 < m2 -> sign s -> Ktilde_normalization line T s m2 <> 0 ->
  K_functions cube line m2 T sw s = Value r ->
  K_functions cube line (l ^ 2 * m2) (l * T) sw s = Value (powerRZ l (normalised_degree sw) * r).
Proof.
  intros cube line l m2 T sw s r CE CL CS LE L HT HM S N E.
  assert (INT : K_integration cube (l ^ 2 * m2) (l * T) sw s = powerRZ l (degree sw) * (l ^ 3 * K_integration cube m2 T sw s)).
  { unfold K_integration.
    rewrite (CE _ (fun x y z => powerRZ l (degree sw) * (fun x y z => K_integrand (x / l) (y / l) (z / l) m2 sw s T) x y z)).
    - rewrite (CL _ (fun x y z => K_integrand (x / l) (y / l) (z / l) m2 sw s T)), (CS (fun x y z => K_integrand x y z m2 sw s T)). ring.
    - intros x y z. rewrite <- scaling; try assumption; [|nra|nra].
      replace (l * (x / l)) with x by (field; lra). replace (l * (y / l)) with y by (field; lra). replace (l * (z / l)) with z by (field; lra). reflexivity. }
  assert (NORM : Ktilde_normalization line (l * T) s (l ^ 2 * m2) = l ^ 3 * Ktilde_normalization line T s m2).
  { rewrite (Ktilde_scale line LE) by nra. rewrite (Ktilde_scale line LE T s m2) by lra.
    replace (l ^ 2 * m2 / (l * T) ^ 2) with (m2 / T ^ 2) by (field; lra). ring. }
  unfold K_functions in *. rewrite INT, NORM. unfold normalised_degree. destruct (10 <? sw)%Z; [discriminate|].
  pose proof (powerRZ_pos l (degree sw) L) as P0. pose proof PI_RGT_0 as PI0.
  destruct ((sw =? 5) || (sw =? 6) || (sw =? 10))%Z; apply (f_equal (fun v => match v with Value x => x | _ => r end)) in E; subst r; f_equal.
  - replace (degree sw + 3 - 3)%Z with (degree sw) by lia. field. split; [exact N|lra].
  - replace (degree sw + 3 - 2)%Z with (degree sw + 1)%Z by lia. rewrite powerRZ_add by lra. rewrite powerRZ_1.
    field. repeat split; lra.
Qed.

Lemma K8_sign : forall cube line fermion boson K m2 T i r,
  (forall f g, (forall x, f x = g x) -> line f = line g) ->
  0 < T -> m2 / T ^ 2 = INR i -> (forall i, fermion (INR i) = Ktilde_grid line 1 i) ->
  K 8%Z 1%Z m2 T = table_entry cube 8 1 m2 T -> 0 < Ktilde_normalization line T 1 m2 ->
  K_functions cube line m2 T 8 1 = Value r -> r <> 0 -> r * normalized fermion boson K 8 1 m2 T < 0.
Proof.
  intros cube line fermion boson K m2 T i r LE HT I F KT N E NZ.
  rewrite (K8_factor cube line LE fermion boson K m2 T i r HT I F KT ltac:(lra) E).
  pose proof PI_RGT_0 as PI0. pose proof (pow_lt PI 3 PI0). pose proof (pow_lt T 2 HT). set (n := Ktilde_normalization line T 1 m2) in *.
  replace (r * (r * (- PI ^ 3 * T ^ 2 * 2 / 3 / n))) with (- (r ^ 2 * (PI ^ 3 * T ^ 2 * (2 / 3) * / n))) by (field; lra).
  assert (0 < / n) by (apply Rinv_0_lt_compat; exact N).
  assert (0 < r ^ 2) by nra. assert (0 < PI ^ 3 * T ^ 2) by (apply Rmult_lt_0_compat; assumption).
  assert (0 < PI ^ 3 * T ^ 2 * (2 / 3)) by lra.
  assert (0 < PI ^ 3 * T ^ 2 * (2 / 3) * / n) by (apply Rmult_lt_0_compat; assumption).
  assert (0 < r ^ 2 * (PI ^ 3 * T ^ 2 * (2 / 3) * / n)) by (apply Rmult_lt_0_compat; assumption). lra.
Qed.
