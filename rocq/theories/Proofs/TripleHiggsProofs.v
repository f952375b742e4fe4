(** Triple Higgs couplings. *)
From Coq Require Import Reals List Arith Bool Lra Lia Permutation.
From Coquelicot Require Import Coquelicot.
From Verif Require Import Model.EigenSecond Proofs.EigenSecondProofs Model.TripleHiggs Spec.TripleHiggsSpec.
Import ListNotations.
Open Scope R_scope.

Lemma total_summation : forall n f, total n f = summation n f.
Proof. induction n as [|n IH]; intros f; cbn; [reflexivity|rewrite IH; reflexivity]. Qed.
Lemma summation_ext : forall n f g, (forall i, (i < n)%nat -> f i = g i) -> summation n f = summation n g.
Proof. intros. rewrite <- !total_summation. apply total_ext. assumption. Qed.

(** * Multilinear forms *)
Section Forms.
  Variable n : nat.
  Definition f1 (L : nat -> R) (x : nat -> R) : R := total n (fun i => x i * L i).
  Definition f2 (L : nat -> nat -> R) (x y : nat -> R) : R := f1 (fun i => f1 (L i) y) x.
  Definition f3 (L : nat -> nat -> nat -> R) (x y z : nat -> R) : R := f1 (fun i => f2 (L i) y z) x.
  Definition f4 (L : nat -> nat -> nat -> nat -> R) (x y z w : nat -> R) : R := f1 (fun i => f3 (L i) y z w) x.
  Lemma f1_ext : forall L M x, (forall i, (i < n)%nat -> L i = M i) -> f1 L x = f1 M x.
  Proof using. intros L M x H. apply total_ext. intros i I. rewrite (H i I). reflexivity. Qed.
  Lemma f1_lin : forall L x y s, f1 L (fun i => x i + s * y i) = f1 L x + s * f1 L y.
  Proof using. intros L x y s. unfold f1. rewrite <- total_scal, <- total_plus. apply total_ext. intros; ring. Qed.
  Lemma f1_lin_L : forall L M x s, f1 (fun i => L i + s * M i) x = f1 L x + s * f1 M x.
  Proof using. intros L M x s. unfold f1. rewrite <- total_scal, <- total_plus. apply total_ext. intros; ring. Qed.
  Lemma f2_sym : forall L x y, symmetric2 n L -> f2 L x y = f2 L y x.
  Proof using.
    intros L x y H. unfold f2, f1. transitivity (total n (fun i => total n (fun j => x i * (y j * L i j)))).
    - apply total_ext. intros i _. rewrite <- total_scal. reflexivity.
    - rewrite total_swap. apply total_ext. intros j J. rewrite <- total_scal. apply total_ext. intros i I. rewrite (H i j I J). ring.
  Qed.
  Lemma f2_lin : forall L x y z s, f2 L (fun i => x i + s * y i) z = f2 L x z + s * f2 L y z.
  Proof using. intros. unfold f2. apply f1_lin. Qed.
  Lemma f3_lin : forall L x y z w s, f3 L (fun i => x i + s * y i) z w = f3 L x z w + s * f3 L y z w.
  Proof using. intros. unfold f3. apply f1_lin. Qed.
  Lemma f4_lin : forall L x y z w v s, f4 L (fun i => x i + s * y i) z w v = f4 L x z w v + s * f4 L y z w v.
  Proof using. intros. unfold f4. apply f1_lin. Qed.
  Lemma f3_23 : forall L x y z, symmetric3 n L -> f3 L x y z = f3 L x z y.
  Proof using. intros L x y z H. apply f1_ext. intros i I. apply f2_sym. intros j k J K. apply (H i j k I J K). Qed.
  Lemma f3_12 : forall L x y z, symmetric3 n L -> f3 L x y z = f3 L y x z.
  Proof using.
    intros L x y z H. unfold f3. change (f2 (fun i j => f1 (L i j) z) x y = f2 (fun i j => f1 (L i j) z) y x). apply f2_sym.
    intros i j I J. apply f1_ext. intros k K. apply (H i j k I J K).
  Qed.
  Lemma f4_12 : forall L x y z w, symmetric4 n L -> f4 L x y z w = f4 L y x z w.
  Proof using.
    intros L x y z w H. unfold f4, f3. change (f2 (fun i j => f2 (L i j) z w) x y = f2 (fun i j => f2 (L i j) z w) y x). apply f2_sym.
    intros i j I J. apply f1_ext. intros k K. apply f1_ext. intros l M. apply (H i j k l I J K M).
  Qed.
  Lemma f4_23 : forall L x y z w, symmetric4 n L -> f4 L x y z w = f4 L x z y w.
  Proof using.
    intros L x y z w H. apply f1_ext. intros i I. unfold f3. change (f2 (fun j k => f1 (L i j k) w) y z = f2 (fun j k => f1 (L i j k) w) z y). apply f2_sym.
    intros j k J K. apply f1_ext. intros l M. apply (H i j k l I J K M).
  Qed.
  Lemma f4_34 : forall L x y z w, symmetric4 n L -> f4 L x y z w = f4 L x y w z.
  Proof using. intros L x y z w H. apply f1_ext. intros i I. apply f1_ext. intros j J. apply f2_sym. intros k l K M. apply (H i j k l I J K M). Qed.

  Lemma pull1 : forall c L x, c * f1 L x = total n (fun i => c * x i * L i).
  Proof using. intros. unfold f1. rewrite <- total_scal. apply total_ext. intros; ring. Qed.
  Lemma polynomial_forms : forall L1 L2 L3 L4 x, polynomial n L1 L2 L3 L4 x = f1 L1 x + 1 / 2 * f2 L2 x x + 1 / 6 * f3 L3 x x x + 1 / 24 * f4 L4 x x x x.
  Proof using.
    intros L1 L2 L3 L4 x. unfold polynomial. f_equal; [f_equal; [f_equal|]|]; [|f_equal|f_equal|f_equal]; rewrite <- total_summation.
    - apply total_ext. intros; ring.
    - unfold f2, f1 at 1. apply total_ext. intros i _. rewrite <- total_summation, pull1. apply total_ext. intros; ring.
    - unfold f3, f1 at 1. apply total_ext. intros i _. rewrite <- total_summation. unfold f2. rewrite pull1. apply total_ext. intros j _.
      rewrite <- total_summation, pull1. apply total_ext. intros; ring.
    - unfold f4, f1 at 1. apply total_ext. intros i _. rewrite <- total_summation. unfold f3. rewrite pull1. apply total_ext. intros j _.
      rewrite <- total_summation. unfold f2. rewrite pull1. apply total_ext. intros k _. rewrite <- total_summation, pull1. apply total_ext. intros; ring.
  Qed.
  Lemma physical_forms : forall S lambda i j k, physical n S lambda i j k = f3 lambda (S i) (S j) (S k).
  Proof using.
    intros S lambda i j k. unfold physical, f3, f1 at 1. apply total_ext. intros l _. unfold f2. rewrite pull1. apply total_ext. intros m _.
    rewrite pull1. apply total_ext. intros p _. ring.
  Qed.
  Lemma lambda_forms : forall L3 L4 v a b c, symmetric4 n L4 -> f3 (LambdaHiggs_3 n L3 L4 v) a b c = f3 L3 a b c + f4 L4 v a b c.
  Proof using.
    intros L3 L4 v a b c H. rewrite f4_12, (f4_23 _ a v), (f4_34 _ a b v) by exact H.
    replace (f3 L3 a b c + f4 L4 a b c v) with (f3 L3 a b c + 1 * f4 L4 a b c v) by ring. unfold f4, f3. rewrite <- f1_lin_L.
    apply f1_ext. intros i _. unfold f2. rewrite <- f1_lin_L. apply f1_ext. intros j _. rewrite <- f1_lin_L. apply f1_ext. intros k _.
    unfold LambdaHiggs_3, f1. rewrite Rmult_1_l. f_equal. apply total_ext. intros; ring.
  Qed.
End Forms.

Lemma polynomial_ext : forall n L1 L2 L3 L4 x y, (forall i, x i = y i) -> polynomial n L1 L2 L3 L4 x = polynomial n L1 L2 L3 L4 y.
Proof.
  intros n L1 L2 L3 L4 x y H. unfold polynomial. f_equal; [f_equal; [f_equal|]|]; [|f_equal|f_equal|f_equal];
  repeat (apply summation_ext; intros ? _); rewrite !H; reflexivity.
Qed.

Section Third.
  Variables (n : nat) (L1 : nat -> R) (L2 : nat -> nat -> R) (L3 : nat -> nat -> nat -> R) (L4 : nat -> nat -> nat -> nat -> R).
  Hypotheses (H2 : symmetric2 n L2) (H3 : symmetric3 n L3) (H4 : symmetric4 n L4).
  Let F1 := f1 n L1. Let F2 := f2 n L2. Let F3 := f3 n L3. Let F4 := f4 n L4.
  (** linearity in each argument *)
  Lemma lin2 : forall x c u z, let y := fun i => x i + u * c i in F2 y z = F2 x z + u * F2 c z /\ F2 z y = F2 z x + u * F2 z c.
  Proof using H2. intros x c u z y. unfold F2, y. rewrite !(f2_sym n L2 z) by exact H2. rewrite f2_lin. split; reflexivity. Qed.
  Lemma lin3 : forall x c u z w, let y := fun i => x i + u * c i in
    F3 y z w = F3 x z w + u * F3 c z w /\ F3 z y w = F3 z x w + u * F3 z c w /\ F3 z w y = F3 z w x + u * F3 z w c.
  Proof using H3.
    intros x c u z w y. unfold F3, y. split; [apply f3_lin|]. split.
    - rewrite (f3_12 n L3 z (fun i => x i + u * c i)), (f3_12 n L3 z x), (f3_12 n L3 z c) by exact H3. apply f3_lin.
    - rewrite (f3_23 n L3 z w (fun i => x i + u * c i)), (f3_23 n L3 z w x), (f3_23 n L3 z w c) by exact H3.
      rewrite (f3_12 n L3 z (fun i => x i + u * c i)), (f3_12 n L3 z x), (f3_12 n L3 z c) by exact H3. apply f3_lin.
  Qed.
  Lemma lin4 : forall x c u z w v, let y := fun i => x i + u * c i in
    F4 y z w v = F4 x z w v + u * F4 c z w v /\ F4 z y w v = F4 z x w v + u * F4 z c w v /\
    F4 z w y v = F4 z w x v + u * F4 z w c v /\ F4 z w v y = F4 z w v x + u * F4 z w v c.
  Proof using H4.
    intros x c u z w v y. assert (A : forall z w v, F4 y z w v = F4 x z w v + u * F4 c z w v) by (intros; apply f4_lin).
    assert (B : forall z w v, F4 z y w v = F4 z x w v + u * F4 z c w v).
    { intros z' w' v'. unfold F4 in *. rewrite (f4_12 n L4 z' y), (f4_12 n L4 z' x), (f4_12 n L4 z' c) by exact H4. apply A. }
    assert (C : forall z w v, F4 z w y v = F4 z w x v + u * F4 z w c v).
    { intros z' w' v'. unfold F4 in *. rewrite (f4_23 n L4 z' w' y), (f4_23 n L4 z' w' x), (f4_23 n L4 z' w' c) by exact H4. apply B. }
    split; [apply A|]. split; [apply B|]. split; [apply C|]. unfold F4 in *. rewrite (f4_34 n L4 z w v y), (f4_34 n L4 z w v x), (f4_34 n L4 z w v c) by exact H4. apply C.
  Qed.
  Lemma sort3 : forall x c w, F3 c x w = F3 x c w /\ F3 x w c = F3 x c w.
  Proof using H3. intros. split; [apply f3_12, H3|apply f3_23, H3]. Qed.
  Lemma V_along : forall x c, is_derive (fun u => polynomial n L1 L2 L3 L4 (fun i => x i + u * c i)) 0 (F1 c + F2 x c + 1 / 2 * F3 x x c + 1 / 6 * F4 x x x c).
  Proof using H2 H3 H4.
    intros x c.
    apply (is_derive_ext (fun u => (F1 x + u * F1 c) + 1 / 2 * (F2 x x + 2 * u * F2 x c + u ^ 2 * F2 c c) +
      1 / 6 * (F3 x x x + 3 * u * F3 x x c + 3 * u ^ 2 * F3 x c c + u ^ 3 * F3 c c c) +
      1 / 24 * (F4 x x x x + 4 * u * F4 x x x c + 6 * u ^ 2 * F4 x x c c + 4 * u ^ 3 * F4 x c c c + u ^ 4 * F4 c c c c))).
    - intros u. rewrite polynomial_forms. fold F1 F2 F3 F4. unfold F1 at 3. rewrite f1_lin. fold F1.
      assert (A := lin2 x c u). assert (B := lin3 x c u). assert (C := lin4 x c u). cbn zeta in *. set (y := fun i => x i + u * c i) in *. clearbody y.
      rewrite (proj1 (A y)), (proj2 (A x)), (proj2 (A c)).
      rewrite (proj1 (B y y)), !(proj1 (proj2 (B x y))), !(proj1 (proj2 (B c y))), !(proj2 (proj2 (B _ _))).
      rewrite (proj1 (C y y y)), !(proj1 (proj2 (C _ y y))), !(proj1 (proj2 (proj2 (C _ _ y)))), !(proj2 (proj2 (proj2 (C _ _ _)))).
      assert (Q : F2 c x = F2 x c) by (apply f2_sym, H2). rewrite Q. clear Q.
      assert (T1 : forall r, F3 c x r = F3 x c r) by (intros; apply f3_12, H3). assert (T2 : forall p, F3 p c x = F3 p x c) by (intros; apply f3_23, H3).
      repeat first [rewrite T1|rewrite T2].
      assert (S1 : forall q r, F4 c x q r = F4 x c q r) by (intros; apply f4_12, H4).
      assert (S2 : forall p r, F4 p c x r = F4 p x c r) by (intros; apply f4_23, H4).
      assert (S3 : forall p q, F4 p q c x = F4 p q x c) by (intros; apply f4_34, H4).
      repeat first [rewrite S1|rewrite S2|rewrite S3]. match goal with |- ?a = ?b => change (@eq R a b) end. ring.
    - auto_derive; [exact I|]. field.
  Qed.
  Lemma V1_along : forall x b c, is_derive (fun t => let y := fun i => x i + t * b i in F1 c + F2 y c + 1 / 2 * F3 y y c + 1 / 6 * F4 y y y c) 0
    (F2 b c + F3 x b c + 1 / 2 * F4 x x b c).
  Proof using H2 H3 H4.
    intros x b c.
    apply (is_derive_ext (fun t => F1 c + (F2 x c + t * F2 b c) + 1 / 2 * (F3 x x c + 2 * t * F3 x b c + t ^ 2 * F3 b b c) +
      1 / 6 * (F4 x x x c + 3 * t * F4 x x b c + 3 * t ^ 2 * F4 x b b c + t ^ 3 * F4 b b b c))).
    - intros u. cbn zeta.
      assert (A := lin2 x b u). assert (B := lin3 x b u). assert (C := lin4 x b u). cbn zeta in *. set (y := fun i => x i + u * b i) in *. clearbody y.
      rewrite (proj1 (A c)), (proj1 (B y c)), !(proj1 (proj2 (B _ c))).
      rewrite (proj1 (C y y c)), !(proj1 (proj2 (C _ y c))), !(proj1 (proj2 (proj2 (C _ _ c)))).
      assert (Q : F3 b x c = F3 x b c) by (apply f3_12, H3). rewrite Q. clear Q.
      assert (S1 : forall q r, F4 b x q r = F4 x b q r) by (intros; apply f4_12, H4).
      assert (S2 : forall p r, F4 p b x r = F4 p x b r) by (intros; apply f4_23, H4).
      repeat first [rewrite S1|rewrite S2]. match goal with |- ?a = ?b => change (@eq R a b) end. ring.
    - auto_derive; [exact I|]. field.
  Qed.
  Lemma V2_along : forall x a b c, is_derive (fun s => let y := fun i => x i + s * a i in F2 b c + F3 y b c + 1 / 2 * F4 y y b c) 0
    (F3 a b c + F4 x a b c).
  Proof using H3 H4.
    intros x a b c.
    apply (is_derive_ext (fun s => F2 b c + (F3 x b c + s * F3 a b c) + 1 / 2 * (F4 x x b c + 2 * s * F4 x a b c + s ^ 2 * F4 a a b c))).
    - intros u. cbn zeta. assert (B := lin3 x a u). assert (C := lin4 x a u). cbn zeta in *. set (y := fun i => x i + u * a i) in *. clearbody y.
      rewrite (proj1 (B b c)), (proj1 (C y b c)), !(proj1 (proj2 (C _ b c))).
      assert (Q : F4 a x b c = F4 x a b c) by (apply f4_12, H4). rewrite Q. match goal with |- ?a = ?b => change (@eq R a b) end. ring.
    - auto_derive; [exact I|]. field.
  Qed.
  Lemma third_derivative : forall v a b c, third (polynomial n L1 L2 L3 L4) v a b c = F3 a b c + F4 v a b c.
  Proof using H2 H3 H4.
    intros v a b c. unfold third.
    transitivity (Derive (fun s => let y := fun i => v i + s * a i in F2 b c + F3 y b c + 1 / 2 * F4 y y b c) 0).
    - apply Derive_ext. intros s. cbn zeta.
      transitivity (Derive (fun t => let y := fun i => (v i + s * a i) + t * b i in F1 c + F2 y c + 1 / 2 * F3 y y c + 1 / 6 * F4 y y y c) 0).
      + apply Derive_ext. intros t. cbn zeta. apply is_derive_unique, V_along.
      + apply is_derive_unique, V1_along.
    - apply is_derive_unique, V2_along.
  Qed.
End Third.
Lemma physical_third : forall n L1 L2 L3 L4 v S i j k, symmetric2 n L2 -> symmetric3 n L3 -> symmetric4 n L4 ->
  physical n S (LambdaHiggs_3 n L3 L4 v) i j k = third (polynomial n L1 L2 L3 L4) v (S i) (S j) (S k).
Proof. intros n L1 L2 L3 L4 v S i j k A B C. rewrite third_derivative, physical_forms, lambda_forms by assumption. reflexivity. Qed.
Lemma physical_symmetric : forall n S lambda i j k, symmetric3 n lambda ->
  physical n S lambda i j k = physical n S lambda j i k /\ physical n S lambda i j k = physical n S lambda i k j.
Proof. intros n S lambda i j k H. rewrite !physical_forms. split; [apply f3_12, H|apply f3_23, H]. Qed.

(** * Order of the rows *)
Lemma large_spec : forall rot cols i, large rot cols i = true <-> 1 / 10 ^ 5 < fold_right (fun c s => Rabs (rot i c) + s) 0 cols.
Proof.
  intros rot cols i. unfold large.
  assert (A : forall a, fold_left (fun s c => s + Rabs (rot i c)) cols a = a + fold_right (fun c s => Rabs (rot i c) + s) 0 cols).
  { induction cols as [|c cols IH]; intros a; cbn [fold_left fold_right]; [ring|]. rewrite IH. ring. }
  rewrite A, Rplus_0_l. destruct (Rlt_dec _ _); split; intros; try assumption; try reflexivity; [discriminate|contradiction].
Qed.
Lemma last_such_ext : forall p q rows, (forall i, In i rows -> p i = q i) -> last_such p rows = last_such q rows.
Proof.
  intros p q rows. unfold last_such. generalize 0%nat. induction rows as [|r rows IH]; intros a H; cbn [fold_left]; [reflexivity|].
  rewrite (H r (or_introl eq_refl)). apply IH. intros i I. apply H. right. exact I.
Qed.
Lemma filter_ext_in' : forall (p q : nat -> bool) rows, (forall i, In i rows -> p i = q i) -> filter p rows = filter q rows.
Proof. intros p q rows. induction rows as [|r rows IH]; intros H; cbn [filter]; [reflexivity|]. rewrite (H r (or_introl eq_refl)), IH by (intros i I; apply H; right; exact I). reflexivity. Qed.
Lemma fill_ext : forall p q rows, (forall i, In i rows -> p i = q i) -> fill p rows = fill q rows.
Proof.
  intros p q rows. unfold fill. generalize (0, 0, 0)%nat. induction rows as [|r rows IH]; intros [[a b] c] H; cbn [fold_left]; [reflexivity|].
  rewrite (H r (or_introl eq_refl)). apply IH. intros i I. apply H. right. exact I.
Qed.

(** all arrangements of the elements of a list *)
Section Arrangements.
  Context {A : Type} (eqb : A -> A -> bool).
  Hypothesis eqb_eq : forall x y, eqb x y = true <-> x = y.
  Fixpoint drop (x : A) (l : list A) : list A := match l with [] => [] | y :: l => if eqb x y then l else y :: drop x l end.
  Fixpoint uniq (l : list A) : list A := match l with [] => [] | x :: l => x :: filter (fun y => negb (eqb x y)) (uniq l) end.
  Fixpoint arrangements (n : nat) (l : list A) : list (list A) :=
    match n with O => [[]] | S n => flat_map (fun x => map (cons x) (arrangements n (drop x l))) (uniq l) end.
  Lemma in_uniq : forall l x, In x l -> In x (uniq l).
  Proof using eqb_eq.
    induction l as [|y l IH]; intros x H; [destruct H|]. cbn [uniq]. destruct (eqb y x) eqn:E; [left; apply eqb_eq, E|]. right.
    apply filter_In. destruct H as [->|H]; [rewrite (proj2 (eqb_eq x x) eq_refl) in E; discriminate|]. split; [apply IH, H|rewrite E; reflexivity].
  Qed.
  Lemma drop_perm : forall x l, In x l -> Permutation l (x :: drop x l).
  Proof using eqb_eq.
    induction l as [|y l IH]; intros H; [destruct H|]. cbn [drop]. destruct (eqb x y) eqn:E; [apply eqb_eq in E; subst; reflexivity|].
    destruct H as [->|H]; [rewrite (proj2 (eqb_eq x x) eq_refl) in E; discriminate|]. rewrite (IH H) at 1. apply perm_swap.
  Qed.
  Lemma in_arrangements : forall n l m, Permutation m l -> length l = n -> In m (arrangements n l).
  Proof using eqb_eq.
    induction n as [|n IH]; intros l m P L.
    - destruct l; [|discriminate]. apply Permutation_sym, Permutation_nil in P. subst. left. reflexivity.
    - destruct m as [|x m]; [apply Permutation_nil in P; subst; discriminate|]. assert (I : In x l) by (apply (Permutation_in _ P); left; reflexivity).
      cbn [arrangements]. apply in_flat_map. exists x. split; [apply in_uniq, I|]. apply in_map. assert (D := drop_perm x l I). apply IH.
      + apply (Permutation_cons_inv (a := x)). rewrite P. exact D.
      + apply Permutation_length in D. cbn in D. lia.
  Qed.
End Arrangements.

Definition sector_eqb (x y : sector) : bool := match x, y with ChA, ChA | ChB, ChB | Odd, Odd | Even, Even => true | _, _ => false end.
Lemma sector_eqb_eq : forall x y, sector_eqb x y = true <-> x = y.
Proof. intros [] []; cbn; split; intros; try reflexivity; discriminate. Qed.
Definition field_eqb (x y : field) : bool :=
  match x, y with Gp, Gp | Gm, Gm | Hp, Hp | Hm, Hm | Hsm, Hsm | G0, G0 | Mix, Mix => true | _, _ => false end.
Lemma field_eqb_eq : forall x y, field_eqb x y = true <-> x = y.
Proof. intros [] []; cbn; split; intros; try reflexivity; discriminate. Qed.

(** every row is used, in the sectors of the names *)
Definition uses_all (n : nat) (r : list nat) : bool := Nat.eqb (length r) n && forallb (fun i => existsb (Nat.eqb i) r) (seq 0 n).
Lemma uses_all_perm : forall n r, uses_all n r = true -> Permutation r (seq 0 n).
Proof.
  intros n r H. apply andb_true_iff in H. destruct H as [L F]. apply Nat.eqb_eq in L. rewrite forallb_forall in F. apply Permutation_sym.
  apply NoDup_Permutation_bis; [apply seq_NoDup|rewrite seq_length; lia|]. intros i I. specialize (F i I). apply existsb_exists in F.
  destruct F as (j & J & E). apply Nat.eqb_eq in E. subst. exact J.
Qed.
Definition list_eqb {A} (eqb : A -> A -> bool) : list A -> list A -> bool :=
  fix go a b := match a, b with [], [] => true | x :: a, y :: b => eqb x y && go a b | _, _ => false end.
Lemma list_eqb_eq : forall A (eqb : A -> A -> bool), (forall x y, eqb x y = true -> x = y) -> forall a b, list_eqb eqb a b = true -> a = b.
Proof.
  intros A eqb H. induction a as [|x a IH]; intros [|y b] E; cbn in E; try reflexivity; try discriminate. apply andb_true_iff in E.
  rewrite (H x y (proj1 E)), (IH b (proj2 E)). reflexivity.
Qed.
Lemma map_nth_in : forall A (s : nat -> A) d n i, (i < n)%nat -> nth i (map s (seq 0 n)) d = s i.
Proof. intros A s d n i I. rewrite (nth_indep _ d (s 0%nat)) by (rewrite map_length, seq_length; exact I). rewrite map_nth, seq_nth by exact I. reflexivity. Qed.

(** the pattern of a list of sectors *)
Definition pattern {A} (eqb : A -> A -> bool) (dec : list nat -> A) (d : A) (l : list A) (cols : list nat) (i : nat) : bool := eqb (nth i l d) (dec cols).

(** ** R2HDM *)
Definition cols_2HDM (x : sector) : list nat := match x with ChA => [0; 2] | ChB => [1; 3] | Odd => [5; 7] | Even => [4; 6] end%nat.
Definition dec_2HDM (c : list nat) : sector := match c with 0%nat :: _ => ChA | 1%nat :: _ => ChB | 5%nat :: _ => Odd | _ => Even end.
Definition check_R2HDM (l : list sector) : bool :=
  match order_R2HDM (pattern sector_eqb dec_2HDM ChA l) with
  | Order r => uses_all 8 r && list_eqb sector_eqb (map (fun i => nth i l ChA) r) [ChA; ChB; ChA; ChB; Odd; Odd; Even; Even] &&
               forallb (fun k => Nat.ltb (nth k r 0%nat) 3) [0; 1; 4]%nat && Nat.ltb (nth 6 r 0%nat) (nth 7 r 0%nat)
  | _ => false
  end.
Lemma enum_R2HDM : forallb (fun a => forallb (fun b => check_R2HDM (a ++ b)) (arrangements sector_eqb 5 [ChA; ChB; Odd; Even; Even]))
  (arrangements sector_eqb 3 [ChA; ChB; Odd]) = true.
Proof. vm_compute. reflexivity. Qed.
Lemma unmixed_pattern : forall A (eqb : A -> A -> bool) (E : forall x y, eqb x y = true <-> x = y) rows rot cols s n d dec, unmixed rows rot cols s ->
  forall x, dec (cols x) = x -> forall i, In i rows -> (i < n)%nat -> large rot (cols x) i = pattern eqb dec d (map s (seq 0 n)) (cols x) i.
Proof.
  intros A eqb E rows rot cols s n d dec U x D i I N. unfold pattern. rewrite D, map_nth_in by exact N. apply eq_true_iff_eq.
  rewrite large_spec, (U i I x), E. reflexivity.
Qed.
Lemma good_R2HDM : forall rot s, unmixed (seq 0 8) rot cols_2HDM s -> Permutation (map s (seq 0 3)) [ChA; ChB; Odd] ->
  Permutation (map s (seq 3 5)) [ChA; ChB; Odd; Even; Even] ->
  exists r, order_R2HDM (large rot) = Order r /\ Permutation r (seq 0 8) /\ map s r = [ChA; ChB; ChA; ChB; Odd; Odd; Even; Even] /\
    (forall k, In k [0; 1; 4]%nat -> (nth k r 0 < 3)%nat) /\ (nth 6 r 0 < nth 7 r 0)%nat.
Proof.
  intros rot s U P1 P2. set (l := map s (seq 0 8)).
  assert (Q : order_R2HDM (large rot) = order_R2HDM (pattern sector_eqb dec_2HDM ChA l)).
  { assert (B : forall x i, In i (seq 0 8) -> large rot (cols_2HDM x) i = pattern sector_eqb dec_2HDM ChA l (cols_2HDM x) i).
    { intros x i I. apply (unmixed_pattern _ sector_eqb sector_eqb_eq (seq 0 8)); [exact U|destruct x; reflexivity|exact I|apply in_seq in I; lia]. }
    assert (L : forall x a m, (a + m <= 8)%nat -> last_such (large rot (cols_2HDM x)) (seq a m) = last_such (pattern sector_eqb dec_2HDM ChA l (cols_2HDM x)) (seq a m)).
    { intros x a m K. apply last_such_ext. intros i I. apply B. rewrite in_seq in *. lia. }
    unfold order_R2HDM. rewrite (filter_ext_in' (large rot [4; 6]%nat) (pattern sector_eqb dec_2HDM ChA l [4; 6]%nat)) by (intros i I; apply (B Even); rewrite in_seq in *; lia).
    cbn zeta. rewrite !(L ChA : forall a m, (a + m <= 8)%nat -> last_such (large rot [0; 2]%nat) (seq a m) = _) by lia.
    rewrite !(L ChB : forall a m, (a + m <= 8)%nat -> last_such (large rot [1; 3]%nat) (seq a m) = _) by lia.
    rewrite !(L Odd : forall a m, (a + m <= 8)%nat -> last_such (large rot [5; 7]%nat) (seq a m) = _) by lia. reflexivity. }
  assert (F := enum_R2HDM). rewrite forallb_forall in F. specialize (F _ (in_arrangements _ sector_eqb_eq 3 _ _ P1 eq_refl)).
  rewrite forallb_forall in F. specialize (F _ (in_arrangements _ sector_eqb_eq 5 _ _ P2 eq_refl)).
  change (map s (seq 0 3) ++ map s (seq 3 5)) with l in F. unfold check_R2HDM in F. rewrite <- Q in F. clear Q.
  destruct (order_R2HDM (large rot)) as [r| |]; [|discriminate|discriminate]. exists r. split; [reflexivity|].
  rewrite !andb_true_iff in F. destruct F as [[[F1 F2] F3] F4]. apply uses_all_perm in F1. split; [exact F1|]. split.
  - apply (list_eqb_eq _ _ (fun x y => proj1 (sector_eqb_eq x y))) in F2. rewrite <- F2. apply map_ext_in. intros i I. unfold l.
    rewrite map_nth_in; [reflexivity|]. apply (Permutation_in _ F1), in_seq in I. lia.
  - split; [|apply Nat.ltb_lt, F4]. rewrite forallb_forall in F3. intros k K. apply Nat.ltb_lt, F3, K.
Qed.

(** ** C2HDM *)
Definition cols_low (x : sector) : list nat := match x with ChA => [0; 2] | ChB => [1; 3] | Odd => [5; 7] | Even => [] end%nat.
Definition cols_high (x : sector) : list nat := match x with ChA => [0; 2] | ChB => [1; 3] | Odd => [4; 5; 6; 7] | Even => [] end%nat.
Definition dec_C2HDM (c : list nat) : sector := match c with 0%nat :: _ => ChA | 1%nat :: _ => ChB | [] => Even | _ => Odd end.
Definition check_C2HDM (l : list sector) : bool :=
  match order_C2HDM (pattern sector_eqb dec_C2HDM ChA l) with
  | Order r => uses_all 8 r && list_eqb sector_eqb (map (fun i => nth i l ChA) r) [ChA; ChB; ChA; ChB; Odd; Odd; Odd; Odd] &&
               forallb (fun k => Nat.ltb (nth k r 0%nat) 3) [0; 1; 4]%nat && Nat.ltb (nth 5 r 0%nat) (nth 6 r 0%nat) && Nat.ltb (nth 6 r 0%nat) (nth 7 r 0%nat)
  | _ => false
  end.
Lemma enum_C2HDM : forallb (fun a => forallb (fun b => check_C2HDM (a ++ b)) (arrangements sector_eqb 5 [ChA; ChB; Odd; Odd; Odd]))
  (arrangements sector_eqb 3 [ChA; ChB; Odd]) = true.
Proof. vm_compute. reflexivity. Qed.
Lemma good_C2HDM : forall rot s, unmixed (seq 0 3) rot cols_low s -> unmixed (seq 3 5) rot cols_high s -> Permutation (map s (seq 0 3)) [ChA; ChB; Odd] ->
  Permutation (map s (seq 3 5)) [ChA; ChB; Odd; Odd; Odd] ->
  exists r, order_C2HDM (large rot) = Order r /\ Permutation r (seq 0 8) /\ map s r = [ChA; ChB; ChA; ChB; Odd; Odd; Odd; Odd] /\
    (forall k, In k [0; 1; 4]%nat -> (nth k r 0 < 3)%nat) /\ (nth 5 r 0 < nth 6 r 0 < nth 7 r 0)%nat.
Proof.
  intros rot s U1 U2 P1 P2. set (l := map s (seq 0 8)). set (pat := pattern sector_eqb dec_C2HDM ChA l).
  assert (Q : order_C2HDM (large rot) = order_C2HDM pat).
  { assert (B1 : forall x i, In i (seq 0 3) -> large rot (cols_low x) i = pat (cols_low x) i).
    { intros x i I. apply (unmixed_pattern _ sector_eqb sector_eqb_eq (seq 0 3)); [exact U1|destruct x; reflexivity|exact I|apply in_seq in I; lia]. }
    assert (B2 : forall x i, In i (seq 3 5) -> large rot (cols_high x) i = pat (cols_high x) i).
    { intros x i I. apply (unmixed_pattern _ sector_eqb sector_eqb_eq (seq 3 5)); [exact U2|destruct x; reflexivity|exact I|apply in_seq in I; lia]. }
    unfold order_C2HDM. rewrite (filter_ext_in' (large rot [4; 5; 6; 7]%nat) (pat [4; 5; 6; 7]%nat)) by (intros i I; apply (B2 Odd), I).
    cbn zeta. rewrite (last_such_ext (large rot [0; 2]%nat) (pat [0; 2]%nat) (seq 0 3)) by (intros i I; apply (B1 ChA), I).
    rewrite (last_such_ext (large rot [0; 2]%nat) (pat [0; 2]%nat) (seq 3 5)) by (intros i I; apply (B2 ChA), I).
    rewrite (last_such_ext (large rot [1; 3]%nat) (pat [1; 3]%nat) (seq 0 3)) by (intros i I; apply (B1 ChB), I).
    rewrite (last_such_ext (large rot [1; 3]%nat) (pat [1; 3]%nat) (seq 3 5)) by (intros i I; apply (B2 ChB), I).
    rewrite (last_such_ext (large rot [5; 7]%nat) (pat [5; 7]%nat) (seq 0 3)) by (intros i I; apply (B1 Odd), I). reflexivity. }
  assert (F := enum_C2HDM). rewrite forallb_forall in F. specialize (F _ (in_arrangements _ sector_eqb_eq 3 _ _ P1 eq_refl)).
  rewrite forallb_forall in F. specialize (F _ (in_arrangements _ sector_eqb_eq 5 _ _ P2 eq_refl)).
  change (map s (seq 0 3) ++ map s (seq 3 5)) with l in F. unfold check_C2HDM in F. fold pat in F. rewrite <- Q in F. clear Q.
  destruct (order_C2HDM (large rot)) as [r| |]; [|discriminate|discriminate]. exists r. split; [reflexivity|].
  rewrite !andb_true_iff in F. destruct F as [[[[F1 F2] F3] F4] F5]. apply uses_all_perm in F1. split; [exact F1|]. split.
  - apply (list_eqb_eq _ _ (fun x y => proj1 (sector_eqb_eq x y))) in F2. rewrite <- F2. apply map_ext_in. intros i I. unfold l.
    rewrite map_nth_in; [reflexivity|]. apply (Permutation_in _ F1), in_seq in I. lia.
  - split; [|split; apply Nat.ltb_lt; assumption]. rewrite forallb_forall in F3. intros k K. apply Nat.ltb_lt, F3, K.
Qed.

(** ** Names by the masses *)
Lemma named_window : forall MSM m a b c, m a <= m b -> m b <= m c -> (124 < m a < 126 \/ 124 < m b < 126 \/ 124 < m c < 126) ->
  exists x y z, snd (named MSM m (a, b, c)) = (x, y, z) /\ Permutation [x; y; z] [a; b; c] /\ 124 < m x < 126 /\ m y <= m z.
Proof.
  intros MSM m a b c AB BC W. unfold named.
  set (P1 := if Rlt_dec (m a) 126 then if Rlt_dec 124 (m a) then m a else MSM else MSM).
  set (P2 := if Rlt_dec (m b) 126 then if Rlt_dec 124 (m b) then m b else P1 else P1).
  set (P3 := if Rlt_dec (m c) 126 then if Rlt_dec 124 (m c) then m c else P2 else P2).
  assert (K : 124 < P3 < 126 /\ ((P3 = m c) \/ (P3 = m b /\ P3 < m c) \/ (P3 = m a /\ P3 < m b))).
  { unfold P3, P2, P1. destruct (Rlt_dec (m a) 126), (Rlt_dec 124 (m a)), (Rlt_dec (m b) 126), (Rlt_dec 124 (m b)), (Rlt_dec (m c) 126), (Rlt_dec 124 (m c));
    try lra; (split; [lra|]); try (left; reflexivity); try (right; left; split; [reflexivity|lra]); try (right; right; split; [reflexivity|lra]); exfalso; lra. }
  clearbody P3. clear P1 P2 W. destruct K as [W K].
  destruct (Req_EM_T (m a) P3) as [Ea|Na].
  - destruct (Rlt_dec (m c) P3); [lra|]. destruct (Rlt_dec (m b) P3); [lra|]. exists a, b, c. cbn [snd]. split; [reflexivity|]. split; [reflexivity|]. lra.
  - destruct (Req_EM_T (m b) P3) as [Eb|Nb].
    + destruct (Rlt_dec (m c) P3); [lra|]. destruct (Rlt_dec (m a) P3) as [_|N]; [|lra]. exists b, a, c. cbn [snd]. split; [reflexivity|]. split; [apply perm_swap|]. lra.
    + assert (Ec : P3 = m c) by (destruct K as [K|[[K _]|[K _]]]; [exact K|lra|lra]). destruct (Rlt_dec (m b) P3) as [_|N]; [|lra].
      destruct (Rlt_dec (m a) P3) as [_|N]; [|lra]. exists c, a, b. cbn [snd]. split; [reflexivity|]. split; [|lra].
      apply (perm_trans (l' := [a; c; b])); [apply perm_swap|]. apply perm_skip, perm_swap.
Qed.
Lemma named_stale : exists first second a b c, first a <= first b <= first c /\ second a <= second b <= second c /\
  snd (named 0 second (a, b, c)) = (a, b, c) /\ snd (named (fst (named 0 first (a, b, c))) second (a, b, c)) = (c, a, b) /\ second b < second c.
Proof.
  exists (fun i => match i with 0%nat => 125 | 1%nat => 300 | _ => 400 end), (fun i => match i with 0%nat => 50 | 1%nat => 60 | _ => 500 end), 0%nat, 1%nat, 2%nat.
  split; [lra|]. split; [lra|].
  assert (Q : fst (named 0 (fun i => match i with 0%nat => 125 | 1%nat => 300 | _ => 400 end) (0, 1, 2)%nat) = 125).
  { unfold named.
    repeat match goal with |- context [Rlt_dec ?x ?y] => destruct (Rlt_dec x y); try (exfalso; lra) end.
    repeat match goal with |- context [Req_EM_T ?x ?y] => destruct (Req_EM_T x y); try (exfalso; lra) end.
    repeat match goal with |- context [Rlt_dec ?x ?y] => destruct (Rlt_dec x y); try (exfalso; lra) end. reflexivity. }
  rewrite Q. clear Q. unfold named.
  repeat match goal with |- context [Rlt_dec ?x ?y] => destruct (Rlt_dec x y); try (exfalso; lra) end.
  repeat match goal with |- context [Req_EM_T ?x ?y] => destruct (Req_EM_T x y); try (exfalso; lra) end.
  repeat match goal with |- context [Rlt_dec ?x ?y] => destruct (Rlt_dec x y); try (exfalso; lra) end.
  cbn [fst snd]. split; [reflexivity|]. split; [reflexivity|]. lra.
Qed.

(** ** N2HDM *)
Definition cols_N2HDM (x : sector) : list nat := match x with ChA => [0; 1] | ChB => [2; 3] | Odd => [4; 5] | Even => [6; 7; 8] end%nat.
Definition dec_N2HDM (c : list nat) : sector := match c with 0%nat :: _ => ChA | 2%nat :: _ => ChB | 4%nat :: _ => Odd | _ => Even end.
Definition check_N2HDM (l : list sector) : bool :=
  let big := pattern sector_eqb dec_N2HDM ChA l in let p cols := last_such (big cols) in
  match filter (big [6; 7; 8]%nat) (seq 3 6) with
  | [a; b; c] => let r := [p [0; 1]%nat (seq 0 3); p [2; 3]%nat (seq 0 3); p [0; 1]%nat (seq 3 6); p [2; 3]%nat (seq 3 6);
                           p [4; 5]%nat (seq 0 3); p [4; 5]%nat (seq 3 6); a; b; c] in
      uses_all 9 r && list_eqb sector_eqb (map (fun i => nth i l ChA) r) [ChA; ChB; ChA; ChB; Odd; Odd; Even; Even; Even] &&
      forallb (fun k => Nat.ltb (nth k r 0%nat) 3) [0; 1; 4]%nat && Nat.ltb a b && Nat.ltb b c
  | _ => false
  end.
Lemma enum_N2HDM : forallb (fun a => forallb (fun b => check_N2HDM (a ++ b)) (arrangements sector_eqb 6 [ChA; ChB; Odd; Even; Even; Even]))
  (arrangements sector_eqb 3 [ChA; ChB; Odd]) = true.
Proof. vm_compute. reflexivity. Qed.
Lemma good_N2HDM : forall rot s MSM m, unmixed (seq 0 9) rot cols_N2HDM s -> Permutation (map s (seq 0 3)) [ChA; ChB; Odd] ->
  Permutation (map s (seq 3 6)) [ChA; ChB; Odd; Even; Even; Even] -> (forall i j, (i <= j)%nat -> (j < 9)%nat -> m i <= m j) ->
  (exists i, (i < 9)%nat /\ s i = Even /\ 124 < m i < 126) ->
  exists r, order_N2HDM (large rot) MSM m = Order r /\ Permutation r (seq 0 9) /\ map s r = [ChA; ChB; ChA; ChB; Odd; Odd; Even; Even; Even] /\
    (forall k, In k [0; 1; 4]%nat -> (nth k r 0 < 3)%nat) /\ 124 < m (nth 6 r 0%nat) < 126 /\ m (nth 7 r 0%nat) <= m (nth 8 r 0%nat).
Proof.
  intros rot s MSM m U P1 P2 S W. set (l := map s (seq 0 9)). set (pat := pattern sector_eqb dec_N2HDM ChA l).
  assert (B : forall x i, In i (seq 0 9) -> large rot (cols_N2HDM x) i = pat (cols_N2HDM x) i).
  { intros x i I. apply (unmixed_pattern _ sector_eqb sector_eqb_eq (seq 0 9)); [exact U|destruct x; reflexivity|exact I|apply in_seq in I; lia]. }
  assert (L : forall x a k, (a + k <= 9)%nat -> last_such (large rot (cols_N2HDM x)) (seq a k) = last_such (pat (cols_N2HDM x)) (seq a k)).
  { intros x a k K. apply last_such_ext. intros i I. apply B. rewrite in_seq in *. lia. }
  assert (F := enum_N2HDM). rewrite forallb_forall in F. specialize (F _ (in_arrangements _ sector_eqb_eq 3 _ _ P1 eq_refl)).
  rewrite forallb_forall in F. specialize (F _ (in_arrangements _ sector_eqb_eq 6 _ _ P2 eq_refl)).
  change (map s (seq 0 3) ++ map s (seq 3 6)) with l in F. unfold check_N2HDM in F. fold pat in F. cbn zeta in F.
  unfold order_N2HDM. rewrite (filter_ext_in' (large rot [6; 7; 8]%nat) (pat [6; 7; 8]%nat)) by (intros i I; apply (B Even); rewrite in_seq in *; lia).
  cbn zeta. rewrite !(L ChA : forall a k, (a + k <= 9)%nat -> last_such (large rot [0; 1]%nat) (seq a k) = _) by lia.
  rewrite !(L ChB : forall a k, (a + k <= 9)%nat -> last_such (large rot [2; 3]%nat) (seq a k) = _) by lia.
  rewrite !(L Odd : forall a k, (a + k <= 9)%nat -> last_such (large rot [4; 5]%nat) (seq a k) = _) by lia.
  cbn [cols_N2HDM].
  destruct (filter (pat [6; 7; 8]%nat) (seq 3 6)) as [|a [|b [|c [|d t]]]]; try discriminate. cbn [posN].
  rewrite !andb_true_iff in F. destruct F as [[[[F1 F2] F3] F4] F5]. apply uses_all_perm in F1. apply Nat.ltb_lt in F4, F5.
  set (r0 := last_such (pat [0; 1]%nat) (seq 0 3)) in *. set (r1 := last_such (pat [2; 3]%nat) (seq 0 3)) in *. set (r2 := last_such (pat [0; 1]%nat) (seq 3 6)) in *.
  set (r3 := last_such (pat [2; 3]%nat) (seq 3 6)) in *. set (r4 := last_such (pat [4; 5]%nat) (seq 0 3)) in *. set (r5 := last_such (pat [4; 5]%nat) (seq 3 6)) in *.
  clearbody r0 r1 r2 r3 r4 r5. apply (list_eqb_eq _ _ (fun x y => proj1 (sector_eqb_eq x y))) in F2.
  assert (G : map s [r0; r1; r2; r3; r4; r5; a; b; c] = [ChA; ChB; ChA; ChB; Odd; Odd; Even; Even; Even]).
  { rewrite <- F2. apply map_ext_in. intros i I. unfold l. rewrite map_nth_in; [reflexivity|]. apply (Permutation_in _ F1), in_seq in I. lia. }
  assert (Lc : (c < 9)%nat) by (assert (I : In c (seq 0 9)) by (apply (Permutation_in _ F1); do 8 right; left; reflexivity); apply in_seq in I; lia).
  destruct (named_window MSM m a b c) as (x & y & z & E1 & E2 & E3 & E4); [apply S; lia|apply S; lia| |].
  { destruct W as (i & I & Si & Wi). assert (J : In i [r0; r1; r2; r3; r4; r5; a; b; c]) by (apply (Permutation_in _ (Permutation_sym F1)), in_seq; lia).
    injection G as G0' G1' G2' G3' G4' G5' Ga Gb Gc. cbn [In] in J.
    destruct J as [J|[J|[J|[J|[J|[J|[J|[J|[J|[]]]]]]]]]]; subst i; try congruence; [left|right; left|right; right]; exact Wi. }
  rewrite E1. exists [r0; r1; r2; r3; r4; r5; x; y; z]. split; [reflexivity|].
  assert (PP : Permutation [r0; r1; r2; r3; r4; r5; x; y; z] [r0; r1; r2; r3; r4; r5; a; b; c]) by (do 6 apply perm_skip; exact E2).
  split; [rewrite PP; exact F1|]. split; [|split; [|cbn [nth]; split; assumption]].
  - cbn [map] in G |- *. injection G as G0' G1' G2' G3' G4' G5' Ga Gb Gc. rewrite G0', G1', G2', G3', G4', G5'.
    assert (T : forall w, In w [a; b; c] -> s w = Even) by (intros w [<-|[<-|[<-|[]]]]; assumption).
    rewrite (T x), (T y), (T z); [reflexivity| | |]; apply (Permutation_in _ E2); cbn; tauto.
  - rewrite forallb_forall in F3. intros k K. assert (H := F3 k K). apply Nat.ltb_lt in H. destruct K as [<-|[<-|[<-|[]]]]; exact H.
Qed.

(** ** CxSM and CP in the dark *)
Lemma first_of_ext : forall f g before c i, (forall d, In d (c :: before) -> f [d] i = g [d] i) -> first_of f before c i = first_of g before c i.
Proof.
  intros f g before c i H. unfold first_of. f_equal; [|apply H; left; reflexivity]. induction before as [|d l IH]; [reflexivity|].
  cbn [forallb]. rewrite (H d) by (right; left; reflexivity). f_equal. apply IH. intros e [E|E]; apply H; [left|right; right]; assumption.
Qed.
Lemma last_first_ext : forall f g before c rows, (forall d i, In d (c :: before) -> In i rows -> f [d] i = g [d] i) ->
  last_such (first_of f before c) rows = last_such (first_of g before c) rows.
Proof. intros f g before c rows H. apply last_such_ext. intros i I. apply first_of_ext. intros d D. apply H; assumption. Qed.
Definition cols_CxSM (x : field) : list nat := match x with Gp => [0] | Gm => [1] | G0 => [2] | Mix => [3; 4; 5] | _ => [] end%nat.
Definition dec_CxSM (c : list nat) : field := match c with 0 :: _ => Gp | 1 :: _ => Gm | 2 :: _ => G0 | _ => Mix end%nat.
Definition check_CxSM (l : list field) : bool :=
  match order_CxSM (pattern field_eqb dec_CxSM Gp l) with
  | Order r => uses_all 6 r && list_eqb field_eqb (map (fun i => nth i l Gp) r) [Gp; Gm; G0; Mix; Mix; Mix] && Nat.ltb (nth 3 r 0%nat) (nth 4 r 0%nat) &&
      if field_eqb (nth 0 l Gp) Mix then Nat.eqb (nth 5 r 0%nat) 0 else Nat.ltb (nth 4 r 0%nat) (nth 5 r 0%nat)
  | _ => false
  end.
Lemma enum_CxSM : forallb check_CxSM (arrangements field_eqb 6 [Gp; Gm; G0; Mix; Mix; Mix]) = true.
Proof. vm_compute. reflexivity. Qed.
Lemma good_CxSM : forall rot s, unmixed (seq 0 6) rot cols_CxSM s -> Permutation (map s (seq 0 6)) [Gp; Gm; G0; Mix; Mix; Mix] ->
  exists r, order_CxSM (large rot) = Order r /\ Permutation r (seq 0 6) /\ map s r = [Gp; Gm; G0; Mix; Mix; Mix] /\ (nth 3 r 0 < nth 4 r 0)%nat /\
    (s 0%nat <> Mix -> (nth 4 r 0 < nth 5 r 0)%nat) /\ (s 0%nat = Mix -> nth 5 r 0 = 0)%nat.
Proof.
  intros rot s U P1. set (l := map s (seq 0 6)). set (pat := pattern field_eqb dec_CxSM Gp l).
  assert (Q : order_CxSM (large rot) = order_CxSM pat).
  { assert (B : forall x i, In x [Gp; Gm; G0; Mix] -> In i (seq 0 6) -> large rot (cols_CxSM x) i = pat (cols_CxSM x) i).
    { intros x i X I. apply (unmixed_pattern _ field_eqb field_eqb_eq (seq 0 6)); [exact U|destruct X as [<-|[<-|[<-|[<-|[]]]]]; reflexivity|exact I|apply in_seq in I; lia]. }
    assert (B0 : forall d i, In d [0; 1; 2]%nat -> In i (seq 0 6) -> large rot [d] i = pat [d] i).
    { intros d i [<-|[<-|[<-|[]]]] I; [apply (B Gp)|apply (B Gm)|apply (B G0)]; try exact I; cbn; tauto. }
    unfold order_CxSM. rewrite (fill_ext (large rot [3; 4; 5]%nat) (pat [3; 4; 5]%nat)) by (intros i I; apply (B Mix); [cbn; tauto|exact I]).
    rewrite !(last_first_ext (large rot) pat) by (intros d i D I; apply B0; [cbn in *; tauto|exact I]). reflexivity. }
  assert (F := enum_CxSM). rewrite forallb_forall in F. specialize (F _ (in_arrangements _ field_eqb_eq 6 _ _ P1 eq_refl)).
  fold l in F. unfold check_CxSM in F. fold pat in F. rewrite <- Q in F. clear Q.
  destruct (order_CxSM (large rot)) as [r| |]; [|discriminate|discriminate]. exists r. split; [reflexivity|].
  rewrite !andb_true_iff in F. destruct F as [[[F1 F2] F3] F4]. apply uses_all_perm in F1. split; [exact F1|]. split.
  { apply (list_eqb_eq _ _ (fun x y => proj1 (field_eqb_eq x y))) in F2. rewrite <- F2. apply map_ext_in. intros i I. unfold l.
    rewrite map_nth_in; [reflexivity|]. apply (Permutation_in _ F1), in_seq in I. lia. }
  split; [apply Nat.ltb_lt, F3|]. change (nth 0 l Gp) with (s 0%nat) in F4. destruct (field_eqb (s 0%nat) Mix) eqn:Z.
  - apply field_eqb_eq in Z. apply Nat.eqb_eq in F4. split; [intros N; contradiction|intros _; exact F4].
  - apply Nat.ltb_lt in F4. split; [intros _; exact F4|]. intros N. apply field_eqb_eq in N. congruence.
Qed.
Definition cols_CPintheDark (x : field) : list nat := match x with Gp => [0] | Gm => [1] | Hp => [2] | Hm => [3] | Hsm => [4] | G0 => [5] | Mix => [6; 7; 8] end%nat.
Definition dec_CPintheDark (c : list nat) : field := match c with 0 :: _ => Gp | 1 :: _ => Gm | 2 :: _ => Hp | 3 :: _ => Hm | 4 :: _ => Hsm | 5 :: _ => G0 | _ => Mix end%nat.
Definition check_CPintheDark (l : list field) : bool :=
  match order_CPintheDark (pattern field_eqb dec_CPintheDark Gp l) with
  | Order r => uses_all 9 r && list_eqb field_eqb (map (fun i => nth i l Gp) r) [Gp; Gm; Hp; Hm; Hsm; G0; Mix; Mix; Mix] && Nat.ltb (nth 6 r 0%nat) (nth 7 r 0%nat) &&
      if field_eqb (nth 0 l Gp) Mix then Nat.eqb (nth 8 r 0%nat) 0 else Nat.ltb (nth 7 r 0%nat) (nth 8 r 0%nat)
  | _ => false
  end.
Lemma enum_CPintheDark : forallb check_CPintheDark (arrangements field_eqb 9 [Gp; Gm; Hp; Hm; Hsm; G0; Mix; Mix; Mix]) = true.
Proof. vm_compute. reflexivity. Qed.
Lemma good_CPintheDark : forall rot s, unmixed (seq 0 9) rot cols_CPintheDark s -> Permutation (map s (seq 0 9)) [Gp; Gm; Hp; Hm; Hsm; G0; Mix; Mix; Mix] ->
  exists r, order_CPintheDark (large rot) = Order r /\ Permutation r (seq 0 9) /\ map s r = [Gp; Gm; Hp; Hm; Hsm; G0; Mix; Mix; Mix] /\ (nth 6 r 0 < nth 7 r 0)%nat /\
    (s 0%nat <> Mix -> (nth 7 r 0 < nth 8 r 0)%nat) /\ (s 0%nat = Mix -> nth 8 r 0 = 0)%nat.
Proof.
  intros rot s U P1. set (l := map s (seq 0 9)). set (pat := pattern field_eqb dec_CPintheDark Gp l).
  assert (Q : order_CPintheDark (large rot) = order_CPintheDark pat).
  { assert (B : forall x i, In i (seq 0 9) -> large rot (cols_CPintheDark x) i = pat (cols_CPintheDark x) i).
    { intros x i I. apply (unmixed_pattern _ field_eqb field_eqb_eq (seq 0 9)); [exact U|destruct x; reflexivity|exact I|apply in_seq in I; lia]. }
    assert (B0 : forall d i, In d [0; 1; 2; 3; 4; 5]%nat -> In i (seq 0 9) -> large rot [d] i = pat [d] i).
    { intros d i [<-|[<-|[<-|[<-|[<-|[<-|[]]]]]]] I; [apply (B Gp)|apply (B Gm)|apply (B Hp)|apply (B Hm)|apply (B Hsm)|apply (B G0)]; exact I. }
    unfold order_CPintheDark. rewrite (fill_ext (large rot [6; 7; 8]%nat) (pat [6; 7; 8]%nat)) by (intros i I; apply (B Mix); exact I).
    rewrite !(last_first_ext (large rot) pat) by (intros d i D I; apply B0; [cbn in *; tauto|exact I]). reflexivity. }
  assert (F := enum_CPintheDark). rewrite forallb_forall in F. specialize (F _ (in_arrangements _ field_eqb_eq 9 _ _ P1 eq_refl)).
  fold l in F. unfold check_CPintheDark in F. fold pat in F. rewrite <- Q in F. clear Q.
  destruct (order_CPintheDark (large rot)) as [r| |]; [|discriminate|discriminate]. exists r. split; [reflexivity|].
  rewrite !andb_true_iff in F. destruct F as [[[F1 F2] F3] F4]. apply uses_all_perm in F1. split; [exact F1|]. split.
  { apply (list_eqb_eq _ _ (fun x y => proj1 (field_eqb_eq x y))) in F2. rewrite <- F2. apply map_ext_in. intros i I. unfold l.
    rewrite map_nth_in; [reflexivity|]. apply (Permutation_in _ F1), in_seq in I. lia. }
  split; [apply Nat.ltb_lt, F3|]. change (nth 0 l Gp) with (s 0%nat) in F4. destruct (field_eqb (s 0%nat) Mix) eqn:Z.
  - apply field_eqb_eq in Z. apply Nat.eqb_eq in F4. split; [intros N; contradiction|intros _; exact F4].
  - apply Nat.ltb_lt in F4. split; [intros _; exact F4|]. intros N. apply field_eqb_eq in N. congruence.
Qed.

Lemma last_such_spec : forall p n, last_or_zero n (fun i => p i = true) (last_such p (seq 0 n)).
Proof.
  intros p n. unfold last_such, last_or_zero. induction n as [|n IH]; [right; cbn; split; [reflexivity|lia]|].
  rewrite seq_S, fold_left_app. cbn [fold_left]. change (0 + n)%nat with n. destruct (p n) eqn:E.
  - left. split; [lia|]. split; [exact E|lia].
  - destruct IH as [(A & B & C)|(A & B)].
    + left. split; [lia|]. split; [exact B|]. intros i I. destruct (Nat.eq_dec i n) as [->|N]; [congruence|apply C; lia].
    + right. split; [exact A|]. intros i I. destruct (Nat.eq_dec i n) as [->|N]; [congruence|apply B; lia].
Qed.
Lemma first_of_spec : forall big c i, first_of big (seq 0 c) c i = true <-> first_column big c i.
Proof.
  intros big c i. unfold first_of, first_column. rewrite andb_true_iff, forallb_forall. split.
  - intros [A B]. split; [exact B|]. intros d D. apply negb_true_iff, A, in_seq. lia.
  - intros [A B]. split; [|exact A]. intros d D. apply in_seq in D. apply negb_true_iff, B. lia.
Qed.
Lemma first_position : forall big n c, last_or_zero n (first_column big c) (last_such (first_of big (seq 0 c) c) (seq 0 n)).
Proof.
  intros big n c. destruct (last_such_spec (first_of big (seq 0 c) c) n) as [(A & B & C)|(A & B)].
  - left. split; [exact A|]. split; [apply first_of_spec, B|]. intros i I F. apply (C i I), first_of_spec, F.
  - right. split; [exact A|]. intros i I F. apply (B i I), first_of_spec, F.
Qed.
Lemma dark_positions : forall big, exists r, order_CPintheDark big = Order r /\ length r = 9%nat /\ forall c, (c < 6)%nat -> last_or_zero 9 (first_column big c) (nth c r 0%nat).
Proof.
  intros big. unfold order_CPintheDark. cbv zeta. destruct (fill (big [6; 7; 8]%nat) (seq 0 9)) as [[a b] c]. eexists. split; [reflexivity|]. split; [reflexivity|].
  intros k K. do 6 (destruct k as [|k]; [cbn [nth]; match goal with |- last_or_zero _ (first_column _ ?d) _ => apply (first_position big 9 d) end|]). lia.
Qed.
Lemma CxSM_positions : forall big, exists r, order_CxSM big = Order r /\ length r = 6%nat /\ forall c, (c < 3)%nat -> last_or_zero 6 (first_column big c) (nth c r 0%nat).
Proof.
  intros big. unfold order_CxSM. cbv zeta. destruct (fill (big [3; 4; 5]%nat) (seq 0 6)) as [[a b] c]. eexists. split; [reflexivity|]. split; [reflexivity|].
  intros k K. do 3 (destruct k as [|k]; [cbn [nth]; match goal with |- last_or_zero _ (first_column _ ?d) _ => apply (first_position big 6 d) end|]). lia.
Qed.
(** fewer or more than three neutral rows *)
Lemma C2HDM_neutral : forall big, let l := filter (big [4; 5; 6; 7]%nat) (seq 3 5) in
  ((length l <= 3)%nat -> exists r, order_C2HDM big = Order r /\ forall k, (k < 3)%nat -> nth (5 + k) r 0%nat = nth k l 0%nat) /\
  ((3 < length l)%nat -> order_C2HDM big = ThrowsOrder).
Proof.
  intros big l. unfold order_C2HDM. fold l. clearbody l. cbv zeta. destruct l as [|a [|b [|c [|d t]]]]; cbn [posN length]; (split; [intros H; try lia|intros H; try lia; reflexivity]);
    eexists; (split; [reflexivity|]); intros k K; do 3 (destruct k as [|k]; [reflexivity|]); lia.
Qed.

(** ** The legend *)
Lemma row_legend : forall n tree ct cw, row n tree ct cw =
  map (fun '(p, (i, j, k)) => - (match p with Tree => tree | CT => ct | CW => cw end) i j k) (legend n).
Proof.
  intros n tree ct cw. unfold row, legend. induction (triples n) as [|[[i j] k] l IH]; [reflexivity|]. cbn [flat_map]. rewrite map_app, IH. reflexivity.
Qed.
Lemma in_triples : forall n i j k, In (i, j, k) (triples n) <-> (i <= j <= k /\ k < n)%nat.
Proof.
  intros n i j k. unfold triples. rewrite in_flat_map. split.
  - intros (a & A & H). apply in_flat_map in H. destruct H as (b & B & H). apply in_map_iff in H. destruct H as (c & E & D). injection E as -> -> ->.
    apply in_seq in A, B, D. lia.
  - intros H. exists i. split; [apply in_seq; lia|]. apply in_flat_map. exists j. split; [apply in_seq; lia|]. apply in_map_iff. exists k. split; [reflexivity|apply in_seq; lia].
Qed.
Lemma NoDup_flat : forall (A B : Type) (f : A -> list B) (l : list A), NoDup l -> (forall a, In a l -> NoDup (f a)) ->
  (forall a b x, In a l -> In b l -> In x (f a) -> In x (f b) -> a = b) -> NoDup (flat_map f l).
Proof.
  intros A B f l N. induction N as [|a l H N IH]; intros F D; [constructor|]. cbn [flat_map].
  assert (IH' : NoDup (flat_map f l)) by (apply IH; [intros b Hb; apply F; right; exact Hb|intros b c x Hb Hc; apply D; right; assumption]).
  assert (X : forall x, In x (f a) -> ~ In x (flat_map f l)).
  { intros x Hx Y. apply in_flat_map in Y. destruct Y as (b & Hb & Y). apply H. rewrite (D a b x); [exact Hb|left; reflexivity|right; exact Hb|exact Hx|exact Y]. }
  assert (Fa := F a (or_introl eq_refl)). clear -IH' X Fa. induction Fa as [|y t Hy Ft IH]; [exact IH'|]. cbn [app]. constructor.
  - rewrite in_app_iff. intros [Y|Y]; [contradiction|]. exact (X y (or_introl eq_refl) Y).
  - apply IH. intros x Hx. apply X. right. exact Hx.
Qed.
Lemma NoDup_triples : forall n, NoDup (triples n).
Proof.
  intros n. unfold triples. apply NoDup_flat; [apply seq_NoDup| |].
  - intros i _. apply NoDup_flat; [apply seq_NoDup| |].
    + intros j _. apply FinFun.Injective_map_NoDup; [intros x y E; injection E as E; exact E|apply seq_NoDup].
    + intros a b x _ _ X Y. apply in_map_iff in X, Y. destruct X as (c & <- & _), Y as (d & E & _). injection E as -> _. reflexivity.
  - intros a b x _ _ X Y. apply in_flat_map in X, Y. destruct X as (c & _ & X), Y as (d & _ & Y). apply in_map_iff in X, Y.
    destruct X as (e & <- & _), Y as (g & E & _). injection E as -> _ _. reflexivity.
Qed.
Lemma legend_once : forall n, NoDup (legend n) /\ forall p i j k, In (p, (i, j, k)) (legend n) <-> (i <= j <= k /\ k < n)%nat.
Proof.
  intros n. unfold legend. split.
  - apply NoDup_flat; [apply NoDup_triples| |].
    + intros t _. repeat constructor; cbn; intuition discriminate.
    + intros a b x _ _ X Y. cbn in X, Y. destruct X as [<-|[<-|[<-|[]]]], Y as [E|[E|[E|[]]]]; try discriminate; injection E as ->; reflexivity.
  - intros p i j k. rewrite in_flat_map. split.
    + intros ([[a b] c] & T & X). apply in_triples in T. cbn in X. destruct X as [E|[E|[E|[]]]]; injection E as _ -> -> ->; exact T.
    + intros H. exists (i, j, k). split; [apply in_triples, H|]. destruct p; cbn; tauto.
Qed.

(** ** Degenerate masses *)
Definition diag (l : list R) (i j : nat) : R := if Nat.eqb i j then nth i l 0 else 0.
Definition unit_row (k j : nat) : R := if Nat.eqb k j then 1 else 0.
(** two units mixed with 3/5 and 4/5 *)
Definition mixed_row (k l : nat) (a b : R) (j : nat) : R := if Nat.eqb k j then a else if Nat.eqb l j then b else 0.
Definition rows (l : list (nat -> R)) (i j : nat) : R := nth i l (fun _ => 0) j.
(** the Goldstone bosons in the fields 0 and 5 are mixed *)
Definition rot_goldstone : nat -> nat -> R :=
  rows [mixed_row 0 5 (3 / 5) (4 / 5); unit_row 1; mixed_row 0 5 (- (4 / 5)) (3 / 5); unit_row 4; unit_row 2; unit_row 3; unit_row 7; unit_row 6].
(** A and H with the same mass are mixed *)
Definition rot_AH : nat -> nat -> R :=
  rows [unit_row 0; unit_row 1; unit_row 5; unit_row 4; unit_row 2; unit_row 3; mixed_row 6 7 (3 / 5) (4 / 5); mixed_row 6 7 (- (4 / 5)) (3 / 5)].
Lemma abs_neg45 : Rabs (- (4 / 5)) = 4 / 5.
Proof. rewrite Rabs_Ropp. apply Rabs_right. lra. Qed.
Ltac larges rot := repeat match goal with |- context [large rot ?c ?i] =>
  let H := fresh in
  first [ assert (H : large rot c i = true) by (apply large_spec; unfold rot, rows, unit_row, mixed_row; cbn [fold_right nth Nat.eqb];
            rewrite ?abs_neg45, ?Rabs_R0, ?Rabs_R1, ?(Rabs_right (3 / 5)), ?(Rabs_right (4 / 5)) by lra; lra)
        | assert (H : large rot c i = false) by (apply not_true_iff_false; intros Y; apply large_spec in Y; revert Y;
            unfold rot, rows, unit_row, mixed_row; cbn [fold_right nth Nat.eqb]; rewrite ?Rabs_R0; lra) ];
  rewrite H; clear H; cbn [filter fold_left first_of forallb negb andb app Nat.eqb] end.
Ltac orthonormality rot := intros i j I J; do 8 (destruct i as [|i]; [do 8 (destruct j as [|j]; [unfold rot, rows, unit_row, mixed_row; cbn [summation nth Nat.eqb]; lra|]); exfalso; lia|]); exfalso; lia.
Lemma goldstone_refuted : exists rot M m r, orthonormal 8 rot /\ diagonalises 8 rot M m /\ (forall i, (3 <= i < 8)%nat -> 0 < m i) /\
  (forall i j, M i j <> 0 -> exists x, In i (cols_2HDM x) /\ In j (cols_2HDM x)) /\
  order_R2HDM (large rot) = Order r /\ nth 0 r 0%nat = nth 4 r 0%nat /\ ~ In 0%nat r.
Proof.
  exists rot_goldstone, (diag [0; 0; 2; 2; 1; 0; 4; 3]), (fun i => nth i [0; 0; 0; 1; 2; 2; 3; 4] 0), [2; 1; 4; 5; 2; 6; 3; 7]%nat.
  split; [orthonormality rot_goldstone|]. split; [split|split; [|split; [|split; [|split]]]].
  - intros i j I J. do 8 (destruct i as [|i]; [do 8 (destruct j as [|j]; [unfold rot_goldstone, rows, unit_row, mixed_row, diag; cbn [summation nth Nat.eqb]; lra|]); exfalso; lia|]); exfalso; lia.
  - intros i j I J. do 8 (destruct i as [|i]; [do 8 (destruct j as [|j]; [cbn [nth]; try lra; exfalso; lia|]); exfalso; lia|]); exfalso; lia.
  - intros i I. do 8 (destruct i as [|i]; [cbn [nth]; try lra; exfalso; lia|]); exfalso; lia.
  - intros i j N. unfold diag in N. destruct (Nat.eqb i j) eqn:Q; [|contradiction]. apply Nat.eqb_eq in Q. subst j.
    do 8 (destruct i as [|i]; [first [exists ChA; cbn; tauto|exists ChB; cbn; tauto|exists Odd; cbn; tauto|exists Even; cbn; tauto]|]).
    exfalso. apply N. cbn. destruct i; reflexivity.
  - unfold order_R2HDM, last_such. cbn [seq filter fold_left]. larges rot_goldstone. reflexivity.
  - reflexivity.
  - cbn. intuition discriminate.
Qed.
Lemma AH_refuted : exists rot M m, orthonormal 8 rot /\ diagonalises 8 rot M m /\ (forall i, (3 <= i < 8)%nat -> 0 < m i) /\
  (forall i j, M i j <> 0 -> exists x, In i (cols_2HDM x) /\ In j (cols_2HDM x)) /\ order_R2HDM (large rot) = UndefinedOrder.
Proof.
  exists rot_AH, (diag [0; 0; 2; 2; 1; 0; 3; 3]), (fun i => nth i [0; 0; 0; 1; 2; 2; 3; 3] 0).
  split; [orthonormality rot_AH|]. split; [split|split; [|split]].
  - intros i j I J. do 8 (destruct i as [|i]; [do 8 (destruct j as [|j]; [unfold rot_AH, rows, unit_row, mixed_row, diag; cbn [summation nth Nat.eqb]; lra|]); exfalso; lia|]); exfalso; lia.
  - intros i j I J. do 8 (destruct i as [|i]; [do 8 (destruct j as [|j]; [cbn [nth]; try lra; exfalso; lia|]); exfalso; lia|]); exfalso; lia.
  - intros i I. do 8 (destruct i as [|i]; [cbn [nth]; try lra; exfalso; lia|]); exfalso; lia.
  - intros i j N. unfold diag in N. destruct (Nat.eqb i j) eqn:Q; [|contradiction]. apply Nat.eqb_eq in Q. subst j.
    do 8 (destruct i as [|i]; [first [exists ChA; cbn; tauto|exists ChB; cbn; tauto|exists Odd; cbn; tauto|exists Even; cbn; tauto]|]).
    exfalso. apply N. cbn. destruct i; reflexivity.
  - unfold order_R2HDM, last_such. cbn [seq filter fold_left]. larges rot_AH. reflexivity.
Qed.
(** a massless scalar of the CxSM in the first row *)
Definition rot_CxSM : nat -> nat -> R := rows [unit_row 5; unit_row 0; unit_row 1; unit_row 2; unit_row 3; unit_row 4].
Lemma lightest_refuted : exists rot M m s r, orthonormal 6 rot /\ diagonalises 6 rot M m /\ unmixed (seq 0 6) rot cols_CxSM s /\
  Permutation (map s (seq 0 6)) [Gp; Gm; G0; Mix; Mix; Mix] /\ order_CxSM (large rot) = Order r /\
  m (nth 5 r 0%nat) < m (nth 3 r 0%nat) < m (nth 4 r 0%nat).
Proof.
  exists rot_CxSM, (diag [0; 0; 0; 1; 2; 0]), (fun i => nth i [0; 0; 0; 0; 1; 2] 0), (fun i => nth i [Mix; Gp; Gm; G0; Mix; Mix] Hp), [1; 2; 3; 4; 5; 0]%nat.
  split. { intros i j I J. do 6 (destruct i as [|i]; [do 6 (destruct j as [|j]; [unfold rot_CxSM, rows, unit_row; cbn [summation nth Nat.eqb]; lra|]); exfalso; lia|]); exfalso; lia. }
  split; [split|split; [|split; [|split]]].
  - intros i j I J. do 6 (destruct i as [|i]; [do 6 (destruct j as [|j]; [unfold rot_CxSM, rows, unit_row, diag; cbn [summation nth Nat.eqb]; lra|]); exfalso; lia|]); exfalso; lia.
  - intros i j I J. do 6 (destruct i as [|i]; [do 6 (destruct j as [|j]; [cbn [nth]; try lra; exfalso; lia|]); exfalso; lia|]); exfalso; lia.
  - intros i I x. apply in_seq in I. do 6 (destruct i as [|i]; [destruct x; unfold rot_CxSM, rows, unit_row; cbn [cols_CxSM fold_right nth Nat.eqb]; rewrite ?Rabs_R0, ?Rabs_R1;
      (split; intros Y; [first [reflexivity|exfalso; lra]|first [discriminate|lra]])|]); exfalso; lia.
  - cbn. change [Mix; Gp; Gm; G0; Mix; Mix] with ([Mix] ++ [Gp; Gm; G0] ++ [Mix; Mix]). apply (perm_trans (Permutation_app_comm _ _)). cbn.
    do 3 apply perm_skip. reflexivity.
  - unfold order_CxSM, fill, last_such, first_of. cbn [seq fold_left forallb]. larges rot_CxSM. reflexivity.
  - cbn [nth]. lra.
Qed.
