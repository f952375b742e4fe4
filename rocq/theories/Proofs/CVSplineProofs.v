From Coq Require Import QArith Reals Lra Lia List Arith.
From Verif.Model Require Import Base CVSpline.
From Verif.Spec Require Import CVSplineSpec.
From Verif.Proofs Require Import DerivLib.
Import ListNotations.

Section Add.
  Local Open Scope Q_scope.
  Lemma Qltb_t a b : Qltb a b = true <-> a < b.
  Proof.
    unfold Qltb. rewrite negb_true_iff. pose proof (Qle_bool_iff b a) as I. destruct (Qle_bool b a); split; intro H; try discriminate; try reflexivity.
    - destruct I as (I & _). specialize (I eq_refl). exfalso. now apply Qlt_not_le in H.
    - destruct (Qlt_le_dec a b) as [L|L]; [exact L|]. apply I in L. discriminate.
  Qed.
  Lemma Qltb_f a b : Qltb a b = false <-> b <= a.
  Proof.
    pose proof (Qltb_t a b) as T. destruct (Qltb a b); split; intro H; try discriminate; try reflexivity.
    - destruct T as (T & _). specialize (T eq_refl). exfalso. now apply Qlt_not_le in T.
    - destruct (Qlt_le_dec a b) as [L|L]; [apply T in L; discriminate|exact L].
  Qed.
  Lemma out_of_bounds {A} fuel (path : list A) pos L p v : (2 <= length path)%nat -> length pos = length path -> 0 <= p -> p <= L -> (0 < fuel)%nat ->
    add_point fuel None path pos L p v = UB.
  Proof.
    intros Hn He H0 HL Hf. unfold add_point. rewrite (proj2 (Qltb_f p 0) H0), (proj2 (Qltb_f L p) HL). destruct fuel as [|f]; [lia|].
    cbn [locate]. destruct (length path) as [|[|n]] eqn:E; [lia|lia|]. cbn [Nat.eqb].
    unfold read at 1. rewrite (proj2 (nth_error_None pos (S (S n)))) by lia. reflexivity.
  Qed.
  Lemma insert_nth {A} (l : list A) u x : (u <= length l)%nat -> forall i, nth_error (insert_at u x l) i =
    if (i <? u)%nat then nth_error l i else if (i =? u)%nat then Some x else nth_error l (i - 1).
  Proof.
    intros Hu i. unfold insert_at. assert (Lf : length (firstn u l) = u) by (rewrite firstn_length; lia).
    destruct (Nat.ltb_spec i u).
    - rewrite nth_error_app1 by lia. revert l i Hu Lf H. induction u as [|u IH]; intros l i Hu Lf H; [lia|]. destruct l as [|y l]; cbn in Hu; [lia|].
      destruct i as [|i]; [reflexivity|]. cbn. apply IH; cbn in Lf; lia.
    - rewrite nth_error_app2 by lia. rewrite Lf. destruct (Nat.eqb_spec i u) as [-> |N]; [now rewrite Nat.sub_diag|].
      destruct (i - u)%nat as [|k] eqn:E; [lia|]. cbn. replace (i - 1)%nat with (u + k)%nat by lia. clear -Hu. revert l Hu. induction u as [|u IH]; intros l Hu; [reflexivity|].
      destruct l as [|y l]; cbn in Hu; [lia|]. cbn. apply IH. lia.
  Qed.
  Lemma insert_increasing pos u p : (1 <= u <= length pos)%nat -> increasing pos -> (forall a, nth_error pos (u - 1) = Some a -> a < p) ->
    (forall b, nth_error pos u = Some b -> p < b) -> increasing (insert_at u p pos).
  Proof.
    intros Hu S A B i j a b Hij. rewrite !insert_nth by lia.
    destruct (Nat.ltb_spec i u), (Nat.ltb_spec j u).
    - apply S. exact Hij.
    - destruct (Nat.eqb_spec j u) as [-> |Nj].
      + intros E1 E2. injection E2 as <-. destruct (Nat.eq_dec i (u - 1)) as [-> |Ni]; [now apply A|].
        destruct (nth_error pos (u - 1)) as [c|] eqn:Ec; [|apply nth_error_None in Ec; lia]. apply Qlt_trans with c; [|now apply A].
        apply (S i (u - 1)%nat); [lia|exact E1|exact Ec].
      + intros E1 E2. apply (S i (j - 1)%nat); [lia|exact E1|exact E2].
    - lia.
    - destruct (Nat.eqb_spec i u) as [-> |Ni]; destruct (Nat.eqb_spec j u) as [-> |Nj]; try lia.
      + intros E1 E2. injection E1 as <-. destruct (Nat.eq_dec (j - 1) u) as [Ej|Nj']; [rewrite Ej in E2; now apply B|].
        destruct (nth_error pos u) as [c|] eqn:Ec.
        * apply Qlt_trans with c; [now apply B|]. apply (S u (j - 1)%nat); [lia|exact Ec|exact E2].
        * apply nth_error_None in Ec. assert (nth_error pos (j - 1) = None) by (apply nth_error_None; lia). congruence.
      + intros E1 E2. apply (S (i - 1)%nat (j - 1)%nat); [lia|exact E1|exact E2].
  Qed.
  Lemma read_some g pos i : read (Some g) pos i = Ok (match nth_error pos i with Some v => v | None => g end).
  Proof. unfold read. destruct (nth_error pos i); reflexivity. Qed.
  (** if the access past the end returned a number, the search would end at the right place unless it stops early *)
  Lemma locate_ok pos g p : (forall a, In a pos -> ~ a == p) -> forall fuel lower upper, (lower < upper <= length pos)%nat -> (upper - lower <= fuel)%nat ->
    (forall a, nth_error pos lower = Some a -> a < p) -> (forall b, nth_error pos upper = Some b -> p < b) ->
    locate fuel (Some g) pos p lower upper = Ok None \/
    exists u, locate fuel (Some g) pos p lower upper = Ok (Some u) /\ (1 <= u <= length pos)%nat /\ (forall a, nth_error pos (u - 1) = Some a -> a < p) /\ (forall b, nth_error pos u = Some b -> p < b).
  Proof.
    intro Np. induction fuel as [|f IH]; intros lower upper Hlu Hf A B; [lia|]. cbn [locate].
    destruct (Nat.eqb_spec upper (S lower)) as [-> |Nu].
    { right. exists (S lower). split; [reflexivity|]. split; [lia|]. cbn. rewrite Nat.sub_0_r. auto. }
    pose proof (Nat.div_mod (upper + lower) 2 ltac:(lia)) as Dm. pose proof (Nat.mod_upper_bound (upper + lower) 2 ltac:(lia)) as Du. set (mid := Nat.div (upper + lower) 2) in *.
    assert (Hm : (lower < mid < upper)%nat) by lia.
    rewrite !read_some. cbn [bind].
    match goal with |- context [Qeq_bool ?x ?y] => destruct (Qeq_bool x y) end; [left; reflexivity|].
    match goal with |- context [Qeq_bool ?x ?y] => destruct (Qeq_bool x y) end; [left; reflexivity|].
    destruct (nth_error pos mid) as [vm|] eqn:Em; [|apply nth_error_None in Em; lia].
    assert (Nm : ~ vm == p) by (apply Np; eapply nth_error_In; eassumption).
    destruct (Qltb vm p) eqn:L1; destruct (Qltb p vm) eqn:L2;
      try (apply Qltb_t in L1); try (apply Qltb_f in L1); try (apply Qltb_t in L2); try (apply Qltb_f in L2).
    - exfalso. exact (Qlt_irrefl _ (Qlt_trans _ _ _ L1 L2)).
    - apply IH; try lia; [rewrite Em; intros q Q; injection Q as <-; assumption|assumption].
    - apply IH; try lia; [assumption|rewrite Em; intros q Q; injection Q as <-; assumption].
    - exfalso. apply Nm. now apply Qle_antisym.
  Qed.
End Add.

Local Open Scope R_scope.
(** ** length table *)
Lemma list_x_val step i : list_x step i = INR i * step.
Proof. induction i as [|i IH]; [cbn; ring|]. cbn [list_x]. rewrite IH, S_INR. ring. Qed.
Lemma simpson_cubic a b c d F t0 t1 : integral_from_zero (cubic a b c d) F -> Simpson_step (cubic a b c d) t0 t1 = F t1 - F t0.
Proof.
  intros (F0 & HF). set (G := fun t => a * t + b * t ^ 2 / 2 + c * t ^ 3 / 3 + d * t ^ 4 / 4).
  assert (HG : forall t, derivable_pt_lim G t (cubic a b c d t)).
  { intro t. unfold G, cubic. eapply dl_eq; [dlauto; lra|]. cbn [INR pred pow]. field. }
  assert (E : forall t, F t = G t).
  { intro t. assert (Hc : forall u, derivable_pt_lim (F - G)%F u 0).
    { intro u. replace 0 with (cubic a b c d u - cubic a b c d u) by ring. apply derivable_pt_lim_minus; auto. }
    assert (pr : derivable (F - G)%F) by (intro u; exists 0; apply Hc).
    assert (Z : constant (F - G)%F) by (apply null_derivative_1 with pr; intro u; apply derive_pt_eq_0; apply Hc).
    specialize (Z t 0). unfold minus_fct in Z. rewrite F0 in Z. unfold G in Z at 2. lra. }
  rewrite !E. unfold G, Simpson_step, cubic. field.
Qed.
Lemma simpson_bounds v t0 step lo hi : 0 <= step -> (forall t, lo <= v t <= hi) -> lo * step <= Simpson_step v t0 (t0 + step) <= hi * step.
Proof.
  intros Hs H. unfold Simpson_step. replace (t0 + step - t0) with step by ring.
  pose proof (H t0). pose proof (H ((2 * t0 + (t0 + step)) / 3)). pose proof (H ((t0 + 2 * (t0 + step)) / 3)). pose proof (H (t0 + step)).
  split; nra.
Qed.
Lemma table_bounds v step lo hi : 0 <= step -> (forall t, lo <= v t <= hi) -> forall i, lo * list_x step i <= list_l v step i <= hi * list_x step i.
Proof.
  intros Hs H. induction i as [|i IH]; [cbn; lra|]. cbn [list_l list_x]. pose proof (simpson_bounds v (list_l v step i) step lo hi Hs H). split; nra.
Qed.
Lemma table_increasing v step : 0 < step -> (forall t, 0 < v t) -> forall i j, (i < j)%nat -> list_l v step i < list_l v step j.
Proof.
  intros Hs H. assert (S1 : forall i, list_l v step i < list_l v step (S i)).
  { intro i. cbn [list_l]. unfold Simpson_step. set (x := list_l v step i). replace (x + step - x) with step by ring.
    pose proof (H x). pose proof (H ((2 * x + (x + step)) / 3)). pose proof (H ((x + 2 * (x + step)) / 3)). pose proof (H (x + step)). 
    assert (0 < (v x + 3 * v ((2 * x + (x + step)) / 3) + 3 * v ((x + 2 * (x + step)) / 3) + v (x + step)) * step / 8); [|lra].
    apply Rmult_lt_0_compat; [apply Rmult_lt_0_compat; lra|lra]. }
  intros i j Hij. induction Hij as [|j Hij IH]; [apply S1|]. apply Rlt_trans with (1 := IH). apply S1.
Qed.
Lemma table_const c step i : list_l (fun _ => c) step i = c * list_x step i.
Proof. induction i as [|i IH]; [cbn; ring|]. cbn [list_l list_x]. rewrite IH. unfold Simpson_step. field. Qed.
(** a path that speeds up *)
Definition ramp (t : R) : R := 1 + t.
Lemma ramp_step t h : Simpson_step ramp t (t + h) = h * (1 + t) + h ^ 2 / 2.
Proof. unfold Simpson_step, ramp. field. Qed.
Lemma ramp_wrong h : 0 < h -> forall i, list_x h i <= list_l ramp h i /\ ((1 <= i)%nat -> list_x h i < list_l ramp h i) /\
  list_x h i + list_x h i ^ 2 / 2 <= list_l ramp h i /\ ((2 <= i)%nat -> list_x h i + list_x h i ^ 2 / 2 < list_l ramp h i).
Proof.
  intro Hh. induction i as [|i (A & B & C & D)]; [cbn; repeat split; try lra; lia|]. cbn [list_l list_x]. rewrite ramp_step.
  assert (X : 0 <= list_x h i) by (rewrite list_x_val; apply Rmult_le_pos; [apply pos_INR|lra]).
  set (x := list_x h i) in *. set (l := list_l ramp h i) in *. clearbody x l. split; [nra|]. split; [intros _; nra|]. split; [nra|]. intro Hi.
  assert (x < l) by (apply B; lia). nra.
Qed.

(** ** tangent *)
Lemma fold_sq v : forall a, fold_left (fun acc c => acc + c * c) v a = a + dot v v.
Proof. induction v as [|c v IH]; intro a; cbn; [ring|]. rewrite IH. ring. Qed.
Lemma sum_sq_dot v : sum_sq v = dot v v.
Proof. unfold sum_sq. rewrite fold_sq. ring. Qed.
Lemma dot_nonneg v : 0 <= dot v v.
Proof. induction v as [|c v IH]; cbn; [lra|]. nra. Qed.
Lemma dot_scale k v w : dot (map (fun c => c / k) v) w = dot v w / k.
Proof. revert w. induction v as [|c v IH]; intros [|d w]; cbn; unfold Rdiv; try (ring). unfold Rdiv in IH. rewrite IH. ring. Qed.
Lemma dot_comm v w : dot v w = dot w v.
Proof. revert w. induction v as [|c v IH]; intros [|d w]; cbn; try reflexivity. rewrite IH. ring. Qed.
Lemma unit_tangent g1 : 0 < dot g1 g1 -> dot (dl_vec g1) (dl_vec g1) = 1.
Proof.
  intro H. unfold dl_vec at 1. rewrite dot_scale, dot_comm. unfold dl_vec. rewrite dot_scale, sum_sq_dot.
  assert (0 < sqrt (dot g1 g1)) by now apply sqrt_lt_R0. pose proof (sqrt_sqrt (dot g1 g1) ltac:(lra)) as E. set (s := sqrt (dot g1 g1)) in *. rewrite <- E. field. lra.
Qed.
Lemma dot_d2l g2 t l1 l2 w : l1 <> 0 -> length g2 = length t ->
  dot (map (fun '(pp, pl) => (pp - pl * l2) / l1 ^ 2) (combine g2 t)) w = (dot g2 w - l2 * dot t w) / l1 ^ 2.
Proof.
  intro Hl. revert t w. induction g2 as [|a g2 IH]; intros [|b t] w L; try discriminate; [cbn; field; assumption|].
  destruct w as [|c w]; [cbn; field; assumption|]. cbn [combine map dot]. rewrite IH by (cbn in L; lia). field. assumption.
Qed.
(** with the length of the path as parameter the acceleration is normal to the path *)
Lemma normal g1 g2 l1 l2 : length g2 = length g1 -> 0 < dot g1 g1 -> l1 = sqrt (dot g1 g1) -> l2 = dot g1 g2 / l1 ->
  dot (d2l_vec g1 g2 l1 l2) (dl_vec g1) = 0.
Proof.
  intros Le H E1 E2. assert (P : 0 < l1) by (rewrite E1; now apply sqrt_lt_R0). unfold d2l_vec.
  rewrite dot_d2l by (try (unfold dl_vec; rewrite map_length; exact Le); lra). rewrite unit_tangent by exact H.
  rewrite (dot_comm g2). unfold dl_vec. rewrite dot_scale, sum_sq_dot, <- E1, E2. field. lra.
Qed.

Lemma nth_error_map' {A B} (f : A -> B) l i : nth_error (map f l) i = match nth_error l i with Some a => Some (f a) | None => None end.
Proof. revert i. induction l as [|a l IH]; intros [|i]; cbn; auto. Qed.
Lemma nth_error_combine {A B} (l : list A) (l' : list B) i a b : nth_error l i = Some a -> nth_error l' i = Some b -> nth_error (combine l l') i = Some (a, b).
Proof. revert l' i. induction l as [|x l IH]; intros [|y l'] [|i]; cbn; try discriminate; [congruence|]. apply IH. Qed.
(** the components are the derivatives with respect to the length *)
Lemma tangent_derivative (g g1 g2 : list (R -> R)) (len1 len2 X : R -> R) s i f f1 f2 :
  nth_error g i = Some f -> nth_error g1 i = Some f1 -> nth_error g2 i = Some f2 ->
  (forall x, derivable_pt_lim f x (f1 x)) -> (forall x, derivable_pt_lim f1 x (f2 x)) ->
  (forall x, len1 x = sqrt (dot (map (fun h => h x) g1) (map (fun h => h x) g1))) -> (forall x, 0 < len1 x) ->
  (forall x, derivable_pt_lim len1 x (len2 x)) -> (forall t, derivable_pt_lim X t (/ len1 (X t))) ->
  exists T N, nth_error (dl_vec (map (fun h => h (X s)) g1)) i = Some T /\
    nth_error (d2l_vec (map (fun h => h (X s)) g1) (map (fun h => h (X s)) g2) (len1 (X s)) (len2 (X s))) i = Some N /\
    derivable_pt_lim (fun t => f (X t)) s T /\ derivable_pt_lim (fun t => f1 (X t) / len1 (X t)) s N.
Proof.
  intros E0 E1 E2 D0 D1 L1 Lp DL DX. pose proof (Lp (X s)) as P.
  assert (Ts : nth_error (dl_vec (map (fun h => h (X s)) g1)) i = Some (f1 (X s) / len1 (X s))).
  { unfold dl_vec. rewrite nth_error_map', nth_error_map', E1, sum_sq_dot, <- L1. reflexivity. }
  exists (f1 (X s) / len1 (X s)), ((f2 (X s) - f1 (X s) / len1 (X s) * len2 (X s)) / len1 (X s) ^ 2). split; [exact Ts|]. split.
  { unfold d2l_vec. rewrite nth_error_map'. rewrite (nth_error_combine _ _ i (f2 (X s)) (f1 (X s) / len1 (X s))); [reflexivity| |exact Ts].
    rewrite nth_error_map', E2. reflexivity. }
  assert (C : forall h h', (forall x, derivable_pt_lim h x (h' x)) -> derivable_pt_lim (fun t => h (X t)) s (h' (X s) * / len1 (X s))).
  { intros h h' Hh. exact (derivable_pt_lim_comp X h s _ _ (DX s) (Hh (X s))). }
  split; [exact (C f f1 D0)|].
  eapply dl_eq; [apply (derivable_pt_lim_div (fun t => f1 (X t)) (fun t => len1 (X t)) s _ _ (C f1 f2 D1) (C len1 len2 DL)); lra|].
  unfold Rsqr. field. lra.
Qed.
