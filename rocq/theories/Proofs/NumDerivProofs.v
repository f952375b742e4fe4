(** Proofs about the numerical derivatives. *)
From Coq Require Import Reals List Arith Lia Lra Field.
Import ListNotations.
From Verif.Model Require Import NumDeriv.
From Verif.Spec Require Import NumDerivSpec.
Open Scope R_scope.

Lemma shift_length v : forall i d, length (shift v i d) = length v.
Proof. induction v as [|x v IH]; intros [|i] d; cbn; auto. Qed.
Lemma shift_comp v : forall i d k, (i < length v)%nat ->
  comp (shift v i d) k = comp v k + (if Nat.eq_dec k i then d else 0).
Proof.
  unfold comp. induction v as [|x v IH]; intros [|i] d [|k] H; cbn [length shift nth] in *; try lia.
  - destruct (Nat.eq_dec 0 0); [lra|lia].
  - destruct (Nat.eq_dec (S k) 0); [lia|lra].
  - destruct (Nat.eq_dec 0 (S i)); [lia|lra].
  - rewrite IH by lia. destruct (Nat.eq_dec k i) as [E|E], (Nat.eq_dec (S k) (S i)) as [F|F]; try lia; lra.
Qed.
Lemma shift_moved v i d : (i < length v)%nat -> moved v i d (shift v i d).
Proof. intro H. split; [apply shift_length|]. intro k. now apply shift_comp. Qed.
Lemma shift2_moved v i s j t : (i < length v)%nat -> (j < length v)%nat -> moved2 v i s j t (shift (shift v i s) j t).
Proof. intros Hi Hj. exists (shift v i s). split; apply shift_moved; [exact Hi|now rewrite shift_length]. Qed.

Definition nabla_at phi f eps i :=
  (- f (shift phi i (2 * eps)) + 8 * f (shift phi i eps) - 8 * f (shift phi i (- eps))
     + f (shift phi i (- (2 * eps)))) / (12 * eps).

Lemma nabla_nth phi f eps i : (i < length phi)%nat -> comp (NablaNumerical phi f eps) i = nabla_at phi f eps i.
Proof.
  intro H. unfold comp, NablaNumerical.
  rewrite (nth_indep _ 0 (nabla_at phi f eps 0)) by (rewrite map_length, seq_length; exact H).
  rewrite (map_nth (nabla_at phi f eps)). now rewrite seq_nth.
Qed.
Lemma nabla_length phi f eps : length (NablaNumerical phi f eps) = length phi.
Proof. unfold NablaNumerical. now rewrite map_length, seq_length. Qed.

(** ** the Hessian loops *)
Section H.
Variables (phi : list R) (V : list R -> R) (eps : R).
Let n := length phi.
Let D := hess_diag phi V eps.
Let M := hess_mixed phi V eps.

Definition target (a b : nat) : R :=
  if (a =? b)%nat then D a else if (a <? b)%nat then M a b else M b a.

Lemma inner_val i : forall k s m a b, (i < s)%nat ->
  fold_left (fun m j => upd2 (upd2 m i j (M i j)) j i (M i j)) (seq s k) m a b =
  if ((a =? i) && (s <=? b) && (b <? s + k))%nat%bool then M i b
  else if ((b =? i) && (s <=? a) && (a <? s + k))%nat%bool then M i a
  else m a b.
Proof.
  induction k as [|k IH]; intros s m a b Hs; cbn [seq fold_left].
  - destruct (Nat.leb_spec s b), (Nat.ltb_spec b (s + 0)), (Nat.leb_spec s a), (Nat.ltb_spec a (s + 0)),
      (Nat.eqb_spec a i), (Nat.eqb_spec b i); cbn; try lia; reflexivity.
  - rewrite IH by lia. unfold upd2.
    destruct (Nat.eqb_spec a i) as [->|Ha], (Nat.eqb_spec b i) as [->|Hb];
    repeat match goal with |- context [Nat.leb ?x ?y] => destruct (Nat.leb_spec x y) end;
    repeat match goal with |- context [Nat.ltb ?x ?y] => destruct (Nat.ltb_spec x y) end;
    repeat match goal with |- context [Nat.eqb ?x ?y] => destruct (Nat.eqb_spec x y) end;
    cbn [andb]; subst; try lia; try reflexivity;
    try (replace b with s by lia; reflexivity); try (replace a with s by lia; reflexivity).
Qed.

Lemma row_val i m a b : (i < n)%nat -> (a < n)%nat -> (b < n)%nat ->
  hess_row phi V eps m i a b =
  if ((a =? i) && (i <=? b) || (b =? i) && (i <=? a))%nat%bool then target a b else m a b.
Proof.
  intros Hi Ha Hb. unfold hess_row. fold n. fold M. fold D. rewrite inner_val by lia. unfold upd2, target.
  replace (S i + (n - S i))%nat with n by lia.
  repeat match goal with |- context [Nat.eqb ?x ?y] => destruct (Nat.eqb_spec x y) end;
  repeat match goal with |- context [Nat.leb ?x ?y] => destruct (Nat.leb_spec x y) end;
  repeat match goal with |- context [Nat.ltb ?x ?y] => destruct (Nat.ltb_spec x y) end;
  cbn [andb orb]; subst; try lia; try reflexivity.
Qed.

Lemma rows_val : forall k s m a b, (s + k <= n)%nat -> (a < n)%nat -> (b < n)%nat ->
  fold_left (hess_row phi V eps) (seq s k) m a b =
  if ((s <=? Nat.min a b) && (Nat.min a b <? s + k))%nat%bool then target a b else m a b.
Proof.
  induction k as [|k IH]; intros s m a b Hs Ha Hb; cbn [seq fold_left].
  - destruct (Nat.leb_spec s (Nat.min a b)), (Nat.ltb_spec (Nat.min a b) (s + 0)); cbn [andb]; try lia; reflexivity.
  - rewrite IH by lia. rewrite row_val by lia.
    repeat match goal with |- context [Nat.eqb ?x ?y] => destruct (Nat.eqb_spec x y) end;
    repeat match goal with |- context [Nat.leb ?x ?y] => destruct (Nat.leb_spec x y) end;
    repeat match goal with |- context [Nat.ltb ?x ?y] => destruct (Nat.ltb_spec x y) end;
    cbn [andb orb]; subst; try lia; try reflexivity.
Qed.

Lemma hessian_entry a b : (a < n)%nat -> (b < n)%nat -> entryR (HessianNumerical phi V eps) a b = target a b.
Proof.
  intros Ha Hb. unfold HessianNumerical, entryR. fold n.
  set (m := fold_left (hess_row phi V eps) (seq 0 n) (fun _ _ => 0)).
  rewrite (nth_indep _ [] (map (m 0%nat) (seq 0 n))) by (rewrite map_length, seq_length; exact Ha).
  rewrite (map_nth (fun i => map (m i) (seq 0 n))). rewrite seq_nth by exact Ha. cbn [plus].
  rewrite (nth_indep _ 0 (m a 0%nat)) by (rewrite map_length, seq_length; exact Hb).
  rewrite map_nth, seq_nth by exact Hb. cbn [plus]. unfold m. rewrite rows_val by lia.
  destruct (Nat.leb_spec 0 (Nat.min a b)), (Nat.ltb_spec (Nat.min a b) (0 + n)); cbn [andb]; try lia; reflexivity.
Qed.
Lemma target_sym a b : target a b = target b a.
Proof.
  unfold target. rewrite (Nat.eqb_sym b a). destruct (Nat.eqb_spec a b) as [->|N]; [reflexivity|].
  destruct (Nat.ltb_spec a b), (Nat.ltb_spec b a); try lia; reflexivity.
Qed.
Lemma hessian_sym a b : (a < n)%nat -> (b < n)%nat ->
  entryR (HessianNumerical phi V eps) a b = entryR (HessianNumerical phi V eps) b a.
Proof. intros. rewrite !hessian_entry by assumption. apply target_sym. Qed.
Lemma hessian_shape : length (HessianNumerical phi V eps) = n /\ Forall (fun r => length r = n) (HessianNumerical phi V eps).
Proof.
  unfold HessianNumerical. fold n. split; [now rewrite map_length, seq_length|].
  apply Forall_forall. intros r H. apply in_map_iff in H as (i & <- & _). now rewrite map_length, seq_length.
Qed.
End H.

(** ** polynomials *)
Lemma nabla_quartic phi f eps i c0 c1 c2 c3 c4 : eps <> 0 -> (i < length phi)%nat ->
  (forall s w, moved phi i s w -> f w = c0 + c1 * s + c2 * s ^ 2 + c3 * s ^ 3 + c4 * s ^ 4) ->
  comp (NablaNumerical phi f eps) i = c1.
Proof.
  intros He Hi P. rewrite nabla_nth by exact Hi. unfold nabla_at.
  rewrite !(P _ _ (shift_moved phi i _ Hi)). field. exact He.
Qed.
Lemma shift_0 v : forall i, shift v i 0 = v.
Proof. induction v as [|x v IH]; intros [|i]; cbn; try reflexivity; [f_equal; lra|]. now rewrite IH. Qed.
Lemma hess_cubic phi V eps i c0 c1 c2 c3 : eps <> 0 -> (i < length phi)%nat ->
  (forall s w, moved phi i s w -> V w = c0 + c1 * s + c2 * s ^ 2 + c3 * s ^ 3) ->
  entryR (HessianNumerical phi V eps) i i = 2 * c2.
Proof.
  intros He Hi P. rewrite hessian_entry by exact Hi. unfold target. rewrite Nat.eqb_refl. unfold hess_diag.
  rewrite <- (shift_0 phi i) at 2. rewrite !(P _ _ (shift_moved phi i _ Hi)). field. exact He.
Qed.
Lemma moved2_swap phi i s j t w : i <> j -> moved2 phi i s j t w -> moved2 phi j t i s w.
Proof.
  intros N (u & (Lu & Hu) & (Lw & Hw)).
  destruct (Nat.lt_ge_cases j (length phi)) as [Hj|Hj].
  - exists (shift phi j t). split; [now apply shift_moved|]. split; [rewrite shift_length; lia|].
    intro k. rewrite Hw, Hu, shift_comp by exact Hj. lra.
  - exists phi. assert (t = 0).
    { specialize (Hw j). unfold comp in Hw. rewrite !nth_overflow in Hw by lia. destruct (Nat.eq_dec j j); [lra|lia]. }
    subst t. split.
    + split; [reflexivity|]. intro k. destruct (Nat.eq_dec k j); lra.
    + split; [lia|]. intro k. rewrite Hw, Hu. destruct (Nat.eq_dec k j); lra.
Qed.
Lemma hess_mixed_cubic phi V eps i j a0 a1 a2 a11 a12 a22 b1 b2 b3 b4 : eps <> 0 ->
  (i < length phi)%nat -> (j < length phi)%nat -> i <> j ->
  (forall s t w, moved2 phi i s j t w ->
     V w = a0 + a1 * s + a2 * t + a11 * s ^ 2 + a12 * (s * t) + a22 * t ^ 2
           + b1 * s ^ 3 + b2 * (s ^ 2 * t) + b3 * (s * t ^ 2) + b4 * t ^ 3) ->
  entryR (HessianNumerical phi V eps) i j = a12.
Proof.
  intros He Hi Hj N P. rewrite hessian_entry by assumption. unfold target.
  destruct (Nat.eqb_spec i j) as [|_]; [contradiction|]. destruct (Nat.ltb_spec i j); unfold hess_mixed.
  - rewrite !(P _ _ _ (shift2_moved phi i _ j _ Hi Hj)). field. exact He.
  - rewrite !(P _ _ _ (moved2_swap _ _ _ _ _ _ (not_eq_sym N) (shift2_moved phi j _ i _ Hj Hi))). field. exact He.
Qed.

(** ** quadratic potentials *)
Lemma sumR_ext n f g : (forall i, (i < n)%nat -> f i = g i) -> sumR n f = sumR n g.
Proof. induction n as [|n IH]; intro H; [reflexivity|]. cbn. rewrite IH, H; auto. Qed.
Lemma sumR_plus n f g : sumR n (fun i => f i + g i) = sumR n f + sumR n g.
Proof. induction n as [|n IH]; cbn; [lra|]. rewrite IH. lra. Qed.
Lemma sumR_scal n c f : sumR n (fun i => c * f i) = c * sumR n f.
Proof. induction n as [|n IH]; cbn; [lra|]. rewrite IH. lra. Qed.
Lemma sumR_single n f i s : (i < n)%nat -> sumR n (fun k => f k * (if Nat.eq_dec k i then s else 0)) = f i * s.
Proof.
  induction n as [|n IH]; intro H; [lia|]. cbn [sumR]. destruct (Nat.eq_dec n i) as [->|N].
  - replace (sumR i _) with 0; [lra|]. symmetry. clear.
    assert (G : forall m, (m <= i)%nat -> sumR m (fun k => f k * (if Nat.eq_dec k i then s else 0)) = 0).
    { induction m as [|m IH]; intro H; [reflexivity|]. cbn. rewrite IH by lia. destruct (Nat.eq_dec m i); [lia|lra]. }
    now apply G.
  - rewrite IH by lia. lra.
Qed.

Section Q.
Variables (n : nat) (c : R) (b : nat -> R) (A : nat -> nat -> R).
Definition grad (x : list R) (i : nat) : R := b i + sumR n (fun j => (A i j + A j i) * comp x j).

Lemma grad_shift x i s j : length x = n -> (i < n)%nat -> grad (shift x i s) j = grad x j + s * (A j i + A i j).
Proof.
  intros L Hi. unfold grad.
  rewrite (sumR_ext n _ (fun k => (A j k + A k j) * comp x k + (A j k + A k j) * (if Nat.eq_dec k i then s else 0))).
  2:{ intros k _. rewrite shift_comp by lia. lra. }
  rewrite sumR_plus. rewrite (sumR_single n (fun k => A j k + A k j)) by exact Hi. lra.
Qed.

Lemma quadratic_shift x i s : length x = n -> (i < n)%nat ->
  quadratic n c b A (shift x i s) = quadratic n c b A x + s * grad x i + s ^ 2 * A i i.
Proof.
  intros L Hi. unfold quadratic, grad.
  rewrite (sumR_ext n (fun k => b k * _) (fun k => b k * comp x k + b k * (if Nat.eq_dec k i then s else 0))).
  2:{ intros k _. rewrite shift_comp by lia. lra. }
  rewrite sumR_plus, (sumR_single n b) by exact Hi.
  rewrite (sumR_ext n (fun k => sumR n (fun j => _)) (fun k =>
    sumR n (fun j => A k j * comp x k * comp x j) + A k i * comp x k * s
    + (sumR n (fun j => A k j * comp x j) + A k i * s) * (if Nat.eq_dec k i then s else 0))).
  2:{ intros k _.
      rewrite (sumR_ext n _ (fun j =>
        ((A k j * comp x k * comp x j) + (A k j * comp x k) * (if Nat.eq_dec j i then s else 0))
        + (if Nat.eq_dec k i then s else 0) * (A k j * comp x j + A k j * (if Nat.eq_dec j i then s else 0)))).
      2:{ intros j _. rewrite !shift_comp by lia. lra. }
      rewrite sumR_plus, sumR_plus, sumR_scal, sumR_plus, (sumR_single n (fun j => A k j * comp x k)) by exact Hi.
      rewrite (sumR_single n (A k)) by exact Hi. lra. }
  rewrite sumR_plus, sumR_plus. rewrite (sumR_single n (fun k => sumR n (fun j => A k j * comp x j) + A k i * s)) by exact Hi.
  rewrite (sumR_ext n (fun k => A k i * comp x k * s) (fun k => s * (A k i * comp x k))) by (intros; lra).
  rewrite sumR_scal.
  rewrite (sumR_ext n (fun j => (A i j + A j i) * comp x j) (fun j => A i j * comp x j + A j i * comp x j)) by (intros; lra).
  rewrite sumR_plus. lra.
Qed.

Lemma nabla_quadratic phi eps i : eps <> 0 -> length phi = n -> (i < n)%nat ->
  comp (NablaNumerical phi (quadratic n c b A) eps) i = b i + sumR n (fun j => (A i j + A j i) * comp phi j).
Proof.
  intros He L Hi. rewrite nabla_nth by lia. unfold nabla_at. rewrite !quadratic_shift by assumption. unfold grad. field. exact He.
Qed.
Lemma hessian_quadratic phi eps i j : eps <> 0 -> length phi = n -> (i < n)%nat -> (j < n)%nat ->
  entryR (HessianNumerical phi (quadratic n c b A) eps) i j = A i j + A j i.
Proof.
  intros He L Hi Hj. rewrite hessian_entry by lia. unfold target.
  destruct (Nat.eqb_spec i j) as [<-|N].
  - unfold hess_diag. rewrite !quadratic_shift by assumption. field. exact He.
  - destruct (Nat.ltb_spec i j); unfold hess_mixed;
      rewrite !quadratic_shift by (rewrite ?shift_length; assumption);
      rewrite !grad_shift by assumption; field; exact He.
Qed.
End Q.

(** ** consistency of the gradient for every differentiable function *)
Lemma derivable_remainder g l : derivable_pt_lim g 0 l ->
  forall e, 0 < e -> exists d, 0 < d /\ forall s, Rabs s < d -> Rabs (g s - g 0 - l * s) <= e * Rabs s.
Proof.
  intros D e He. destruct (D e He) as (d & Hd). exists (pos d). split; [apply cond_pos|]. intros s Hs.
  destruct (Req_dec s 0) as [->|N].
  - rewrite Rabs_R0. replace (g 0 - g 0 - l * 0) with 0 by ring. rewrite Rabs_R0. lra.
  - specialize (Hd s N Hs). rewrite Rplus_0_l in Hd.
    replace (g s - g 0 - l * s) with (((g s - g 0) / s - l) * s) by (field; exact N).
    rewrite Rabs_mult. apply Rmult_le_compat_r; [apply Rabs_pos|lra].
Qed.

Lemma nabla_consistent phi f i l : (i < length phi)%nat ->
  derivable_pt_lim (fun s => f (shift phi i s)) 0 l ->
  forall e, 0 < e -> exists d, 0 < d /\ forall h, h <> 0 -> Rabs h < d ->
    Rabs (comp (NablaNumerical phi f h) i - l) < e.
Proof.
  intros Hi D e He. set (g := fun s => f (shift phi i s)) in *.
  destruct (derivable_remainder g l D (e / 2) ltac:(lra)) as (d & Hd & B).
  exists (d / 2). split; [lra|]. intros h Hh Hs. rewrite nabla_nth by exact Hi. unfold nabla_at.
  change (Rabs ((- g (2 * h) + 8 * g h - 8 * g (- h) + g (- (2 * h))) / (12 * h) - l) < e).
  assert (Ph : 0 < Rabs h) by now apply Rabs_pos_lt.
  assert (H2 : Rabs (2 * h) = 2 * Rabs h) by (rewrite Rabs_mult, (Rabs_pos_eq 2); lra).
  pose proof (B h ltac:(lra)) as B1.
  pose proof (B (- h) ltac:(rewrite Rabs_Ropp; lra)) as B2. rewrite Rabs_Ropp in B2.
  pose proof (B (2 * h) ltac:(lra)) as B3. rewrite H2 in B3.
  pose proof (B (- (2 * h)) ltac:(rewrite Rabs_Ropp; lra)) as B4. rewrite Rabs_Ropp, H2 in B4.
  set (r1 := g h - g 0 - l * h) in *. set (r2 := g (- h) - g 0 - l * - h) in *.
  set (r3 := g (2 * h) - g 0 - l * (2 * h)) in *. set (r4 := g (- (2 * h)) - g 0 - l * - (2 * h)) in *.
  replace ((- g (2 * h) + 8 * g h - 8 * g (- h) + g (- (2 * h))) / (12 * h) - l)
    with ((- r3 + 8 * r1 - 8 * r2 + r4) / (12 * h)) by (unfold r1, r2, r3, r4; field; exact Hh).
  unfold Rdiv at 1. rewrite Rabs_mult, Rabs_inv, Rabs_mult, (Rabs_pos_eq 12) by lra.
  assert (N : Rabs (- r3 + 8 * r1 - 8 * r2 + r4) <= 10 * e * Rabs h).
  { assert (X : forall x y, Rabs x <= y -> - y <= x <= y).
    { intros x y Hx. pose proof (Rle_abs x). pose proof (Rle_abs (- x)) as Y. rewrite Rabs_Ropp in Y. lra. }
    apply X in B1, B2, B3, B4. apply Rabs_le. split; nra. }
  apply Rle_lt_trans with (10 * e * Rabs h * / (12 * Rabs h)).
  - apply Rmult_le_compat_r; [|exact N]. apply Rlt_le, Rinv_0_lt_compat. lra.
  - replace (10 * e * Rabs h * / (12 * Rabs h)) with (10 / 12 * e) by (field; lra). lra.
Qed.
