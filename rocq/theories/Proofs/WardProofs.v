(** First and second derivatives of an invariant function at a vacuum: the Ward identities. *)
From Coq Require Import Reals Lra Lia ZArith List Bool.
From Coquelicot Require Import Complex.
From Verif.Spec Require Import NumDerivSpec PotentialSpec ScalarSpec WardSpec.
From Verif.Proofs Require Import NumDerivProofs PotentialProofs ScalarProofs.
Import ListNotations.
Local Open Scope R_scope.

Lemma vec_ext n x y : (forall i, (i < n)%nat -> x i = y i) -> vec n x = vec n y.
Proof. intro H. apply map_ext_in. intros i I. apply in_seq in I. apply H. lia. Qed.

Definition dot (n : nat) (x y : nat -> R) : R := sumR n (fun i => x i * y i).
Definition quad (n : nat) (H : nat -> nat -> R) (x y : nat -> R) : R := sumR n (fun i => sumR n (fun j => H i j * (x i * y j))).
Lemma dot_lin n N x y c : dot n N (fun i => x i + c * y i) = dot n N x + c * dot n N y.
Proof. unfold dot. rewrite <- sumR_scal, <- sumR_plus. apply sumR_ext. intros. ring. Qed.
Lemma dot_ext n N x y : (forall i, (i < n)%nat -> x i = y i) -> dot n N x = dot n N y.
Proof. intro A. apply sumR_ext. intros i I. now rewrite A. Qed.
Lemma quad_lin1 n H x y z c : quad n H (fun i => x i + c * y i) z = quad n H x z + c * quad n H y z.
Proof.
  unfold quad. rewrite <- sumR_scal, <- sumR_plus. apply sumR_ext. intros. rewrite <- sumR_scal, <- sumR_plus. apply sumR_ext. intros. ring.
Qed.
Lemma quad_lin2 n H x y z c : quad n H z (fun i => x i + c * y i) = quad n H z x + c * quad n H z y.
Proof.
  unfold quad. rewrite <- sumR_scal, <- sumR_plus. apply sumR_ext. intros. rewrite <- sumR_scal, <- sumR_plus. apply sumR_ext. intros. ring.
Qed.
Lemma quad_ext n H x y x' y' : (forall i, (i < n)%nat -> x i = x' i) -> (forall i, (i < n)%nat -> y i = y' i) -> quad n H x y = quad n H x' y'.
Proof. intros A B. apply sumR_ext. intros i I. apply sumR_ext. intros j J. now rewrite A, B. Qed.
Lemma quad_sym n H x y : (forall i j, (i < n)%nat -> (j < n)%nat -> H i j = H j i) -> quad n H x y = quad n H y x.
Proof.
  intro S. unfold quad. rewrite sumR_swap. apply sumR_ext. intros i I. apply sumR_ext. intros j J. rewrite (S j i) by assumption. ring.
Qed.
Lemma dot_nonneg n x : 0 <= dot n x x.
Proof. unfold dot. induction n as [|n IH]; cbn [sumR]; [lra|]. pose proof (Rle_0_sqr (x n)). unfold Rsqr in *. lra. Qed.
Lemma dot_component n x i : (i < n)%nat -> x i * x i <= dot n x x.
Proof.
  unfold dot. induction n as [|n IH]; intro I; [lia|]. cbn [sumR]. pose proof (Rle_0_sqr (x n)) as P. unfold Rsqr in P.
  pose proof (dot_nonneg n x) as D. unfold dot in D. destruct (Nat.eq_dec i n) as [->|]; [lra|]. specialize (IH ltac:(lia)). lra.
Qed.
Lemma dot_le n x y : (forall i, (i < n)%nat -> x i * x i <= y i * y i) -> dot n x x <= dot n y y.
Proof.
  unfold dot. induction n as [|n IH]; intro H; cbn [sumR]; [lra|]. pose proof (H n ltac:(lia)). specialize (IH (fun i I => H i ltac:(lia))). lra.
Qed.

(** a continuous function that is small near 0 vanishes there *)
Lemma small_zero F : continuity_pt F 0 -> (forall e, 0 < e -> exists d, 0 < d /\ forall u, 0 < u <= d -> Rabs (F u) <= e) -> F 0 = 0.
Proof.
  intros C S. destruct (Req_dec (F 0) 0) as [|NZ]; [assumption|]. exfalso.
  assert (P : 0 < Rabs (F 0) / 4) by (pose proof (Rabs_pos_lt _ NZ); lra).
  destruct (S _ P) as (d & D & A). destruct (C _ P) as (d2 & D2 & B).
  set (u := Rmin d (d2 / 2)). assert (U : 0 < u) by (apply Rmin_glb_lt; lra).
  assert (u <= d) by apply Rmin_l. assert (u <= d2 / 2) by apply Rmin_r.
  specialize (A u ltac:(lra)). specialize (B u). unfold D_x, no_cond, dist in B. cbn in B. unfold R_dist in B.
  assert (Rabs (F u - F 0) < Rabs (F 0) / 4). { apply B. split; [split; [exact I|lra]|]. rewrite Rminus_0_r, Rabs_right; lra. }
  pose proof (Rabs_triang (F u) (- (F u - F 0))) as T. rewrite Rabs_Ropp in T. replace (F u + - (F u - F 0)) with (F 0) in T by ring. lra.
Qed.

Lemma div1 u e X : 0 < u -> u * X <= e * (u * u) -> X <= e * u.
Proof. intros U A. apply Rmult_le_reg_l with u; [exact U|]. lra. Qed.
Lemma div0 u e X : 0 < u -> u * X <= e * u -> X <= e.
Proof. intros U A. apply Rmult_le_reg_l with u; [exact U|]. lra. Qed.
Lemma below1 u e X : 0 < e -> u <= 1 -> X <= e * u -> X <= e.
Proof. intros. nra. Qed.

Section Ward.
  Variable n : nat.
  Variable f : list R -> R.
  Variable v N : nat -> R.
  Variable H : nat -> nat -> R.
  Hypothesis T : taylor2 n f v N H.
  Let Hs : forall i j, (i < n)%nat -> (j < n)%nat -> H i j = H j i := proj1 T.
  Definition P (h : nat -> R) : R := dot n N h + / 2 * quad n H h h.

  (** two paths through v on which f agrees *)
  Lemma paths (p q : R -> nat -> R) (W : nat -> R) :
    (forall u i, 0 < u <= 1 -> (i < n)%nat -> Rabs (p u i) <= u * W i /\ Rabs (q u i) <= u * W i) ->
    (forall u, 0 < u <= 1 -> f (vec n (fun i => v i + p u i)) = f (vec n (fun i => v i + q u i))) ->
    forall e, 0 < e -> exists d, 0 < d <= 1 /\ forall u, 0 < u <= d -> Rabs (P (p u) - P (q u)) <= e * (u * u).
  Proof.
    intros B E e He. set (K := dot n W W). assert (K0 : 0 <= K) by apply dot_nonneg.
    pose proof (proj2 T) as T2. destruct (T2 (e / (2 * (K + 1)))) as (d & D & A).
    { apply Rdiv_lt_0_compat; lra. }
    assert (WK : forall i, (i < n)%nat -> Rabs (W i) <= K + 1).
    { intros i I. pose proof (dot_component n W i I) as Q. fold K in Q. unfold Rabs. destruct (Rcase_abs (W i)); nra. }
    exists (Rmin 1 (d / (K + 1))). assert (Dp : 0 < d / (K + 1)) by (apply Rdiv_lt_0_compat; lra).
    split; [split; [apply Rmin_glb_lt; lra|apply Rmin_l]|]. intros u [U0 U1].
    assert (U2 : u <= 1) by (eapply Rle_trans; [exact U1|apply Rmin_l]).
    assert (U3 : u * (K + 1) <= d).
    { apply Rle_trans with (d / (K + 1) * (K + 1)); [|right; field; lra]. apply Rmult_le_compat_r; [lra|]. eapply Rle_trans; [exact U1|apply Rmin_r]. }
    assert (small : forall h : nat -> R, (forall i, (i < n)%nat -> Rabs (h i) <= u * W i) ->
      (forall i, (i < n)%nat -> Rabs (h i) <= d) /\ dot n h h <= u * u * K).
    { intros h Hh. split.
      - intros i I. eapply Rle_trans; [apply Hh; exact I|]. eapply Rle_trans; [|exact U3]. apply Rmult_le_compat_l; [lra|].
        eapply Rle_trans; [apply Rle_abs|]. now apply WK.
      - replace (u * u * K) with (dot n (fun i => u * W i) (fun i => u * W i)).
        + apply dot_le. intros i I. specialize (Hh i I). unfold Rabs in Hh. destruct (Rcase_abs (h i)); nra.
        + unfold K, dot. rewrite <- sumR_scal. apply sumR_ext. intros. ring. }
    assert (Sp := small (p u) (fun i I => proj1 (B u i (conj U0 U2) I))).
    assert (Sq := small (q u) (fun i I => proj2 (B u i (conj U0 U2) I))).
    pose proof (A (p u) (proj1 Sp)) as Ap. pose proof (A (q u) (proj1 Sq)) as Aq.
    change (sumR n (fun i => p u i * p u i)) with (dot n (p u) (p u)) in Ap. change (sumR n (fun i => q u i * q u i)) with (dot n (q u) (q u)) in Aq.
    assert (XP : sumR n (fun i => N i * p u i) + / 2 * sumR n (fun i => sumR n (fun j => H i j * (p u i * p u j))) = P (p u)) by reflexivity.
    assert (XQ : sumR n (fun i => N i * q u i) + / 2 * sumR n (fun i => sumR n (fun j => H i j * (q u i * q u j))) = P (q u)) by reflexivity.
    rewrite (E u (conj U0 U2)) in Ap. set (F1 := f (vec n (fun i => v i + q u i))) in *. set (F0 := f (vec n v)) in *.
    set (k := e / (2 * (K + 1))) in *. assert (k0 : 0 < k) by (apply Rdiv_lt_0_compat; lra).
    replace (P (p u) - P (q u)) with ((F1 - F0 - P (q u)) + - (F1 - F0 - P (p u))) by ring.
    eapply Rle_trans; [apply Rabs_triang|]. rewrite Rabs_Ropp.
    replace (F1 - F0 - P (q u)) with (F1 - F0 - sumR n (fun i => N i * q u i) - / 2 * sumR n (fun i => sumR n (fun j => H i j * (q u i * q u j)))) by (rewrite <- XQ; ring).
    replace (F1 - F0 - P (p u)) with (F1 - F0 - sumR n (fun i => N i * p u i) - / 2 * sumR n (fun i => sumR n (fun j => H i j * (p u i * p u j)))) by (rewrite <- XP; ring).
    eapply Rle_trans; [apply Rplus_le_compat; [exact Aq|exact Ap]|].
    apply Rle_trans with (k * (u * u * K) + k * (u * u * K)).
    - apply Rplus_le_compat; apply Rmult_le_compat_l; lra.
    - replace (k * (u * u * K) + k * (u * u * K)) with (e * (u * u) * (K / (K + 1))) by (unfold k; field; lra).
      assert (K / (K + 1) <= 1) by (apply Rmult_le_reg_r with (K + 1); [lra|]; unfold Rdiv; rewrite Rmult_assoc, Rinv_l by lra; lra).
      assert (0 <= e * (u * u)) by (apply Rmult_le_pos; [lra|nra]). nra.
  Qed.

  (** a symmetry that keeps v: directions w and a related by it have the same derivatives *)
  Lemma linear_symmetry (w a : nat -> R) :
    (forall u, 0 < u <= 1 -> f (vec n (fun i => v i + u * w i)) = f (vec n (fun i => v i + u * a i))) ->
    dot n N w = dot n N a /\ quad n H w w = quad n H a a.
  Proof.
    intro E. set (W := fun i => Rabs (w i) + Rabs (a i)).
    assert (PP : forall e, 0 < e -> exists d, 0 < d <= 1 /\ forall u, 0 < u <= d -> Rabs (P (fun i => u * w i) - P (fun i => u * a i)) <= e * (u * u)).
    { apply (paths (fun u i => u * w i) (fun u i => u * a i) W); [|exact E]. intros u i U _. rewrite !Rabs_mult, (Rabs_right u) by lra. unfold W.
      pose proof (Rabs_pos (w i)). pose proof (Rabs_pos (a i)). split; nra. }
    assert (PX : forall u x, P (fun i => u * x i) = u * dot n N x + / 2 * (u * u) * quad n H x x).
    { intros u x. unfold P, dot, quad. rewrite <- !sumR_scal. f_equal; [apply sumR_ext; intros; ring|].
      apply sumR_ext. intros. rewrite <- !sumR_scal. apply sumR_ext. intros. ring. }
    set (c1 := dot n N w - dot n N a). set (c2 := / 2 * (quad n H w w - quad n H a a)).
    assert (PD : forall u, P (fun i => u * w i) - P (fun i => u * a i) = u * (c1 + u * c2)) by (intro u; rewrite !PX; unfold c1, c2; ring).
    assert (A1 : c1 = 0).
    { cut ((fun u => c1 + u * c2) 0 = 0); [cbn beta; lra|]. apply small_zero; [reg|]. intros e He. destruct (PP e He) as (d & D & A). exists d. split; [lra|].
      intros u U. specialize (A u U). rewrite PD, Rabs_mult, (Rabs_right u) in A by lra. apply (below1 u); [lra|lra|]. apply div1; lra. }
    assert (A2 : c2 = 0).
    { cut ((fun u : R => c2) 0 = 0); [auto|]. apply small_zero; [reg|]. intros e He. destruct (PP e He) as (d & D & A). exists d. split; [lra|].
      intros u U. specialize (A u U). rewrite PD, A1, Rplus_0_l, !Rabs_mult, (Rabs_right u) in A by lra. apply (div0 u); [lra|]. apply div1; lra. }
    unfold c1, c2 in *. lra.
  Qed.

  Variable E : (nat -> R) -> nat -> R.
  Hypothesis Elin : forall x y c i, E (fun k => x k + c * y k) i = E x i + c * E y i.
  Hypothesis Eext : forall x y i, (forall k, (k < n)%nat -> x k = y k) -> E x i = E y i.
  Hypothesis Inv : forall c s x, c * c + s * s = 1 ->
    f (vec n (fun i => x i + s * E x i + (1 - c) * E (E x) i)) = f (vec n x).
  Let EElin x y c i : E (E (fun k => x k + c * y k)) i = E (E x) i + c * E (E y) i.
  Proof. rewrite <- Elin. apply Eext. intros k _. apply Elin. Qed.

  Lemma ward_at a : dot n N (E v) = 0 /\ dot n N (E a) + dot n N (E (E v)) + quad n H a (E v) + quad n H (E v) (E v) = 0.
  Proof.
    set (x0 := E v). set (x1 := E a). set (x2 := E (E v)). set (x3 := E (E a)).
    set (k := fun u => 2 / (1 + u * u)).
    assert (Kp : forall u, 0 < 1 + u * u) by (intro u; pose proof (Rle_0_sqr u); unfold Rsqr in *; lra).
    set (y := fun (u : R) i => (x0 i + u * x1 i) + u * (x2 i + u * x3 i)).
    set (p := fun (u : R) i => u * (a i + k u * y u i)). set (q := fun (u : R) i => u * a i).
    set (W := fun i => Rabs (a i) + 2 * (Rabs (x0 i) + Rabs (x1 i) + Rabs (x2 i) + Rabs (x3 i))).
    assert (Kb : forall u, 0 < u <= 1 -> 1 <= k u <= 2).
    { intros u U. unfold k. pose proof (Kp u). split; apply Rmult_le_reg_r with (1 + u * u); try lra; unfold Rdiv; rewrite Rmult_assoc, Rinv_l by lra; nra. }
    assert (PP : forall e, 0 < e -> exists d, 0 < d <= 1 /\ forall u, 0 < u <= d -> Rabs (P (p u) - P (q u)) <= e * (u * u)).
    { apply (paths p q W).
      - intros u i U _. unfold p, q, W. rewrite !Rabs_mult, (Rabs_right u) by lra. specialize (Kb u U).
        pose proof (Rabs_pos (x0 i)). pose proof (Rabs_pos (x1 i)). pose proof (Rabs_pos (x2 i)). pose proof (Rabs_pos (x3 i)). pose proof (Rabs_pos (a i)).
        assert (Yb : Rabs (y u i) <= Rabs (x0 i) + Rabs (x1 i) + Rabs (x2 i) + Rabs (x3 i)).
        { unfold y. eapply Rle_trans; [apply Rabs_triang|]. rewrite Rabs_mult, (Rabs_right u) by lra.
          pose proof (Rabs_triang (x0 i) (u * x1 i)) as Q1. pose proof (Rabs_triang (x2 i) (u * x3 i)) as Q2. rewrite Rabs_mult, (Rabs_right u) in Q1, Q2 by lra.
          assert (u * Rabs (x1 i) <= Rabs (x1 i)) by nra. assert (u * Rabs (x3 i) <= Rabs (x3 i)) by nra. 
          assert (u * Rabs (x2 i + u * x3 i) <= Rabs (x2 i + u * x3 i)) by (pose proof (Rabs_pos (x2 i + u * x3 i)); nra). lra. }
        split; apply Rmult_le_compat_l; try lra. eapply Rle_trans; [apply Rabs_triang|]. rewrite Rabs_mult, (Rabs_right (k u)) by lra.
        apply Rplus_le_compat_l. apply Rmult_le_compat; try lra. apply Rabs_pos.
      - intros u U. rewrite <- (Inv ((1 - u * u) / (1 + u * u)) (2 * u / (1 + u * u)) (fun i => v i + q u i)).
        + f_equal. apply vec_ext. intros i _. unfold p, q. rewrite Elin, EElin. fold x0 x1. change (E x0 i) with (x2 i). change (E x1 i) with (x3 i). unfold k, y. pose proof (Kp u). field. lra.
        + pose proof (Kp u). field. lra. }
    set (n1 := dot n N x0). set (n2 := dot n N x1). set (n3 := dot n N x2). set (n4 := dot n N x3).
    set (A0 := quad n H a x0). set (A1 := quad n H a x1). set (A2 := quad n H a x2). set (A3 := quad n H a x3).
    assert (Dy : forall u, dot n N (y u) = n1 + u * n2 + u * (n3 + u * n4)).
    { intro u. unfold y. rewrite (dot_lin n N (fun i => x0 i + u * x1 i) (fun i => x2 i + u * x3 i) u), !dot_lin. reflexivity. }
    assert (Qy : forall u, quad n H a (y u) = A0 + u * A1 + u * (A2 + u * A3)).
    { intro u. unfold y. rewrite (quad_lin2 n H (fun i => x0 i + u * x1 i) (fun i => x2 i + u * x3 i) a u), !quad_lin2. reflexivity. }
    assert (Yy : exists B0 B1 B2 B3 B4, B0 = quad n H x0 x0 /\ forall u, quad n H (y u) (y u) = B0 + u * (B1 + u * (B2 + u * (B3 + u * B4)))).
    { exists (quad n H x0 x0), (quad n H x0 x1 + quad n H x1 x0 + quad n H x0 x2 + quad n H x2 x0),
        (quad n H x1 x1 + quad n H x1 x2 + quad n H x2 x1 + quad n H x2 x2 + quad n H x0 x3 + quad n H x3 x0),
        (quad n H x1 x3 + quad n H x3 x1 + quad n H x2 x3 + quad n H x3 x2), (quad n H x3 x3). split; [reflexivity|].
      intro u. unfold y. rewrite (quad_lin2 n H (fun i => x0 i + u * x1 i) (fun i => x2 i + u * x3 i) _ u).
      rewrite !(quad_lin1 n H (fun i => x0 i + u * x1 i) (fun i => x2 i + u * x3 i) _ u). rewrite !quad_lin2, !quad_lin1. ring. }
    destruct Yy as (B0 & B1 & B2 & B3 & B4 & EB0 & Yy).
    assert (PD : forall u, (1 + u * u) * (P (p u) - P (q u)) = 2 * u * ((1 + u * u) * 0 + (n1 + u * n2 + u * (n3 + u * n4)) + u * (A0 + u * A1 + u * (A2 + u * A3))
        + / 2 * u * k u * (B0 + u * (B1 + u * (B2 + u * (B3 + u * B4)))))).
    { intro u. unfold P. replace (dot n N (p u)) with (u * dot n N a + u * k u * dot n N (y u)).
      2:{ unfold p, dot. rewrite <- !sumR_scal, <- sumR_plus. apply sumR_ext. intros. ring. }
      replace (dot n N (q u)) with (u * dot n N a) by (unfold q, dot; rewrite <- sumR_scal; apply sumR_ext; intros; ring).
      replace (quad n H (q u) (q u)) with (u * u * quad n H a a).
      2:{ unfold q, quad. rewrite <- sumR_scal. apply sumR_ext. intros. rewrite <- sumR_scal. apply sumR_ext. intros. ring. }
      replace (quad n H (p u) (p u)) with (u * u * (quad n H a a + k u * (2 * quad n H a (y u)) + k u * k u * quad n H (y u) (y u))).
      2:{ transitivity (u * u * quad n H (fun i => a i + k u * y u i) (fun i => a i + k u * y u i)).
          - rewrite quad_lin2, !quad_lin1. rewrite (quad_sym n H (y u) a Hs). ring.
          - unfold p, quad. rewrite <- sumR_scal. apply sumR_ext. intros. rewrite <- sumR_scal. apply sumR_ext. intros. ring. }
      rewrite Dy, Qy, Yy. unfold k. pose proof (Kp u). field. lra. }
    (* multiply once more by 1 + u^2 to get rid of k *)
    set (F := fun u => (1 + u * u) * (n1 + u * n2 + u * (n3 + u * n4) + u * (A0 + u * A1 + u * (A2 + u * A3))) + u * (B0 + u * (B1 + u * (B2 + u * (B3 + u * B4))))).
    assert (PF : forall u, (1 + u * u) * (1 + u * u) * (P (p u) - P (q u)) = 2 * u * F u).
    { intro u. rewrite Rmult_assoc, PD. unfold F, k. pose proof (Kp u). field. lra. }
    assert (Fb : forall e, 0 < e -> exists d, 0 < d <= 1 /\ forall u, 0 < u <= d -> Rabs (F u) <= e * u).
    { intros e He. destruct (PP (e / 2) ltac:(lra)) as (d & D & A). exists d. split; [lra|]. intros u U. specialize (A u U).
      assert (U6 : 0 <= u * u <= 1) by (clear - U D; split; nra). assert (U4 : (1 + u * u) * (1 + u * u) <= 4) by (clear - U6; nra). assert (U5 : 0 <= (1 + u * u) * (1 + u * u)) by (clear - U6; nra).
      assert (X : Rabs (2 * u * F u) <= 4 * (e / 2 * (u * u))).
      { rewrite <- PF, Rabs_mult, (Rabs_right ((1 + u * u) * (1 + u * u))) by lra. apply Rmult_le_compat; try lra. apply Rabs_pos. }
      rewrite !Rabs_mult, (Rabs_right 2), (Rabs_right u) in X by lra. apply div1; lra. }
    assert (Z1 : n1 = 0).
    { cut (F 0 = 0); [unfold F; lra|]. apply small_zero; [unfold F; reg|]. intros e He. destruct (Fb e He) as (d & D & A). exists d. split; [lra|].
      intros u U. specialize (A u U). apply (below1 u); lra. }
    split; [exact Z1|].
    set (Gf := fun u => (1 + u * u) * (n2 + (n3 + u * n4) + (A0 + u * A1 + u * (A2 + u * A3))) + (B0 + u * (B1 + u * (B2 + u * (B3 + u * B4))))).
    assert (FG : forall u, F u = u * Gf u) by (intro u; unfold F, Gf; rewrite Z1; ring).
    assert (Z2 : Gf 0 = 0).
    { apply small_zero; [unfold Gf; reg|]. intros e He. destruct (Fb e He) as (d & D & A). exists d. split; [lra|].
      intros u U. specialize (A u U). rewrite FG, Rabs_mult, (Rabs_right u) in A by lra. apply (div0 u); lra. }
    transitivity (n2 + n3 + A0 + B0); [rewrite EB0; reflexivity|]. unfold Gf in Z2. lra.
  Qed.
  Hypothesis E0 : forall i, E (fun _ => 0) i = 0.
  Lemma ward a : dot n N (E a) + quad n H a (E v) = 0.
  Proof.
    destruct (ward_at a) as [_ X]. destruct (ward_at (fun _ => 0)) as [_ Y].
    assert (dot n N (E (fun _ => 0)) = 0) by (unfold dot; apply sumR_zero; intros; rewrite E0; ring).
    assert (quad n H (fun _ => 0) (E v) = 0) by (unfold quad; apply sumR_zero; intros; apply sumR_zero; intros; ring). lra.
  Qed.
  (** generators that annihilate v *)
  Hypothesis Ev : forall i, E v i = 0.
  Lemma unbroken a : quad n H a (E a) = 0.
  Proof.
    assert (L : forall c s, c * c + s * s = 1 -> quad n H (fun i => a i + (s * E a i + (1 - c) * E (E a) i)) (fun i => a i + (s * E a i + (1 - c) * E (E a) i)) = quad n H a a).
    { intros c s C. apply linear_symmetry. intros u U. rewrite <- (Inv c s (fun i => v i + u * a i) C). f_equal. apply vec_ext. intros i _.
      rewrite Elin, EElin, Ev. replace (E (E v) i) with 0; [ring|]. rewrite <- (E0 i). symmetry. apply Eext. intros. apply Ev. }
    assert (X : forall c s, c * c + s * s = 1 -> s * (quad n H a (E a) + (1 - c) * quad n H (E a) (E (E a))) = 0).
    { intros c s C. pose proof (L c s C) as L1. pose proof (L c (- s) ltac:(lra)) as L2.
      assert (Y : forall s, quad n H (fun i => a i + (s * E a i + (1 - c) * E (E a) i)) (fun i => a i + (s * E a i + (1 - c) * E (E a) i)) =
        quad n H a a + 2 * s * quad n H a (E a) + 2 * (1 - c) * quad n H a (E (E a)) + s * s * quad n H (E a) (E a) + 2 * s * (1 - c) * quad n H (E a) (E (E a))
        + (1 - c) * (1 - c) * quad n H (E (E a)) (E (E a))).
      { intro z. rewrite (quad_ext n H _ _ (fun i => (a i + z * E a i) + (1 - c) * E (E a) i) (fun i => (a i + z * E a i) + (1 - c) * E (E a) i)) by (intros; ring).
        rewrite quad_lin2, !quad_lin1, !quad_lin2.
        rewrite (quad_sym n H (E a) a Hs), (quad_sym n H (E (E a)) a Hs), (quad_sym n H (E (E a)) (E a) Hs). ring. }
      rewrite Y in L1, L2. lra. }
    pose proof (X 0 1 ltac:(lra)). pose proof (X (4/5) (3/5) ltac:(lra)). lra.
  Qed.
End Ward.
