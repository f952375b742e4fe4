(** Second derivatives of eigenvalues. *)
From Coq Require Import Reals List Arith Bool Lra Lia.
From Coquelicot Require Import Coquelicot.
From Verif Require Import Model.EigenSecond Spec.EigenSecondSpec.
Import ListNotations.
Open Scope R_scope.

Lemma total_sigma : forall n f, total n f = sigma n f.
Proof. induction n as [|n IH]; intros f; cbn; [reflexivity|rewrite IH; reflexivity]. Qed.
Lemma image_mv : forall n A x i, image n A x i = mult_vec n A x i.
Proof. intros. unfold image. rewrite <- total_sigma. reflexivity. Qed.
Lemma total_ext : forall n f g, (forall i, (i < n)%nat -> f i = g i) -> total n f = total n g.
Proof. induction n as [|n IH]; intros f g H; cbn; [reflexivity|]. rewrite (IH f g), (H n) by (intros; try apply H; lia). reflexivity. Qed.
Lemma total_plus : forall n f g, total n (fun i => f i + g i) = total n f + total n g.
Proof. induction n as [|n IH]; intros f g; cbn; [ring|]. rewrite IH. ring. Qed.
Lemma total_scal : forall n c f, total n (fun i => c * f i) = c * total n f.
Proof. induction n as [|n IH]; intros c f; cbn; [ring|]. rewrite IH. ring. Qed.
Lemma total_zero : forall n f, (forall i, (i < n)%nat -> f i = 0) -> total n f = 0.
Proof. induction n as [|n IH]; intros f H; cbn; [reflexivity|]. rewrite IH, (H n) by (intros; try apply H; lia). ring. Qed.
Lemma total_swap : forall n m f, total n (fun i => total m (fun j => f i j)) = total m (fun j => total n (fun i => f i j)).
Proof.
  induction n as [|n IH]; intros m f; cbn; [symmetry; apply total_zero; reflexivity|]. rewrite IH, <- total_plus. reflexivity.
Qed.
Definition dot (n : nat) (a b : vect) : R := total n (fun i => a i * b i).
Lemma dot_sym : forall n a b, dot n a b = dot n b a.
Proof. intros. apply total_ext. intros; ring. Qed.
Lemma dot_ext : forall n a a' b b', (forall i, (i < n)%nat -> a i = a' i) -> (forall i, (i < n)%nat -> b i = b' i) -> dot n a b = dot n a' b'.
Proof. intros n a a' b b' H G. apply total_ext. intros i I. rewrite (H i I), (G i I). reflexivity. Qed.
Lemma dot_lin : forall n a b c s t, dot n a (fun i => s * b i + t * c i) = s * dot n a b + t * dot n a c.
Proof. intros n a b c s t. unfold dot. rewrite <- !total_scal, <- total_plus. apply total_ext. intros; ring. Qed.
Lemma dot_sub : forall n a b c, dot n a (fun i => b i - c i) = dot n a b - dot n a c.
Proof. intros n a b c. rewrite (dot_ext n a a (fun i => b i - c i) (fun i => 1 * b i + (-1) * c i)), dot_lin by (intros; ring). ring. Qed.
Lemma sand_dot : forall n v A w, sandwich n v A w = dot n v (mult_vec n A w).
Proof. reflexivity. Qed.
Lemma mv_adj : forall n A x y, dot n x (mult_vec n A y) = dot n (mult_vec n (fun i j => A j i) x) y.
Proof.
  intros n A x y. unfold dot, mult_vec. transitivity (total n (fun i => total n (fun j => x i * (A i j * y j)))).
  - apply total_ext. intros i _. rewrite <- total_scal. reflexivity.
  - rewrite total_swap. apply total_ext. intros j _. rewrite Rmult_comm, <- total_scal. apply total_ext. intros; ring.
Qed.
Lemma mv_sym : forall n A x y, (forall i j, (i < n)%nat -> (j < n)%nat -> A i j = A j i) -> dot n x (mult_vec n A y) = dot n y (mult_vec n A x).
Proof.
  intros n A x y H. rewrite mv_adj, dot_sym. apply dot_ext; [reflexivity|]. intros i I. apply total_ext. intros j J. rewrite (H j i J I). reflexivity.
Qed.
Lemma mv_ext : forall n A x y, (forall i, (i < n)%nat -> x i = y i) -> forall i, mult_vec n A x i = mult_vec n A y i.
Proof. intros n A x y H i. apply total_ext. intros j J. rewrite (H j J). reflexivity. Qed.
Lemma mv_shift : forall n A s x i, (i < n)%nat -> mult_vec n (shifted A s) x i = mult_vec n A x i - s * x i.
Proof.
  intros n A s x i I. unfold mult_vec, shifted.
  assert (D : forall m, (i < m)%nat -> total m (fun j => (if Nat.eqb i j then 1 else 0) * x j) = x i).
  { induction m as [|m IH]; intros L; [lia|]. cbn [total]. destruct (Nat.eqb_spec i m) as [->|N].
    - rewrite total_zero; [ring|]. intros j J. destruct (Nat.eqb_spec m j); [lia|ring].
    - rewrite IH by lia. ring. }
  rewrite <- (D n I). transitivity (total n (fun j => A i j * x j + (- s) * ((if Nat.eqb i j then 1 else 0) * x j))); [apply total_ext; intros; ring|].
  rewrite total_plus, total_scal. ring.
Qed.
Lemma mv_tr : forall n A B x i, mult_vec n (mult_tr n A B) x i = total n (fun k => A k i * mult_vec n B x k).
Proof.
  intros n A B x i. unfold mult_vec, mult_tr. transitivity (total n (fun j => total n (fun k => A k i * B k j * x j))).
  - apply total_ext. intros j _. rewrite Rmult_comm, <- total_scal. apply total_ext. intros; ring.
  - rewrite total_swap. apply total_ext. intros k _. rewrite <- total_scal. apply total_ext. intros; ring.
Qed.
Lemma square_zero : forall n a, dot n a a = 0 -> forall i, (i < n)%nat -> a i = 0.
Proof.
  assert (N : forall n (a : vect), 0 <= dot n a a).
  { induction n as [|n IH]; intros a; unfold dot in *; cbn; [lra|]. pose proof (IH a). pose proof (Rle_0_sqr (a n)) as Q. unfold Rsqr in Q. lra. }
  induction n as [|n IH]; intros a H i I; [lia|]. unfold dot in H. cbn [total] in H. fold (dot n a a) in H. pose proof (N n a). pose proof (Rle_0_sqr (a n)) as Q. unfold Rsqr in Q.
  destruct (Nat.eq_dec i n) as [->|E]; [|apply IH; [lra|lia]]. assert (Z : a n * a n = 0) by lra. apply Rmult_integral in Z. tauto.
Qed.

(** * Derivatives *)
Lemma d_total : forall n (f : R -> nat -> R) t a, (forall i, (i < n)%nat -> is_derive (fun s => f s i) t (a i)) -> is_derive (fun s => total n (f s)) t (total n a).
Proof.
  induction n as [|n IH]; intros f t a H; cbn [total].
  - apply @is_derive_const.
  - apply (is_derive_plus (fun s => total n (f s)) (fun s => f s n)); [apply IH; intros; apply H; lia|apply H; lia].
Qed.
Lemma d_mult : forall (f g : R -> R) t a b, is_derive f t a -> is_derive g t b -> is_derive (fun s => f s * g s) t (a * g t + f t * b).
Proof.
  intros f g t a b A B. pose proof (is_derive_mult f g t a b A B Rmult_comm) as H. exact H.
Qed.
Lemma d_dot : forall n (a b : R -> vect) t a' b', (forall i, (i < n)%nat -> is_derive (fun s => a s i) t (a' i)) -> (forall i, (i < n)%nat -> is_derive (fun s => b s i) t (b' i)) ->
  is_derive (fun s => dot n (a s) (b s)) t (dot n a' (b t) + dot n (a t) b').
Proof.
  intros n a b t a' b' A B. unfold dot. rewrite <- total_plus. apply (d_total n (fun s i => a s i * b s i)). intros i I.
  apply (d_mult (fun s => a s i) (fun s => b s i)); [apply A, I|apply B, I].
Qed.
Lemma d_mv : forall n (A : R -> matr) (x : R -> vect) t A' x' i, (i < n)%nat -> (forall j, (j < n)%nat -> is_derive (fun s => A s i j) t (A' i j)) ->
  (forall j, (j < n)%nat -> is_derive (fun s => x s j) t (x' j)) ->
  is_derive (fun s => mult_vec n (A s) (x s) i) t (mult_vec n A' (x t) i + mult_vec n (A t) x' i).
Proof. intros n A x t A' x' i I HA HX. unfold mult_vec. apply (d_dot n (fun s j => A s i j) x t (fun j => A' i j) x'); assumption. Qed.
Lemma near_locally : forall t eps (P : R -> Prop), 0 < eps -> (forall s, Rabs (s - t) < eps -> P s) -> locally t P.
Proof. intros t eps P E H. exists (mkposreal eps E). intros s S. apply H. exact S. Qed.
Lemma unique : forall (f : R -> R) t a b, is_derive f t a -> is_derive f t b -> a = b.
Proof. intros f t a b A B. rewrite <- (is_derive_unique _ _ _ A). apply is_derive_unique, B. Qed.

Section HF.
  Variables (n : nat) (t eps : R) (A : R -> matr) (A' : matr) (l : R -> R) (u : R -> vect) (u' : vect).
  Hypothesis E : 0 < eps.
  Hypothesis SY : forall s i j, A s i j = A s j i.
  Hypothesis DA : forall i j, (i < n)%nat -> (j < n)%nat -> is_derive (fun s => A s i j) t (A' i j).
  Hypothesis EP : forall s, Rabs (s - t) < eps -> eigenpair n (A s) (l s) (u s).
  Hypothesis DU : forall i, (i < n)%nat -> is_derive (fun s => u s i) t (u' i).
  Lemma here : Rabs (t - t) < eps.
  Proof using E. rewrite Rminus_diag_eq by reflexivity. rewrite Rabs_R0. exact E. Qed.
  Lemma ep_mv : forall s, Rabs (s - t) < eps -> forall i, (i < n)%nat -> mult_vec n (A s) (u s) i = l s * u s i.
  Proof using EP. intros s H i I. destruct (EP s H) as [P _]. specialize (P i I). unfold image in P. rewrite <- total_sigma in P. exact P. Qed.
  Lemma ep_one : forall s, Rabs (s - t) < eps -> dot n (u s) (u s) = 1.
  Proof using EP. intros s H. destruct (EP s H) as [_ P]. rewrite <- total_sigma in P. exact P. Qed.
  Lemma orthogonal : dot n (u t) u' = 0.
  Proof using E EP DU.
    assert (D := d_dot n u u t u' u' DU DU). assert (Z : is_derive (fun s => dot n (u s) (u s)) t 0).
    { apply (is_derive_ext_loc (fun _ => 1)); [|apply @is_derive_const]. apply (near_locally t eps); [exact E|]. intros s S. symmetry. apply ep_one, S. }
    pose proof (unique _ _ _ _ D Z) as Q. rewrite (dot_sym n u' (u t)) in Q. lra.
  Qed.
  Lemma A'_sym : forall i j, (i < n)%nat -> (j < n)%nat -> A' i j = A' j i.
  Proof using SY DA.
    intros i j I J. apply (unique (fun s => A s i j) t); [apply DA; assumption|]. apply (is_derive_ext (fun s => A s j i)); [intros s; apply SY|apply DA; assumption].
  Qed.
  Lemma d_lambda : is_derive l t (dot n (u t) (mult_vec n A' (u t))).
  Proof using E SY DA EP DU.
    apply (is_derive_ext_loc (fun s => dot n (u s) (mult_vec n (A s) (u s)))).
    - apply (near_locally t eps); [exact E|]. intros s S.
      rewrite (dot_ext n (u s) (u s) _ (fun i => l s * u s i + 0 * u s i)) by (intros; try rewrite ep_mv by assumption; try ring; reflexivity).
      rewrite dot_lin, ep_one by exact S. match goal with |- ?a = ?b => change (@eq R a b) end. ring.
    - assert (D := d_dot n u (fun s => mult_vec n (A s) (u s)) t u' (fun i => mult_vec n A' (u t) i + mult_vec n (A t) u' i) DU
        (fun i I => d_mv n A u t A' u' i I (fun j J => DA i j I J) DU)).
      replace (dot n (u t) (mult_vec n A' (u t))) with (dot n u' (mult_vec n (A t) (u t)) + dot n (u t) (fun i => mult_vec n A' (u t) i + mult_vec n (A t) u' i)); [exact D|].
      rewrite (dot_ext n (u t) (u t) (fun i => mult_vec n A' (u t) i + mult_vec n (A t) u' i) (fun i => 1 * mult_vec n A' (u t) i + 1 * mult_vec n (A t) u' i)) by (intros; ring).
      rewrite dot_lin, (mv_sym n (A t) (u t) u') by (intros; apply SY).
      rewrite (dot_ext n u' u' (mult_vec n (A t) (u t)) (fun i => l t * u t i + 0 * u t i)) by (intros; try rewrite ep_mv by (try apply here; assumption); try ring; reflexivity).
      rewrite dot_lin, (dot_sym n u' (u t)), orthogonal. ring.
  Qed.
  Lemma d_equation : forall i, (i < n)%nat ->
    mult_vec n A' (u t) i - dot n (u t) (mult_vec n A' (u t)) * u t i = - (mult_vec n (A t) u' i - l t * u' i).
  Proof using E SY DA EP DU.
    intros i I. assert (D := d_mv n A u t A' u' i I (fun j J => DA i j I J) DU).
    assert (Q : is_derive (fun s => mult_vec n (A s) (u s) i) t (dot n (u t) (mult_vec n A' (u t)) * u t i + l t * u' i)).
    { apply (is_derive_ext_loc (fun s => l s * u s i)); [apply (near_locally t eps); [exact E|]; intros s S; symmetry; apply ep_mv; assumption|].
      apply (d_mult l (fun s => u s i)); [exact d_lambda|apply DU, I]. }
    pose proof (unique _ _ _ _ D Q). lra.
  Qed.
End HF.

Section Inverse.
  Variables (n : nat) (solve : matr -> vect -> vect) (M : matr) (lam : R) (v : vect).
  Hypothesis SO : solver n solve.
  Hypothesis SI : simple n M lam v.
  Hypothesis ONE : dot n v v = 1.
  Let B := shifted M lam.
  Let C : matr := fun i j => mult_tr n B B i j + v i * v j.
  Lemma C_mv : forall w i, mult_vec n C w i = total n (fun k => B k i * mult_vec n B w k) + v i * dot n v w.
  Proof using.
    intros w i. transitivity (total n (fun j => mult_tr n B B i j * w j + v i * (v j * w j))); [apply total_ext; intros; unfold C; ring|].
    rewrite total_plus, total_scal, <- mv_tr. reflexivity.
  Qed.
  Lemma C_injective : forall z, (forall i, (i < n)%nat -> mult_vec n C z i = 0) -> forall i, (i < n)%nat -> z i = 0.
  Proof using SI ONE.
    intros z H. assert (Q : dot n (mult_vec n B z) (mult_vec n B z) + dot n v z * dot n v z = 0).
    { transitivity (dot n z (mult_vec n C z)).
      - rewrite (dot_ext n z z (mult_vec n C z) (fun i => 1 * mult_vec n (mult_tr n B B) z i + dot n v z * v i)).
        + rewrite dot_lin. rewrite (dot_sym n z v). rewrite (dot_ext n z z (mult_vec n (mult_tr n B B) z) (mult_vec n (fun i k => B k i) (mult_vec n B z))); [|reflexivity|intros; apply mv_tr].
          rewrite (mv_adj n (fun i k => B k i)).
          change (dot n (mult_vec n B z) (mult_vec n B z) + dot n v z * dot n v z = 1 * dot n (mult_vec n B z) (mult_vec n B z) + dot n v z * dot n v z). ring.
        + reflexivity.
        + intros i _. rewrite C_mv, mv_tr. ring.
      - unfold dot. apply total_zero. intros i I. rewrite (H i I). ring. }
    assert (N : 0 <= dot n (mult_vec n B z) (mult_vec n B z)).
    { clear. generalize (mult_vec n B z). intros a. unfold dot. induction n as [|m IH]; cbn; [lra|]. pose proof (Rle_0_sqr (a m)) as P. unfold Rsqr in P. lra. }
    pose proof (Rle_0_sqr (dot n v z)) as P. unfold Rsqr in P.
    assert (Z1 : dot n (mult_vec n B z) (mult_vec n B z) = 0) by lra. assert (Z2 : dot n v z * dot n v z = 0) by lra.
    assert (Z3 : dot n v z = 0) by (apply Rmult_integral in Z2; tauto).
    destruct (SI z) as [k K].
    { intros i I. pose proof (square_zero n _ Z1 i I) as Q0. unfold B in Q0. rewrite mv_shift in Q0 by exact I. unfold image. rewrite <- total_sigma. unfold mult_vec in Q0. lra. }
    assert (k = 0). { rewrite (dot_ext n v v z (fun i => k * v i + 0 * v i)) in Z3 by (intros; try rewrite K by assumption; try ring; reflexivity). rewrite dot_lin, ONE in Z3. lra. }
    intros i I. rewrite (K i I). subst k. ring.
  Qed.
  Lemma solved : forall (N : matr) d w, dot n v w = 0 -> (forall i, (i < n)%nat -> mult_vec n N v i - d * v i = - (mult_vec n M w i - lam * w i)) ->
    forall i, (i < n)%nat -> solve C (fun i => - mult_vec n (mult_tr n B (shifted N d)) v i) i = w i.
  Proof using SO SI ONE.
    intros N d w O H. set (b := fun i => - mult_vec n (mult_tr n B (shifted N d)) v i).
    assert (S1 : forall i, (i < n)%nat -> mult_vec n C (solve C b) i = b i).
    { intros i I. rewrite <- image_mv. apply SO; [|exact I]. intros z Z. apply C_injective. intros j J. rewrite <- image_mv. apply Z, J. }
    assert (S2 : forall i, (i < n)%nat -> mult_vec n C w i = b i).
    { intros i I. rewrite C_mv, O. unfold b. rewrite mv_tr. rewrite Rmult_0_r, Rplus_0_r.
      rewrite <- (Rmult_1_l (total n (fun k => B k i * mult_vec n (shifted N d) v k))), Ropp_mult_distr_l, <- total_scal. apply total_ext. intros k K.
      unfold B at 2. rewrite !mv_shift by exact K. rewrite (H k K). ring. }
    intros i I. assert (Z := C_injective (fun j => solve C b j - w j)). cbv beta in Z. enough (solve C b i - w i = 0) by lra. apply Z; [|exact I].
    intros j J. rewrite <- (Rminus_diag_eq (b j) (b j) eq_refl). rewrite <- (S1 j J) at 1. rewrite <- (S2 j J). unfold mult_vec.
    replace (total n (fun j0 => C j j0 * solve C b j0) - total n (fun j0 => C j j0 * w j0)) with (total n (fun j0 => C j j0 * solve C b j0) + -1 * total n (fun j0 => C j j0 * w j0)) by ring.
    rewrite <- total_scal, <- total_plus. apply total_ext. intros; ring.
  Qed.
End Inverse.

Lemma mixed : forall n solve x0 y0 eps M MX MY MXY lam v, solver n solve -> family n x0 y0 eps M MX MY MXY lam v -> simple n (M x0 y0) (lam x0 y0) (v x0 y0) ->
  let '(d0, d1, d2, d3) := deriv n solve (M x0 y0) (MX y0) MY MXY (lam x0 y0) (v x0 y0) in
  d0 = lam x0 y0 /\ is_derive (fun x => lam x y0) x0 d1 /\ is_derive (fun y => lam x0 y) y0 d2 /\
  is_derive (fun y => Derive (fun x => lam x y) x0) y0 d3.
Proof.
  intros n solve x0 y0 eps M MX MY MXY lam v SO FA SI. destruct FA as [E SY DX DY DXY EP VX VY].
  assert (HX : Rabs (x0 - x0) < eps) by (rewrite Rminus_diag_eq by reflexivity; rewrite Rabs_R0; exact E).
  assert (HY : Rabs (y0 - y0) < eps) by (rewrite Rminus_diag_eq by reflexivity; rewrite Rabs_R0; exact E).
  destruct (VX y0 HY) as [wx WX]. destruct VY as [wy WY].
  assert (ONE : dot n (v x0 y0) (v x0 y0) = 1) by (destruct (EP x0 y0 HX HY) as [_ P]; rewrite <- total_sigma in P; exact P).
  (* along x *)
  assert (OX := orthogonal n x0 eps (fun x => M x y0) (fun x => lam x y0) (fun x => v x y0) wx E (fun s H => EP s y0 H HY) WX).
  assert (LX := d_lambda n x0 eps (fun x => M x y0) (MX y0) (fun x => lam x y0) (fun x => v x y0) wx E (fun s => SY s y0) (fun i j => DX y0 i j HY) (fun s H => EP s y0 H HY) WX).
  assert (QX := d_equation n x0 eps (fun x => M x y0) (MX y0) (fun x => lam x y0) (fun x => v x y0) wx E (fun s => SY s y0) (fun i j => DX y0 i j HY) (fun s H => EP s y0 H HY) WX).
  assert (SX := A'_sym n x0 (fun x => M x y0) (MX y0) (fun s => SY s y0) (fun i j => DX y0 i j HY)).
  (* along y *)
  assert (OY := orthogonal n y0 eps (fun y => M x0 y) (fun y => lam x0 y) (fun y => v x0 y) wy E (fun s H => EP x0 s HX H) WY).
  assert (LY := d_lambda n y0 eps (fun y => M x0 y) MY (fun y => lam x0 y) (fun y => v x0 y) wy E (fun s => SY x0 s) DY (fun s H => EP x0 s HX H) WY).
  assert (QY := d_equation n y0 eps (fun y => M x0 y) MY (fun y => lam x0 y) (fun y => v x0 y) wy E (fun s => SY x0 s) DY (fun s H => EP x0 s HX H) WY).
  cbv beta in OX, LX, QX, SX, OY, LY, QY. unfold deriv. rewrite !sand_dot. set (u := v x0 y0) in *.
  set (d1 := dot n u (mult_vec n (MX y0) u)) in *. set (d2 := dot n u (mult_vec n MY u)) in *.
  assert (VDX := solved n solve (M x0 y0) (lam x0 y0) u SO SI ONE (MX y0) d1 wx OX QX).
  assert (VDY := solved n solve (M x0 y0) (lam x0 y0) u SO SI ONE MY d2 wy OY QY).
  split; [reflexivity|]. split; [exact LX|]. split; [exact LY|].
  rewrite (dot_ext n u u (mult_vec n (shifted (MX y0) d1) _) (fun i => mult_vec n (MX y0) wy i - d1 * wy i));
    [|reflexivity|intros i I; rewrite (mv_ext n _ _ wy) by exact VDY; apply mv_shift, I].
  rewrite (dot_ext n u u (mult_vec n (shifted MY d2) _) (fun i => mult_vec n MY wx i - d2 * wx i));
    [|reflexivity|intros i I; rewrite (mv_ext n _ _ wx) by exact VDX; apply mv_shift, I].
  (* the derivative of d1 along y *)
  apply (is_derive_ext_loc (fun y => dot n (v x0 y) (mult_vec n (MX y) (v x0 y)))).
  { apply (near_locally y0 eps); [exact E|]. intros y Y. destruct (VX y Y) as [w W]. symmetry. apply is_derive_unique.
    apply (d_lambda n x0 eps (fun x => M x y) (MX y) (fun x => lam x y) (fun x => v x y) w E (fun s => SY s y) (fun i j => DX y i j Y) (fun s H => EP s y H Y) W). }
  assert (D := d_dot n (fun y => v x0 y) (fun y => mult_vec n (MX y) (v x0 y)) y0 wy (fun i => mult_vec n MXY u i + mult_vec n (MX y0) wy i) WY
    (fun i I => d_mv n MX (fun y => v x0 y) y0 MXY wy i I (fun j J => DXY i j I J) WY)).
  cbv beta in D. fold u in D.
  match goal with |- is_derive _ _ ?r => match type of D with is_derive _ _ ?q => replace r with q; [exact D|] end end.
  rewrite (dot_ext n u u (fun i => mult_vec n MXY u i + mult_vec n (MX y0) wy i) (fun i => 1 * mult_vec n MXY u i + 1 * mult_vec n (MX y0) wy i)) by (intros; ring).
  rewrite dot_lin. rewrite (mv_sym n (MX y0) wy u SX).
  (* the last term *)
  assert (MYS := A'_sym n y0 (fun y => M x0 y) MY (fun s => SY x0 s) DY). cbv beta in MYS.
  assert (T : dot n u (fun i => mult_vec n MY wx i - d2 * wx i) = dot n u (mult_vec n (MX y0) wy)).
  { rewrite dot_sub. rewrite (dot_ext n u u (fun i => d2 * wx i) (fun i => d2 * wx i + 0 * wx i)), dot_lin, OX by (intros; ring). 
    rewrite (mv_sym n MY u wx MYS).
    rewrite (dot_ext n wx wx (mult_vec n MY u) (fun i => 1 * (fun i => d2 * u i + (-1) * mult_vec n (M x0 y0) wy i) i + lam x0 y0 * wy i));
      [|reflexivity|intros i I; specialize (QY i I); cbv beta; lra].
    rewrite dot_lin, dot_lin, (dot_sym n wx u), OX.
    rewrite (mv_sym n (M x0 y0) wx wy) by (intros; apply SY).
    rewrite (dot_ext n wy wy (mult_vec n (M x0 y0) wx) (fun i => 1 * (fun i => d1 * u i + (-1) * mult_vec n (MX y0) u i) i + lam x0 y0 * wx i));
      [|reflexivity|intros i I; specialize (QX i I); cbv beta; lra].
    rewrite dot_lin, dot_lin, (dot_sym n wy u), OY, (dot_sym n wy wx). rewrite (mv_sym n (MX y0) u wy SX). ring. }
  rewrite T. rewrite dot_sub. rewrite (dot_ext n u u (fun i => d1 * wy i) (fun i => d1 * wy i + 0 * wy i)), dot_lin, OY by (intros; ring). ring.
Qed.

(** * The whole result *)
Lemma nth_flat4 : forall (f : nat -> R * R * R * R) l i k d, (i < length l)%nat -> (k < 4)%nat ->
  nth (4 * i + k) (flat_map (fun j => let '(a, b, c, e) := f j in [a; b; c; e]) l) d =
  nth k (let '(a, b, c, e) := f (nth i l 0%nat) in [a; b; c; e]) d.
Proof.
  intros f. induction l as [|x l IH]; intros i k d I K; [cbn in I; lia|]. cbn [flat_map]. destruct i as [|i].
  - cbn [nth]. rewrite Nat.mul_0_r, Nat.add_0_l. rewrite app_nth1; [reflexivity|]. destruct (f x) as [[[a b] c] e]. cbn. exact K.
  - rewrite app_nth2; destruct (f x) as [[[a b] c] e] eqn:F; cbn [length].
    + replace (4 * S i + k - 4)%nat with (4 * i + k)%nat by lia. cbn [nth]. apply IH; [cbn in I; lia|exact K].
    + lia.
Qed.
Lemma second_result : forall eigen solve m M X Y XY, let n := S m in
  exists logged res, SecondDerivative eigen solve n n M X Y XY = Returned logged res /\ length res = (5 * n)%nat /\
  forall i, (i < n)%nat -> nth i res 0 = fst (eigen n M) i /\
    (nth (n + 4 * i) res 0, nth (n + 4 * i + 1) res 0, nth (n + 4 * i + 2) res 0, nth (n + 4 * i + 3) res 0) =
      deriv n (solve n) M X Y XY (fst (eigen n M) i) (snd (eigen n M) i).
Proof.
  intros eigen solve m M X Y XY n. unfold SecondDerivative. rewrite Nat.eqb_refl. unfold n at 1. eexists. eexists. split; [reflexivity|]. fold n.
  set (f := fun i => deriv n (solve n) M X Y XY (fst (eigen n M) i) (snd (eigen n M) i)).
  assert (L : forall l, length (flat_map (fun j => let '(a, b, c, e) := f j in [a; b; c; e]) l) = (4 * length l)%nat).
  { induction l as [|x l IH]; [reflexivity|]. cbn [flat_map]. rewrite app_length, IH. destruct (f x) as [[[a b] c] e]. cbn [length]. lia. }
  split.
  - rewrite app_length, map_length, seq_length. change (n + length (flat_map (fun j => let '(a, b, c, e) := f j in [a; b; c; e]) (seq 0 n)) = 5 * n)%nat.
    rewrite L, seq_length. lia.
  - intros i I. split.
    + rewrite app_nth1 by (rewrite map_length, seq_length; exact I). rewrite (nth_indep _ 0 (fst (eigen n M) 0%nat)) by (rewrite map_length, seq_length; exact I).
      rewrite map_nth, seq_nth by exact I. reflexivity.
    + assert (G : forall k, (k < 4)%nat -> nth (n + 4 * i + k) (map (fst (eigen n M)) (seq 0 n) ++ flat_map (fun j => let '(a, b, c, e) := f j in [a; b; c; e]) (seq 0 n)) 0
        = nth k (let '(a, b, c, e) := f i in [a; b; c; e]) 0).
      { intros k K. rewrite app_nth2 by (rewrite map_length, seq_length; lia). rewrite map_length, seq_length.
        replace (n + 4 * i + k - n)%nat with (4 * i + k)%nat by lia. rewrite nth_flat4 by (try rewrite seq_length; assumption). rewrite seq_nth by exact I. reflexivity. }
      pose proof (G 0%nat ltac:(lia)) as G0. pose proof (G 1%nat ltac:(lia)) as G1. pose proof (G 2%nat ltac:(lia)) as G2. pose proof (G 3%nat ltac:(lia)) as G3.
      rewrite Nat.add_0_r in G0. fold (f i). unfold f in *. rewrite G0, G1, G2, G3.
      destruct (deriv n (solve n) M X Y XY (fst (eigen n M) i) (snd (eigen n M) i)) as [[[a b] c] e]. reflexivity.
Qed.
Lemma never_logged : forall eigen solve n M X Y XY logged res, SecondDerivative eigen solve n n M X Y XY = Returned logged res -> logged = false.
Proof.
  intros eigen solve n M X Y XY logged res H. unfold SecondDerivative in H. rewrite Nat.eqb_refl in H. destruct n as [|m]; [discriminate|]. injection H as H _. rewrite <- H.
  assert (E : forall l, existsb (fun i => if Rlt_dec (Rabs (fst (eigen (S m) M) i - fst (eigen (S m) M) (S i))) (INR EVThres) then true else false) l = false).
  { induction l as [|i l IH]; [reflexivity|]. cbn [existsb]. rewrite IH. destruct (Rlt_dec _ _) as [L|L]; [|reflexivity]. exfalso. unfold EVThres in L. cbn [INR] in L. 
    pose proof (Rabs_pos (fst (eigen (S m) M) i - fst (eigen (S m) M) (S i))). lra. }
  apply E.
Qed.

(** Cramer's rule in two dimensions *)
Definition cramer (C : matr) (b : vect) : vect :=
  let det := C 0%nat 0%nat * C 1%nat 1%nat - C 0%nat 1%nat * C 1%nat 0%nat in
  fun i => match i with O => (b 0%nat * C 1%nat 1%nat - b 1%nat * C 0%nat 1%nat) / det | _ => (b 1%nat * C 0%nat 0%nat - b 0%nat * C 1%nat 0%nat) / det end.
Lemma cramer_solves : solver 2 cramer.
Proof.
  intros C b INJ. set (p := C 0%nat 0%nat). set (q := C 0%nat 1%nat). set (r := C 1%nat 0%nat). set (s := C 1%nat 1%nat).
  assert (Z : forall x y, p * x + q * y = 0 -> r * x + s * y = 0 -> x = 0 /\ y = 0).
  { intros x y A B. assert (H := INJ (fun i => match i with O => x | _ => y end)). cbv beta in H. split.
    - apply (H) with (i := 0%nat); [|lia]. intros [|[|i]] I; [| |lia]; unfold image; cbn; fold p q r s; lra.
    - apply (H) with (i := 1%nat); [|lia]. intros [|[|i]] I; [| |lia]; unfold image; cbn; fold p q r s; lra. }
  assert (D : p * s - q * r <> 0).
  { intros E. destruct (Z s (- r)) as [S0 R0]; [lra|ring|]. destruct (Z (- q) p) as [Q0 P0]; [ring|lra|].
    destruct (Z 1 0) as [O _]; [rewrite P0; ring|lra|lra]. }
  intros [|[|i]] I; [| |lia]; unfold image, cramer; cbn; fold p q r s; field; exact D.
Qed.
Definition sampleM (x y : R) : matr := fun i j => if Nat.eqb i j then (match i with O => x * y | _ => 5 end) else 0.
Definition sampleX (y : R) : matr := fun i j => if Nat.eqb i j then (match i with O => y | _ => 0 end) else 0.
Definition e0 : vect := fun i => match i with O => 1 | _ => 0 end.
Lemma sample_family : family 2 1 1 1 sampleM sampleX (sampleX 1) (sampleX 1) (fun x y => x * y) (fun _ _ => e0).
Proof.
  split.
  - lra.
  - intros x y i j. unfold sampleM. rewrite (Nat.eqb_sym j i). destruct (Nat.eqb_spec i j) as [->|]; reflexivity.
  - intros y [|[|i]] [|[|j]] _ I J; try lia; unfold sampleM, sampleX; cbn; auto_derive; try exact I; try ring; exact Logic.I.
  - intros [|[|i]] [|[|j]] I J; try lia; unfold sampleM, sampleX; cbn; auto_derive; try ring; exact Logic.I.
  - intros [|[|i]] [|[|j]] I J; try lia; unfold sampleX; cbn; auto_derive; try ring; exact Logic.I.
  - intros x y _ _. split; [|cbn; ring]. intros [|[|i]] I; [| |lia]; unfold image, sampleM; cbn; ring.
  - intros y _. exists (fun _ => 0). intros i _. apply @is_derive_const.
  - exists (fun _ => 0). intros i _. apply @is_derive_const.
Qed.
Lemma sample_simple : simple 2 (sampleM 1 1) (1 * 1) e0.
Proof.
  intros w H. exists (w 0%nat). pose proof (H 1%nat ltac:(lia)) as H1. unfold image, sampleM in H1. cbn in H1. intros [|[|i]] I; [| |lia]; unfold e0; lra.
Qed.
