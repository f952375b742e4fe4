(** The generic Debye masses are the second derivatives of the leading thermal potential. *)
From Coq Require Import Reals Lra Lia ZArith List Permutation Arith FunctionalExtensionality.
From Coquelicot Require Import Complex.
From Verif.Model Require Import Base Potential Tables Gauge SMConst Yukawa Debye.
From Verif.Spec Require Import NumDerivSpec PotentialSpec ScalarSpec DebyeSpec.
From Verif.Proofs Require Import DerivLib NumDerivProofs PotentialProofs VevProofs TensorProofs Contract Contract2 TabTac.
Import ListNotations.
Open Scope R_scope.

Lemma quadratic_second {E} (ok : R -> E) n c (b : nat -> R) (a : nat -> nat -> R) (f : list R -> E) v i j :
  (forall w, length w = n -> f w = ok (c + sumR n (fun i => b i * nth i w 0) + sumR n (fun i => sumR n (fun j => a i j * (nth i w 0 * nth j w 0))))) ->
  (forall i j, (i < n)%nat -> (j < n)%nat -> a i j = a j i) -> length v = n -> (i < n)%nat -> (j < n)%nat ->
  second_partial ok n f v i j (2 * a i j).
Proof.
  intros F SA LV Hi Hj.
  pose (Q := fun x : nat -> R => c + sumR n (fun i => b i * x i) + sumR n (fun i => sumR n (fun j => a i j * (x i * x j)))).
  pose (D := fun x : nat -> R => b i + 2 * sumR n (fun j => a i j * x j)).
  assert (F' : forall w, length w = n -> f w = ok (Q (fun k => nth k w 0))) by exact F. exists (fun w => D (fun k => nth k w 0)). split.
  - intros w LW. eexists. split.
    + intro t. rewrite F' by (rewrite moved_length; lia). rewrite (moved_fun w i t) by lia. reflexivity.
    + unfold Q, D. eapply dl_eq; [apply dl_plus; [apply dl_plus; [apply dl_const|apply (d_linear n (fun k => nth k w 0) i Hi)]|apply (d_quadratic n (fun k => nth k w 0) i Hi a SA)]|].
      cbv beta. ring.
  - eexists. split.
    + intro t. cbv beta. rewrite (moved_fun v j t) by lia. reflexivity.
    + unfold D. eapply dl_eq; [apply dl_plus; [apply dl_const|apply dl_scal_const; apply (d_linear n (fun k => nth k v 0) j Hj (fun k => a i k))]|]. cbv beta. ring.
Qed.

(** sums of complex numbers *)
Lemma Re_csum n f : Re (Yukawa.csum n f) = sumR n (fun k => Re (f k)).
Proof. induction n as [|n IH]; [reflexivity|]. cbn [Yukawa.csum sumR]. rewrite <- IH. destruct (Yukawa.csum n f), (f n). reflexivity. Qed.
Lemma Im_csum n f : Im (Yukawa.csum n f) = sumR n (fun k => Im (f k)).
Proof. induction n as [|n IH]; [reflexivity|]. cbn [Yukawa.csum sumR]. rewrite <- IH. destruct (Yukawa.csum n f), (f n). reflexivity. Qed.
Definition re2 (x y : C) : R := Re (Cconj x * y)%C.
Lemma re2_parts x y : re2 x y = Re x * Re y + Im x * Im y.
Proof. destruct x, y. unfold re2, Re, Im, Cconj, Cmult. cbn [fst snd]. ring. Qed.
Lemma re2_sym x y : re2 x y = re2 y x. Proof. rewrite !re2_parts. ring. Qed.
Lemma product_re2 Y i j a b : fermion_product Y i j a b = re2 (Y a b i) (Y a b j).
Proof.
  unfold fermion_product. rewrite re2_parts. destruct (Y a b i) as [x y], (Y a b j) as [z t]. unfold Re, Im, Cconj, Cmult, Cplus, RtoC. cbn [fst snd]. field.
Qed.
Lemma re2_mass n Y Z (v : nat -> R) : re2 (RtoC 0 + Yukawa.csum n (fun k => Y k * RtoC (v k)))%C (RtoC 0 + Yukawa.csum n (fun k => Z k * RtoC (v k)))%C =
  sumR n (fun i => sumR n (fun j => re2 (Y i) (Z j) * (v i * v j))).
Proof.
  assert (P : forall U, Re (RtoC 0 + Yukawa.csum n (fun k => U k * RtoC (v k)))%C = sumR n (fun k => Re (U k) * v k)).
  { intro U. unfold Cplus at 1. cbn [Re fst RtoC]. fold (Re (Yukawa.csum n (fun k => U k * RtoC (v k))%C)). rewrite Re_csum, Rplus_0_l. apply sumR_ext. intros k _. destruct (U k). unfold Re, Cmult, RtoC. cbn [fst snd]. ring. }
  assert (Q : forall U, Im (RtoC 0 + Yukawa.csum n (fun k => U k * RtoC (v k)))%C = sumR n (fun k => Im (U k) * v k)).
  { intro U. unfold Cplus at 1. cbn [Im snd RtoC]. fold (Im (Yukawa.csum n (fun k => U k * RtoC (v k))%C)). rewrite Im_csum, Rplus_0_l. apply sumR_ext. intros k _. destruct (U k). unfold Im, Cmult, RtoC. cbn [fst snd]. ring. }
  rewrite re2_parts, !P, !Q. rewrite <- !sumR_mult_r. rewrite <- sumR_plus. apply sumR_ext. intros i _.
  rewrite <- !sumR_scal, <- sumR_plus. apply sumR_ext. intros j _. rewrite re2_parts. ring.
Qed.

Section Generic.
  Variables (n ng nq nl : nat) (c : tensors) (G : tensor R) (Yq Yl : nat -> nat -> nat -> C).
  Hypothesis S4 : symmetric_tensor n 4 (tL4 c).
  Hypothesis SG : forall k i j, (k < ng)%nat -> (i < n)%nat -> (j < n)%nat -> G [k; k; i; j] = G [k; k; j; i].
  Hypothesis SQ : forall a b i, (a < nq)%nat -> (b < nq)%nat -> (i < n)%nat -> Yq a b i = Yq b a i.
  Hypothesis SL : forall a b i, (a < nl)%nat -> (b < nl)%nat -> (i < n)%nat -> Yl a b i = Yl b a i.

  (** the leading part of the thermal potential from the masses the library uses *)
  Definition thermal (w : list R) : outcome R :=
    bind (mass_matrix n c w) (fun S => Ok (leading n ng nq nl S (gauge_mass n G (fun _ _ => 0) w 0)
      (fun a b => Re (fermion_mass_squared nq n Yq w a b)) (fun a b => Re (fermion_mass_squared nl n Yl w a b)))).

  Lemma sum_form i j : debye_sum n ng nq nl (tL4 c) G Yq Yl i j =
    / 24 * sumR n (fun k => at4 (tL4 c) i j k k) + / 8 * sumR ng (fun k => G [k; k; i; j])
    + / 4 * sumR nq (fun a => sumR nq (fun b => re2 (Yq a b i) (Yq a b j))) + / 12 * sumR nl (fun a => sumR nl (fun b => re2 (Yl a b i) (Yl a b j))).
  Proof.
    unfold debye_sum. cbv zeta.
    rewrite (accum_sum nl _ (fun a => / 12 * sumR nl (fun b => re2 (Yl a b i) (Yl a b j)))).
    2:{ intros a r _. rewrite (accum_sum nl _ (fun b => / 12 * re2 (Yl a b i) (Yl a b j))); [now rewrite sumR_scal|]. intros b r0 _. rewrite product_re2. field. }
    rewrite (accum_sum nq _ (fun a => / 4 * sumR nq (fun b => re2 (Yq a b i) (Yq a b j)))).
    2:{ intros a r _. rewrite (accum_sum nq _ (fun b => / 4 * re2 (Yq a b i) (Yq a b j))); [now rewrite sumR_scal|]. intros b r0 _. rewrite product_re2. field. }
    rewrite (accum_sum ng _ (fun k => / 8 * G [k; k; i; j])) by (intros; field).
    rewrite (accum_sum n _ (fun k => / 24 * at4 (tL4 c) i j k k)) by (intros; unfold at4; field). rewrite !sumR_scal. ring.
  Qed.

  Lemma trace_scalars w : length w = n -> exists S, mass_matrix n c w = Ok S /\
    trace n S = sumR n (fun k => at2 (tL2 c) k k) + sumR n (fun i => sumR n (fun k => at3 (tL3 c) k k i) * nth i w 0)
      + sumR n (fun i => sumR n (fun j => / 2 * sumR n (fun k => at4 (tL4 c) i j k k) * (nth i w 0 * nth j w 0))).
  Proof.
    intro L. eexists. split; [apply HM0; exact L|]. unfold trace.
    rewrite (sumR_ext n _ (fun k => at2 (tL2 c) k k + (sumR n (fun i => at3 (tL3 c) k k i * nth i w 0) + sumR n (fun i => sumR n (fun j => / 2 * (at4 (tL4 c) k k i j * (nth i w 0 * nth j w 0))))))).
    2:{ intros k _. cbv beta zeta. rewrite Nat.leb_refl. destruct (Req_EM_T 0 0) as [_|NE]; [|now elim NE]. unfold hess.
        rewrite (sumR_ext n (fun i => sumR n (fun j => / 2 * _)) (fun i => / 2 * sumR n (fun j => at4 (tL4 c) k k i j * (nth i w 0 * nth j w 0)))) by (intros; now rewrite sumR_scal).
        rewrite sumR_scal. ring. }
    rewrite !sumR_plus, Rplus_assoc. f_equal. f_equal.
    - rewrite sumR_swap. apply sumR_ext. intros i _. now rewrite sumR_mult_r.
    - rewrite sumR_swap. apply sumR_ext. intros i Hi. rewrite sumR_swap. apply sumR_ext. intros j Hj.
      rewrite <- sumR_scal, <- sumR_mult_r. apply sumR_ext. intros k Hk. unfold at4.
      rewrite (S4 [k; k; i; j] [i; j; k; k]); [ring|reflexivity|bel|].
      apply (Permutation_app_comm [k; k] [i; j]).
  Qed.
  Lemma trace_vectors w : length w = n ->
    trace ng (gauge_mass n G (fun _ _ => 0) w 0) = sumR n (fun i => sumR n (fun j => / 2 * sumR ng (fun k => G [k; k; i; j]) * (nth i w 0 * nth j w 0))).
  Proof.
    intro L. unfold trace.
    rewrite (sumR_ext ng _ (fun k => sumR n (fun i => sumR n (fun j => / 2 * G [k; k; i; j] * (nth i w 0 * nth j w 0))))).
    2:{ intros k _. unfold gauge_mass. cbv zeta. rewrite Nat.ltb_irrefl. destruct (Req_EM_T 0 0) as [_|NE]; [|now elim NE].
        rewrite (accum_sum n _ (fun i => sumR n (fun j => / 2 * G [k; k; i; j] * (nth i w 0 * nth j w 0)))); [ring|].
        intros i r _. apply accum_sum. intros j r0 _. field. }
    rewrite sumR_swap. apply sumR_ext. intros i _. rewrite sumR_swap. apply sumR_ext. intros j _.
    rewrite <- sumR_scal, <- sumR_mult_r. reflexivity.
  Qed.
  Lemma trace_fermions nf (Y : nat -> nat -> nat -> C) w : (forall a b i, (a < nf)%nat -> (b < nf)%nat -> (i < n)%nat -> Y a b i = Y b a i) ->
    trace nf (fun a b => Re (fermion_mass_squared nf n Y w a b)) =
    sumR n (fun i => sumR n (fun j => sumR nf (fun a => sumR nf (fun b => re2 (Y a b i) (Y a b j))) * (nth i w 0 * nth j w 0))).
  Proof.
    intro SY. unfold trace.
    rewrite (sumR_ext nf _ (fun a => sumR n (fun i => sumR n (fun j => sumR nf (fun b => re2 (Y a b i) (Y a b j)) * (nth i w 0 * nth j w 0))))).
    - rewrite sumR_swap. apply sumR_ext. intros i _. rewrite sumR_swap. apply sumR_ext. intros j _. now rewrite sumR_mult_r.
    - intros a Ha. unfold fermion_mass_squared. rewrite Re_csum.
      rewrite (sumR_ext nf _ (fun b => sumR n (fun i => sumR n (fun j => re2 (Y a b i) (Y a b j) * (nth i w 0 * nth j w 0))))).
      + rewrite sumR_swap. apply sumR_ext. intros i _. rewrite sumR_swap. apply sumR_ext. intros j _. now rewrite sumR_mult_r.
      + intros b Hb. change (re2 (fermion_mass n Y w a b) (fermion_mass n Y w b a) = sumR n (fun i => sumR n (fun j => re2 (Y a b i) (Y a b j) * (nth i w 0 * nth j w 0)))).
        unfold fermion_mass. rewrite (re2_mass n (Y a b) (Y b a) (fun k => nth k w 0)). apply sumR_ext. intros i _. apply sumR_ext. intros j Hj.
        now rewrite (SY a b j Ha Hb Hj).
  Qed.
  Lemma thermal_form w : length w = n ->
    thermal w = Ok (/ 24 * sumR n (fun k => at2 (tL2 c) k k) + sumR n (fun i => / 24 * sumR n (fun k => at3 (tL3 c) k k i) * nth i w 0)
      + sumR n (fun i => sumR n (fun j => / 2 * debye_sum n ng nq nl (tL4 c) G Yq Yl i j * (nth i w 0 * nth j w 0)))).
  Proof.
    intro L. unfold thermal. destruct (trace_scalars w L) as (S & -> & TS). cbn [bind]. f_equal. unfold leading. rewrite TS, (trace_vectors w L), (trace_fermions nq Yq w SQ), (trace_fermions nl Yl w SL).
    rewrite (sumR_ext n (fun i => / 24 * _ * _) (fun i => / 24 * (sumR n (fun k => at3 (tL3 c) k k i) * nth i w 0))) by (intros; ring). rewrite sumR_scal.
    assert (E : forall (p q r s : nat -> nat -> R), sumR n (fun i => sumR n (fun j => / 2 * (/ 24 * p i j + / 8 * q i j + / 4 * r i j + / 12 * s i j) * (nth i w 0 * nth j w 0))) =
      / 24 * sumR n (fun i => sumR n (fun j => / 2 * p i j * (nth i w 0 * nth j w 0))) + / 8 * sumR n (fun i => sumR n (fun j => / 2 * q i j * (nth i w 0 * nth j w 0)))
      + / 8 * sumR n (fun i => sumR n (fun j => r i j * (nth i w 0 * nth j w 0))) + / 24 * sumR n (fun i => sumR n (fun j => s i j * (nth i w 0 * nth j w 0)))).
    { intros p q r s. rewrite <- !sumR_scal, <- !sumR_plus. apply sumR_ext. intros i _. rewrite <- !sumR_scal, <- !sumR_plus. apply sumR_ext. intros j _. field. }
    rewrite (sumR_ext n (fun i => sumR n (fun j => / 2 * debye_sum _ _ _ _ _ _ _ _ _ _ * _)) (fun i => sumR n (fun j => / 2 * (/ 24 * sumR n (fun k => at4 (tL4 c) i j k k) + / 8 * sumR ng (fun k => G [k; k; i; j])
    + / 4 * sumR nq (fun a => sumR nq (fun b => re2 (Yq a b i) (Yq a b j))) + / 12 * sumR nl (fun a => sumR nl (fun b => re2 (Yl a b i) (Yl a b j)))) * (nth i w 0 * nth j w 0)))).
    2:{ intros i _. apply sumR_ext. intros j _. now rewrite sum_form. }
    rewrite E. field.
  Qed.
  Lemma debye_sym i j : (i < n)%nat -> (j < n)%nat -> debye_sum n ng nq nl (tL4 c) G Yq Yl i j = debye_sum n ng nq nl (tL4 c) G Yq Yl j i.
  Proof.
    intros Hi Hj. rewrite !sum_form. f_equal; [f_equal; [f_equal|]|]; f_equal.
    - apply sumR_ext. intros k Hk. unfold at4. apply S4; [reflexivity|bel|]. apply perm_swap.
    - apply sumR_ext. intros k Hk. now apply SG.
    - apply sumR_ext. intros a _. apply sumR_ext. intros b _. apply re2_sym.
    - apply sumR_ext. intros a _. apply sumR_ext. intros b _. apply re2_sym.
  Qed.
  Lemma debye_is_second v i j : length v = n -> (i < n)%nat -> (j < n)%nat ->
    second_partial Ok n thermal v i j (debye_sum n ng nq nl (tL4 c) G Yq Yl i j).
  Proof.
    intros L Hi Hj. replace (debye_sum n ng nq nl (tL4 c) G Yq Yl i j) with (2 * (/ 2 * debye_sum n ng nq nl (tL4 c) G Yq Yl i j)) by field.
    apply (quadratic_second Ok n _ _ (fun i j => / 2 * debye_sum n ng nq nl (tL4 c) G Yq Yl i j) thermal v i j thermal_form); [|assumption..]. intros i' j' Hi' Hj'. now rewrite debye_sym.
  Qed.
End Generic.
