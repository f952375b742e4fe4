(** Debye masses of the six models. *)
From Coq Require Import Reals Lra Lia ZArith List Permutation Arith FunctionalExtensionality.
From Coquelicot Require Import Complex.
From Verif.Model Require Import Base Potential Tables Gauge SMConst Yukawa Debye.
From Verif.Model Require PotSM PotCxSM PotR2HDM PotC2HDM PotN2HDM PotCPintheDark.
From Verif.Spec Require Import NumDerivSpec PotentialSpec ScalarSpec GaugeSpec YukawaSpec DebyeSpec.
From Verif.Proofs Require Import DerivLib NumDerivProofs PotentialProofs VevProofs TensorProofs Contract Contract2 TabTac CKMProofs YukawaProofs DebyeProofs.
From Verif.Proofs Require PotSMProofs PotCxSMProofs PotR2HDMProofs PotC2HDMProofs PotN2HDMProofs PotCPintheDarkProofs.
Import ListNotations.
Open Scope R_scope.

(** unit vectors *)
Definition unit (n k : nat) : list R := map (fun i => if Nat.eqb i k then 1 else 0) (seq 0 n).
Lemma unit_length n k : length (unit n k) = n. Proof. unfold unit. now rewrite map_length, seq_length. Qed.
Lemma unit_nth n k i : (i < n)%nat -> nth i (unit n k) 0 = if Nat.eqb i k then 1 else 0.
Proof.
  intro H. unfold unit. pose (f := fun i => if Nat.eqb i k then 1 else 0). change (nth i (map f (seq 0 n)) 0 = f i).
  rewrite (nth_indep _ 0 (f 0%nat)) by (rewrite map_length, seq_length; lia). rewrite map_nth, seq_nth by lia. reflexivity.
Qed.
Lemma csum_unit n (f : nat -> C) (x : nat -> R) k : (k < n)%nat -> (forall i, (i < n)%nat -> x i = if Nat.eqb i k then 1 else 0) ->
  Yukawa.csum n (fun i => f i * RtoC (x i))%C = f k.
Proof.
  intros H X. assert (G : forall m, (m <= n)%nat -> Yukawa.csum m (fun i => f i * RtoC (x i))%C = if Nat.ltb k m then f k else RtoC 0).
  { induction m as [|m IH]; intro Hm; [reflexivity|]. cbn [Yukawa.csum]. rewrite IH, X by lia.
    destruct (Nat.ltb_spec k m), (Nat.ltb_spec k (S m)), (Nat.eqb_spec m k); try lia; subst; ring. }
  rewrite G by lia. destruct (Nat.ltb_spec k n); [reflexivity|lia].
Qed.
Lemma unit_mass n Y k a b : (k < n)%nat -> fermion_mass n Y (unit n k) a b = Y a b k.
Proof.
  intro H. unfold fermion_mass. rewrite (csum_unit n (Y a b) (fun i => nth i (unit n k) 0) k H) by (intros; now apply unit_nth). ring.
Qed.
(** symmetric couplings from symmetric mass matrices *)
Lemma sym_of_mass nf n Y : (forall w a b, length w = n -> (a < nf)%nat -> (b < nf)%nat -> fermion_mass n Y w a b = fermion_mass n Y w b a) ->
  forall a b k, (a < nf)%nat -> (b < nf)%nat -> (k < n)%nat -> Y a b k = Y b a k.
Proof. intros H a b k Ha Hb Hk. rewrite <- !(unit_mass n Y k) by assumption. apply H; [apply unit_length|assumption..]. Qed.
Lemma sym_q lay n Y w V yu yd Hu Hd a b : by_entries 12 lay (fermion_mass n Y w) (entry_q V yu yd Hu Hd) -> (a < 12)%nat -> (b < 12)%nat ->
  fermion_mass n Y w a b = fermion_mass n Y w b a.
Proof. intros E Ha Hb. rewrite !E by assumption. apply entry_q_sym. Qed.
Lemma sym_l lay n Y w ye Hl a b : by_entries 9 lay (fermion_mass n Y w) (entry_l ye Hl) -> (a < 9)%nat -> (b < 9)%nat ->
  fermion_mass n Y w a b = fermion_mass n Y w b a.
Proof. intros E Ha Hb. rewrite !E by assumption. apply entry_l_sym. Qed.

(** ** the gauge tables *)
Ltac gsym := intros k i j Hk Hi Hj; cases_of k Hk; cases_of i Hi; cases_of j Hj; vm_compute; reflexivity.
Definition diag_sym (n : nat) (tab : table) : Prop := forall k i j, (k < 4)%nat -> (i < n)%nat -> (j < n)%nat ->
  assign tab zero_tensor [k; k; i; j] = assign tab zero_tensor [k; k; j; i].
Lemma SM_G g gs : diag_sym PotSM.N (SM_G2H2 g gs). Proof. gsym. Qed.
Lemma CxSM_G g gs : diag_sym PotCxSM.N (CxSM_G2H2 g gs). Proof. gsym. Qed.
Lemma R2HDM_G g gs : diag_sym PotR2HDM.N (R2HDM_G2H2 g gs). Proof. gsym. Qed.
Lemma C2HDM_G g gs : diag_sym PotC2HDM.N (C2HDM_G2H2 g gs). Proof. gsym. Qed.
Lemma N2HDM_G g gs : diag_sym PotN2HDM.N (N2HDM_G2H2 g gs). Proof. gsym. Qed.
Lemma CPintheDark_G g gs : diag_sym PotCPintheDark.N (CPintheDark_G2H2 g gs). Proof. gsym. Qed.

(** ** traces of the squared fermion masses *)
Definition n2 (z : C) : R := Re z ^ 2 + Im z ^ 2.
Lemma n2_re2 z : re2 z z = n2 z. Proof. rewrite re2_parts. unfold n2. ring. Qed.
Lemma n2_mult x y : n2 (x * y)%C = n2 x * n2 y.
Proof. destruct x, y. unfold n2, Re, Im, Cmult. cbn [fst snd]. ring. Qed.
Lemma n2_conj x : n2 (Cconj x) = n2 x. Proof. destruct x. unfold n2, Re, Im, Cconj. cbn [fst snd]. ring. Qed.
Lemma n2_opp x : n2 (- x)%C = n2 x. Proof. destruct x. unfold n2, Re, Im, Copp. cbn [fst snd]. ring. Qed.
Lemma n2_0 : n2 (RtoC 0) = 0. Proof. unfold n2, Re, Im, RtoC. cbn [fst snd]. ring. Qed.
Definition norm (H : doublet) : R := n2 (fst H) + n2 (snd H).
Definition sum3 (f : nat -> R) : R := f 0%nat + f 1%nat + f 2%nat.
Lemma unit_rows V : unitary33 V -> (forall i, (i < 3)%nat -> sum3 (fun k => n2 (V i k)) = 1) /\ (forall k, (k < 3)%nat -> sum3 (fun i => n2 (V i k)) = 1).
Proof.
  intros [P Q]. assert (E : forall z, (z * Cconj z)%C = RtoC (n2 z)).
  { intros [x y]. unfold Cmult, Cconj, RtoC, n2, Re, Im. cbn [fst snd]. f_equal; ring. }
  split; intros i Hi.
  - specialize (Q i i Hi Hi). unfold csum3, delta in Q. rewrite Nat.eqb_refl, !E, <- !RtoC_plus in Q. apply (f_equal Re) in Q. exact Q.
  - specialize (P i i Hi Hi). unfold csum3, delta in P. rewrite Nat.eqb_refl, !E, <- !RtoC_plus in P. apply (f_equal Re) in P. exact P.
Qed.
Definition square_trace (nf : nat) (M : nat -> nat -> C) : R := sumR nf (fun a => sumR nf (fun b => n2 (M a b))).
Lemma quark_trace V yu yd Hu Hd M lay : unitary33 V -> lay = layout_q \/ lay = layout_q' -> by_entries 12 lay M (entry_q V yu yd Hu Hd) ->
  square_trace 12 M = 2 * sum3 (fun i => n2 (yu i)) * norm Hu + 2 * sum3 (fun i => n2 (yd i)) * norm Hd.
Proof.
  intros U L E. destruct (unit_rows V U) as [Rw Cl]. unfold square_trace.
  rewrite (sumR_ext 12 _ (fun a => sumR 12 (fun b => n2 (entry_q V yu yd Hu Hd (lay a) (lay b))))).
  2:{ intros a Ha. apply sumR_ext. intros b Hb. now rewrite E. }
  transitivity (2 * (n2 (yu 0%nat) * (n2 (snd Hu) + n2 (fst Hu) * sum3 (fun k => n2 (V 0%nat k)))
    + n2 (yu 1%nat) * (n2 (snd Hu) + n2 (fst Hu) * sum3 (fun k => n2 (V 1%nat k))) + n2 (yu 2%nat) * (n2 (snd Hu) + n2 (fst Hu) * sum3 (fun k => n2 (V 2%nat k))))
    + 2 * (n2 (yd 0%nat) * (n2 (snd Hd) + n2 (fst Hd) * sum3 (fun k => n2 (V k 0%nat)))
    + n2 (yd 1%nat) * (n2 (snd Hd) + n2 (fst Hd) * sum3 (fun k => n2 (V k 1%nat))) + n2 (yd 2%nat) * (n2 (snd Hd) + n2 (fst Hd) * sum3 (fun k => n2 (V k 2%nat))))).
  2:{ rewrite !Rw, !Cl by lia. unfold norm, sum3. ring. }
  clear E Rw Cl U. unfold sum3.
  destruct L as [-> | ->]; cbn -[Rplus Rmult IZR n2 C Cmult Copp Cconj RtoC]; rewrite ?n2_opp, ?n2_mult, ?n2_conj, ?n2_0; ring.
Qed.
Lemma lepton_trace ye Hl M : by_entries 9 layout_l M (entry_l ye Hl) -> square_trace 9 M = 2 * sum3 (fun i => n2 (ye i)) * norm Hl.
Proof.
  intros E. unfold square_trace.
  rewrite (sumR_ext 9 _ (fun a => sumR 9 (fun b => n2 (entry_l ye Hl (layout_l a) (layout_l b))))).
  2:{ intros a Ha. apply sumR_ext. intros b Hb. now rewrite E. }
  cbn -[Rplus Rmult IZR n2 C Cmult Copp Cconj RtoC]. rewrite ?n2_mult, ?n2_0. unfold sum3, norm. ring.
Qed.
(** the coefficients of the quadratic form *)
Definition pairing (nf : nat) (Y : nat -> nat -> nat -> C) (i j : nat) : R := sumR nf (fun a => sumR nf (fun b => re2 (Y a b i) (Y a b j))).
Lemma square_trace_form nf n Y w : square_trace nf (fermion_mass n Y w) = sumR n (fun i => sumR n (fun j => pairing nf Y i j * (nth i w 0 * nth j w 0))).
Proof.
  unfold square_trace. rewrite (sumR_ext nf _ (fun a => sumR n (fun i => sumR n (fun j => sumR nf (fun b => re2 (Y a b i) (Y a b j)) * (nth i w 0 * nth j w 0))))).
  - rewrite sumR_swap. apply sumR_ext. intros i _. rewrite sumR_swap. apply sumR_ext. intros j _. unfold pairing. now rewrite sumR_mult_r.
  - intros a Ha. rewrite (sumR_ext nf _ (fun b => sumR n (fun i => sumR n (fun j => re2 (Y a b i) (Y a b j) * (nth i w 0 * nth j w 0))))).
    + rewrite sumR_swap. apply sumR_ext. intros i _. rewrite sumR_swap. apply sumR_ext. intros j _. now rewrite sumR_mult_r.
    + intros b _. rewrite <- n2_re2. unfold fermion_mass. apply (re2_mass n (Y a b) (Y a b) (fun k => nth k w 0)).
Qed.
(** equal quadratic forms have equal symmetric coefficients *)
Definition two (n i j : nat) : list R := map (fun k => (if Nat.eqb k i then 1 else 0) + (if Nat.eqb k j then 1 else 0)) (seq 0 n).
Lemma two_length n i j : length (two n i j) = n. Proof. unfold two. now rewrite map_length, seq_length. Qed.
Lemma two_nth n i j k : (k < n)%nat -> nth k (two n i j) 0 = (if Nat.eqb k i then 1 else 0) + (if Nat.eqb k j then 1 else 0).
Proof.
  intro H. unfold two. pose (f := fun k => (if Nat.eqb k i then 1 else 0) + (if Nat.eqb k j then 1 else 0)). change (nth k (map f (seq 0 n)) 0 = f k).
  rewrite (nth_indep _ 0 (f 0%nat)) by (rewrite map_length, seq_length; lia). rewrite map_nth, seq_nth by lia. reflexivity.
Qed.
Lemma sum_ind n (f : nat -> R) k : (k < n)%nat -> sumR n (fun i => f i * (if Nat.eqb i k then 1 else 0)) = f k.
Proof.
  intro H. rewrite (sumR_at n _ k H); [rewrite Nat.eqb_refl; ring|]. intros i _ N. apply Nat.eqb_neq in N. rewrite N. ring.
Qed.
Lemma form_two n (a : nat -> nat -> R) i j : (i < n)%nat -> (j < n)%nat ->
  sumR n (fun p => sumR n (fun q => a p q * (nth p (two n i j) 0 * nth q (two n i j) 0))) = a i i + a i j + a j i + a j j.
Proof.
  intros Hi Hj.
  rewrite (sumR_ext n _ (fun p => (a p i + a p j) * (if Nat.eqb p i then 1 else 0) + (a p i + a p j) * (if Nat.eqb p j then 1 else 0))).
  - rewrite sumR_plus, !sum_ind by assumption. ring.
  - intros p Hp. rewrite (sumR_ext n _ (fun q => (a p q * nth p (two n i j) 0) * (if Nat.eqb q i then 1 else 0) + (a p q * nth p (two n i j) 0) * (if Nat.eqb q j then 1 else 0))).
    + rewrite sumR_plus, !sum_ind by assumption. rewrite two_nth by assumption. ring.
    + intros q Hq. rewrite (two_nth n i j q) by assumption. ring.
Qed.
Lemma polarise n (a b : nat -> nat -> R) : (forall i j, a i j = a j i) -> (forall i j, b i j = b j i) ->
  (forall w, length w = n -> sumR n (fun p => sumR n (fun q => a p q * (nth p w 0 * nth q w 0))) = sumR n (fun p => sumR n (fun q => b p q * (nth p w 0 * nth q w 0)))) ->
  forall i j, (i < n)%nat -> (j < n)%nat -> a i j = b i j.
Proof.
  intros SA SB H i j Hi Hj.
  assert (P : forall i j, (i < n)%nat -> (j < n)%nat -> a i i + a i j + a j i + a j j = b i i + b i j + b j i + b j j).
  { intros p q Hp Hq. rewrite <- !(form_two n _ p q) by assumption. apply H, two_length. }
  pose proof (P i i Hi Hi). pose proof (P j j Hj Hj). pose proof (P i j Hi Hj). rewrite (SA j i), (SB j i) in *. lra.
Qed.
Lemma pairing_sym nf Y i j : pairing nf Y i j = pairing nf Y j i.
Proof. unfold pairing. apply sumR_ext. intros a _. apply sumR_ext. intros b _. apply re2_sym. Qed.
(** a doublet made of the fields whose index is in [l] *)
Notation diag := on_diagonal.
Lemma diag_sym' l x i j : diag l x i j = diag l x j i.
Proof. unfold on_diagonal. rewrite (Nat.eqb_sym j i). destruct (Nat.eqb_spec i j); [now subst|reflexivity]. Qed.
Lemma norm_cfield a b c d : norm (mkdoublet a b c d) = / 2 * (a ^ 2 + b ^ 2 + c ^ 2 + d ^ 2).
Proof.
  unfold norm, mkdoublet, cfield, n2. cbn [fst snd Re Im].
  assert (S : forall x, (x / sqrt 2) ^ 2 = / 2 * x ^ 2).
  { intro x. unfold Rdiv. rewrite Rpow_mult_distr, pow_inv. replace (sqrt 2 ^ 2) with 2 by (cbn [pow]; rewrite Rmult_1_r, sqrt_sqrt; lra). ring. }
  rewrite !S. ring.
Qed.
Lemma yukawa_n2 m v : v <> 0 -> n2 (yukawa m v) = 2 * m ^ 2 / v ^ 2.
Proof.
  intro V. unfold yukawa, n2, RtoC, Re, Im. cbn [fst snd]. replace ((sqrt 2 * m / v) ^ 2) with (sqrt 2 * sqrt 2 * m ^ 2 / v ^ 2) by (field; exact V).
  rewrite sqrt_sqrt by lra. field. exact V.
Qed.

(** ** the second derivatives, model by model *)
Definition mup (K : constants) : list R := [MassUp K; MassCharm K; MassTop K].
Definition mdown (K : constants) : list R := [MassDown K; MassStrange K; MassBottom K].
Definition mlep (K : constants) : list R := [MassElectron K; MassMu K; MassTau K].
Lemma sum_share (m : nat -> R) v : v <> 0 -> 2 * sum3 (fun i => n2 (yukawa (m i) v)) = 2 * (4 * quark_share [m 0%nat; m 1%nat; m 2%nat] v).
Proof. intro V. unfold sum3. rewrite !yukawa_n2 by exact V. unfold quark_share, squares. cbn [fold_right]. field. exact V. Qed.
Lemma sum_share_l (m : nat -> R) v : v <> 0 -> 2 * sum3 (fun i => n2 (yukawa (m i) v)) = 2 * (12 * lepton_share [m 0%nat; m 1%nat; m 2%nat] v).
Proof. intro V. unfold sum3. rewrite !yukawa_n2 by exact V. unfold lepton_share, squares. cbn [fold_right]. field. exact V. Qed.
Ltac split_types := repeat match goal with |- context [if ?b then _ else _] => match b with orb _ _ => destruct b end end.
Ltac forms w L := destruct_list w L; split_types; rewrite !norm_cfield; unfold on_diagonal; cbn -[Rplus Rmult Rinv IZR pow]; field.

Section Two.
  Variables (i0 : input) (T : Z) (c s : R).
  Notation K := (GetSMConstants i0).
  Notation v1 := (vev0 K * c).
  Notation v2 := (vev0 K * s).
  Hypothesis V1 : v1 <> 0.
  Hypothesis V2 : v2 <> 0.
  Lemma vD_ne : v_down T v1 v2 <> 0. Proof. unfold v_down. repeat destruct (Z.eqb _ _); assumption. Qed.
  Lemma vL_ne : v_lepton T v1 v2 <> 0. Proof. unfold v_lepton. repeat destruct (Z.eqb _ _); assumption. Qed.
  Lemma R2HDM_pair_q i j : (i < 8)%nat -> (j < 8)%nat -> pairing 12 (R2HDM_quarks K T c s) i j =
    diag [2; 3; 6; 7]%nat (4 * quark_share (mup K) v2) i j
    + diag (if orb (Z.eqb T 1) (Z.eqb T 3) then [2; 3; 6; 7]%nat else [0; 1; 4; 5]%nat) (4 * quark_share (mdown K) (v_down T v1 v2)) i j.
  Proof.
    apply (polarise 8 _ (fun i j => diag [2; 3; 6; 7]%nat (4 * quark_share (mup K) v2) i j
      + diag (if orb (Z.eqb T 1) (Z.eqb T 3) then [2; 3; 6; 7]%nat else [0; 1; 4; 5]%nat) (4 * quark_share (mdown K) (v_down T v1 v2)) i j)).
    - intros. apply pairing_sym.
    - intros p q. cbv beta. f_equal; apply diag_sym'.
    - intros w L. rewrite <- (square_trace_form 12 8 (R2HDM_quarks K T c s) w).
      rewrite (quark_trace _ _ _ _ _ _ _ (CKM_unitary i0) (or_introl eq_refl) (R2HDM_quarks_entries K T c s w V2 vD_ne L)).
      rewrite (sum_share (m_up K)), (sum_share (m_down K)) by (exact V2 || exact vD_ne).
      change [m_up K 0%nat; m_up K 1%nat; m_up K 2%nat] with (mup K). change [m_down K 0%nat; m_down K 1%nat; m_down K 2%nat] with (mdown K).
      generalize (quark_share (mup K) v2) (quark_share (mdown K) (v_down T v1 v2)). intros x y.
      unfold pick, first_doublet, second_doublet. forms w L.
  Qed.
  Lemma R2HDM_pair_l i j : (i < 8)%nat -> (j < 8)%nat -> pairing 9 (R2HDM_leptons K T c s) i j =
    diag (if orb (Z.eqb T 1) (Z.eqb T 4) then [2; 3; 6; 7]%nat else [0; 1; 4; 5]%nat) (12 * lepton_share (mlep K) (v_lepton T v1 v2)) i j.
  Proof.
    apply (polarise 8 _ (fun i j => diag (if orb (Z.eqb T 1) (Z.eqb T 4) then [2; 3; 6; 7]%nat else [0; 1; 4; 5]%nat) (12 * lepton_share (mlep K) (v_lepton T v1 v2)) i j)).
    - intros. apply pairing_sym.
    - intros. apply diag_sym'.
    - intros w L. rewrite <- (square_trace_form 9 8 (R2HDM_leptons K T c s) w).
      rewrite (lepton_trace _ _ _ (R2HDM_leptons_entries K T c s w vL_ne L)).
      rewrite (sum_share_l (m_lep K)) by exact vL_ne.
      change [m_lep K 0%nat; m_lep K 1%nat; m_lep K 2%nat] with (mlep K).
      generalize (lepton_share (mlep K) (v_lepton T v1 v2)). intros x.
      unfold pick, first_doublet, second_doublet. forms w L.
  Qed.
  Lemma N2HDM_pair_q i j : (i < 9)%nat -> (j < 9)%nat -> pairing 12 (N2HDM_quarks K T c s) i j =
    diag [1; 3; 5; 7]%nat (4 * quark_share (mup K) v2) i j
    + diag (if orb (Z.eqb T 1) (Z.eqb T 3) then [1; 3; 5; 7]%nat else [0; 2; 4; 6]%nat) (4 * quark_share (mdown K) (v_down T v1 v2)) i j.
  Proof.
    apply (polarise 9 _ (fun i j => diag [1; 3; 5; 7]%nat (4 * quark_share (mup K) v2) i j
      + diag (if orb (Z.eqb T 1) (Z.eqb T 3) then [1; 3; 5; 7]%nat else [0; 2; 4; 6]%nat) (4 * quark_share (mdown K) (v_down T v1 v2)) i j)).
    - intros. apply pairing_sym.
    - intros p q. cbv beta. f_equal; apply diag_sym'.
    - intros w L. rewrite <- (square_trace_form 12 9 (N2HDM_quarks K T c s) w).
      rewrite (quark_trace _ _ _ _ _ _ _ (CKM_unitary i0) (or_introl eq_refl) (N2HDM_quarks_entries K T c s w V2 vD_ne L)).
      rewrite (sum_share (m_up K)), (sum_share (m_down K)) by (exact V2 || exact vD_ne).
      change [m_up K 0%nat; m_up K 1%nat; m_up K 2%nat] with (mup K). change [m_down K 0%nat; m_down K 1%nat; m_down K 2%nat] with (mdown K).
      generalize (quark_share (mup K) v2) (quark_share (mdown K) (v_down T v1 v2)). intros x y.
      unfold pick, n2hdm_first, n2hdm_second. forms w L.
  Qed.
  Lemma N2HDM_pair_l i j : (i < 9)%nat -> (j < 9)%nat -> pairing 9 (N2HDM_leptons K T c s) i j =
    diag (if orb (Z.eqb T 1) (Z.eqb T 4) then [1; 3; 5; 7]%nat else [0; 2; 4; 6]%nat) (12 * lepton_share (mlep K) (v_lepton T v1 v2)) i j.
  Proof.
    apply (polarise 9 _ (fun i j => diag (if orb (Z.eqb T 1) (Z.eqb T 4) then [1; 3; 5; 7]%nat else [0; 2; 4; 6]%nat) (12 * lepton_share (mlep K) (v_lepton T v1 v2)) i j)).
    - intros. apply pairing_sym.
    - intros. apply diag_sym'.
    - intros w L. rewrite <- (square_trace_form 9 9 (N2HDM_leptons K T c s) w).
      rewrite (lepton_trace _ _ _ (N2HDM_leptons_entries K T c s w vL_ne L)).
      rewrite (sum_share_l (m_lep K)) by exact vL_ne.
      change [m_lep K 0%nat; m_lep K 1%nat; m_lep K 2%nat] with (mlep K).
      generalize (lepton_share (mlep K) (v_lepton T v1 v2)). intros x.
      unfold pick, n2hdm_first, n2hdm_second. forms w L.
  Qed.
End Two.
