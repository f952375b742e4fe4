(** First and second derivatives of the one-loop potential: the program's sectors. *)
From Coq Require Import Reals List Lra Lia ZArith FunctionalExtensionality.
From Coquelicot Require Import Coquelicot.
From Verif Require Import Model.Base Model.Loop Model.OneLoop Model.EigenDeriv Model.Weinberg Spec.EigenSpec Spec.WeinbergSpec Proofs.DerivLib Proofs.LoopProofs Proofs.OneLoopProofs Proofs.EigenProofs Proofs.EigenBranch Proofs.Spectral Proofs.WeinbergSector Proofs.WeinbergProofs.
Import ListNotations.
Open Scope R_scope.

Lemma diag_frame : forall n M dec, diagonalises n M dec -> eigenframe n M (fun p => nth p (fst dec) 0) (fun p a => snd dec a p).
Proof. intros n M dec [_ [_ [E [O K]]]]. split; [intros a p A P; apply E; assumption|split; assumption]. Qed.
Lemma frame_ext : forall n M lam X mu Y, (forall p, (p < n)%nat -> lam p = mu p) -> (forall p a, (p < n)%nat -> (a < n)%nat -> X p a = Y p a) ->
  eigenframe n M lam X -> eigenframe n M mu Y.
Proof.
  intros n M lam X mu Y L E [EX [O K]]. split; [|split].
  - intros a p A P. rewrite <- L, <- E by assumption. rewrite <- (EX a p A P). rewrite !totalC_ok. apply csum_ext. intros b B. rewrite E by assumption. reflexivity.
  - intros p q P Q. rewrite <- (O p q P Q). rewrite !totalC_ok. apply csum_ext. intros a A. rewrite !E by assumption. reflexivity.
  - intros a b A B. rewrite <- (K a b A B). rewrite !totalC_ok. apply csum_ext. intros p P. rewrite !E by assumption. reflexivity.
Qed.
Lemma minmax_eq : forall (f : nat -> nat -> R) i j, (forall a b, f a b = f b a) -> f (Nat.min i j) (Nat.max i j) = f i j.
Proof. intros f i j S. destruct (Nat.le_ge_cases i j) as [H|H]; [rewrite (Nat.min_l _ _ H), (Nat.max_r _ _ H); reflexivity|rewrite (Nat.min_r _ _ H), (Nat.max_l _ _ H); apply S]. Qed.

Lemma tachyon_nan : forall rsolver csolver K v scale p, (p < NHiggs K)%nat ->
  nth p (fst (rsolver (NHiggs K) (MassHiggs K v))) 0 <= - / 10 ^ 5 ->
  FirstDerivative rsolver csolver K v scale true = Ok None /\ SecondDerivative rsolver csolver K v scale true = Ok None.
Proof.
  intros rsolver csolver K v scale p P H. assert (T : tachyon (physical rsolver csolver K v) = true).
  { unfold tachyon. apply existsb_exists. exists (higgs_sector rsolver K v). split; [right; left; reflexivity|]. apply existsb_exists. exists p. split; [apply in_seq; cbn; lia|].
    cbn [higgs_sector mass2]. unfold clip, ZeroMass. set (x := nth p _ 0) in *. assert (Z : 0 < / 10 ^ 5) by (apply Rinv_0_lt_compat, pow_lt; lra).
    destruct (Rlt_dec (Rabs x) (/ 10 ^ 5)) as [L|]; [rewrite Rabs_left in L; lra|]. destruct (Rlt_dec x 0); [reflexivity|lra]. }
  unfold FirstDerivative, SecondDerivative, WeinbergFirstDerivative, WeinbergSecondDerivativeAsMatrix. rewrite T. split; reflexivity.
Qed.

Section Run.
  Variable rsolver : nat -> (nat -> nat -> R) -> list R * (nat -> nat -> R).
  Variable csolver : nat -> cmat -> list R * cmat.
  Variables (K : curvature) (DH DG : nat -> nat -> R) (scale : R) (JIb JIf : R -> R) (JNb JNf : R -> Z -> R) (parwani : bool).
  Hypothesis SOLVE : solves rsolver csolver K.
  Hypothesis S0 : 0 < scale.
  Hypothesis SYM : symmetric_curvature K.
  Notation N := (NHiggs K).
  Let MH (u : nat -> R) : cmat := cast (MassHiggs K u).
  Let MG (u : nat -> R) : cmat := cast (MassGauge K u).
  Let MQ (u : nat -> R) : cmat := MassQuark K u.
  Let ML (u : nat -> R) : cmat := MassLepton K u.
  Lemma MassHiggs_sym : forall u a b, MassHiggs K u a b = MassHiggs K u b a.
  Proof using SYM.
    intros u a b. destruct SYM as [Y2 [Y3 [Y4 _]]]. unfold MassHiggs. rewrite Y2. f_equal. apply rsum_ext. intros k Hk. rewrite Y3. f_equal. apply rsum_ext. intros l Hl. rewrite Y4. reflexivity.
  Qed.
  Lemma MassGauge_sym : forall u a b, MassGauge K u a b = MassGauge K u b a.
  Proof using SYM.
    intros u a b. destruct SYM as [_ [_ [_ [_ [Y _]]]]]. unfold MassGauge. apply rsum_ext. intros k Hk. apply rsum_ext. intros l Hl. rewrite Y. reflexivity.
  Qed.
  Lemma cast_hermitian : forall n m, (forall a b, m a b = m b a) -> hermitian n (cast m).
  Proof using. intros n m S a b A B. unfold cast. rewrite Cconj_R, S. reflexivity. Qed.
  Lemma fermion_hermitian : forall n F2 F u, (forall a b, F2 a b = F2 b a) -> (forall a b c, F a b c = F b a c) -> hermitian n (FermionMassMatrix n N F2 F u).
  Proof using.
    intros n F2 F u Y2 Y3 a b A B. unfold FermionMassMatrix. rewrite csum_conj. apply csum_ext. intros i I. rewrite Cconj_mult', Cconj_conj'.
    assert (Y : forall x y, MIJ N F2 F u x y = MIJ N F2 F u y x) by (intros x y; unfold MIJ; rewrite Y2; f_equal; apply csum_ext; intros k Hk; rewrite Y3; reflexivity).
    rewrite (Y a i), (Y i b). ring.
  Qed.
  Lemma HermH : forall u, hermitian N (MH u). Proof using SYM. intro u. apply cast_hermitian, MassHiggs_sym. Qed.
  Lemma HermG : forall u, hermitian (NGauge K) (MG u). Proof using SYM. intro u. apply cast_hermitian, MassGauge_sym. Qed.
  Lemma HermQ : forall u, hermitian (NQuarks K) (MQ u). Proof using SYM. intro u. destruct SYM as [_ [_ [_ [_ [_ [_ [A [B _]]]]]]]]. apply fermion_hermitian; assumption. Qed.
  Lemma HermL : forall u, hermitian (NLepton K) (ML u). Proof using SYM. intro u. destruct SYM as [_ [_ [_ [_ [_ [_ [_ [_ [A B]]]]]]]]]. apply fermion_hermitian; assumption. Qed.
  Definition evs (n : nat) (Mf : (nat -> R) -> cmat) (u : nat -> R) (p : nat) : R := nth p (fst (csolver n (Mf u))) 0.
  Definition vecs (n : nat) (Mf : (nat -> R) -> cmat) (u : nat -> R) (p a : nat) : C := snd (csolver n (Mf u)) a p.
  Lemma csolver_frame : forall n Mf, (forall u, diagonalises n (Mf u) (csolver n (Mf u))) -> forall u, eigenframe n (Mf u) (evs n Mf u) (vecs n Mf u).
  Proof using. intros n Mf H u. apply (diag_frame n (Mf u) (csolver n (Mf u))). apply H. Qed.
  Lemma SolH : forall u, diagonalises N (MH u) (csolver N (MH u)). Proof using SOLVE. intro u. destruct (SOLVE u) as [_ [_ [A _]]]. exact A. Qed.
  Lemma SolG : forall u, diagonalises (NGauge K) (MG u) (csolver (NGauge K) (MG u)). Proof using SOLVE. intro u. destruct (SOLVE u) as [_ [_ [_ [A _]]]]. exact A. Qed.
  Lemma SolQ : forall u, diagonalises (NQuarks K) (MQ u) (csolver (NQuarks K) (MQ u)). Proof using SOLVE. intro u. destruct (SOLVE u) as [_ [_ [_ [_ [A _]]]]]. exact A. Qed.
  Lemma SolL : forall u, diagonalises (NLepton K) (ML u) (csolver (NLepton K) (ML u)). Proof using SOLVE. intro u. destruct (SOLVE u) as [_ [_ [_ [_ [_ A]]]]]. exact A. Qed.

  (** * derivatives of the mass matrices *)
  Let H3 (u : nat -> R) (l : nat) : cmat := fun a b => RtoC (L3 K a b l + rsum N (fun j => L4 K a b l j * u j)).
  Let H4 (l m : nat) : cmat := fun a b => RtoC (L4 K a b l m).
  Let G3 (u : nat -> R) (l : nat) : cmat := fun a b => RtoC (rsum N (fun j => G2H2 K a b l j * u j)).
  Let G4 (l m : nat) : cmat := fun a b => RtoC (G2H2 K a b l m).
  Let Q3 (u : nat -> R) (l : nat) : cmat := fun a b => fermion3 K u (NQuarks K) (QF2 K) (QF2H1 K) a b l.
  Let Q4 (l m : nat) : cmat := fun a b => fermion4 (NQuarks K) (QF2H1 K) a b l m.
  Let P3 (u : nat -> R) (l : nat) : cmat := fun a b => fermion3 K u (NLepton K) (LF2 K) (LF2H1 K) a b l.
  Let P4 (l m : nat) : cmat := fun a b => fermion4 (NLepton K) (LF2H1 K) a b l m.
  Lemma dl_linear : forall (f : nat -> R) u m, (m < N)%nat -> dl (fun t => rsum N (fun j => f j * entry_set u m t j)) (u m) (f m).
  Proof using.
    intros f u m M. eapply dl_eq; [apply (dl_rsum N (fun t j => f j * entry_set u m t j) (u m) (fun j => f j * kron j m)); intros j J|].
    - eapply dl_eq; [apply (dl_mult (fun _ => f j) (fun t => entry_set u m t j)); [apply dl_const|apply dl_entry]|ring].
    - apply rsum_kron. exact M.
  Qed.
  Lemma higgs_matrix_eq : forall Deb u, HiggsMassMatrix N (L2 K) (L3 K) (L4 K) Deb u 0 0 = MassHiggs K u.
  Proof using SYM.
    intros Deb u. apply functional_extensionality. intro i. apply functional_extensionality. intro j. unfold HiggsMassMatrix. cbn [Z.eqb]. destruct (Req_EM_T 0 0); [|congruence].
    apply (minmax_eq (MassHiggs K u) i j). apply MassHiggs_sym.
  Qed.
  Lemma gauge_matrix_eq : forall Deb u, GaugeMassMatrix N (G2H2 K) Deb u 0 = MassGauge K u.
  Proof using SYM.
    intros Deb u. apply functional_extensionality. intro i. apply functional_extensionality. intro j. unfold GaugeMassMatrix. destruct (Req_EM_T 0 0); [|congruence].
    apply (minmax_eq (MassGauge K u) i j). apply MassGauge_sym.
  Qed.
  Lemma D3H : forall u l a b, (l < N)%nat -> has_derivative (fun t => MH (entry_set u l t) a b) (u l) (H3 u l a b).
  Proof using SYM.
    intros u l a b L. unfold MH, cast, H3. apply hd_real. destruct SYM as [_ [Y3 [Y4 [Y4' _]]]].
    eapply dl_eq; [eapply dl_ext with (f := fun t => HiggsMassMatrix N (L2 K) (L3 K) (L4 K) (fun _ _ => 0) (entry_set u l t) 0 0 a b); [intro t; rewrite higgs_matrix_eq; reflexivity|apply (higgs_diff_field N (L2 K) (L3 K) (L4 K) (fun _ _ => 0) u 0 l a b L Y3 Y4 Y4')]|].
    unfold HiggsDiff. replace (0 <? Z.of_nat l + 1)%Z with true by (symmetry; apply Z.ltb_lt; lia). replace (Z.to_nat (Z.of_nat l + 1 - 1)) with l by lia. reflexivity.
  Qed.
  Lemma D3G : forall u l a b, (l < N)%nat -> has_derivative (fun t => MG (entry_set u l t) a b) (u l) (G3 u l a b).
  Proof using SYM.
    intros u l a b L. unfold MG, cast, G3. apply hd_real. destruct SYM as [_ [_ [_ [_ [Y [Y' _]]]]]].
    eapply dl_eq; [eapply dl_ext with (f := fun t => GaugeMassMatrix N (G2H2 K) (fun _ _ => 0) (entry_set u l t) 0 a b); [intro t; rewrite gauge_matrix_eq; reflexivity|apply (gauge_diff_field N (G2H2 K) (fun _ _ => 0) u 0 l a b L Y Y')]|].
    unfold GaugeDiff. replace (0 <? Z.of_nat l + 1)%Z with true by (symmetry; apply Z.ltb_lt; lia). replace (Z.to_nat (Z.of_nat l + 1 - 1)) with l by lia. reflexivity.
  Qed.
  Lemma D3F : forall n F2 F u l a b, (l < N)%nat -> has_derivative (fun t => FermionMassMatrix n N F2 F (entry_set u l t) a b) (u l) (fermion3 K u n F2 F a b l).
  Proof using. intros n F2 F u l a b L. apply (fermion_diff n N F2 F u l a b L). Qed.
  Lemma D4H : forall u l m a b, (l < N)%nat -> (m < N)%nat -> has_derivative (fun t => H3 (entry_set u m t) l a b) (u m) (H4 l m a b).
  Proof using.
    intros u l m a b L M. unfold H3, H4. apply hd_real. eapply dl_eq; [apply dl_plus; [apply dl_const|apply (dl_linear (fun j => L4 K a b l j) u m M)]|ring].
  Qed.
  Lemma D4G : forall u l m a b, (l < N)%nat -> (m < N)%nat -> has_derivative (fun t => G3 (entry_set u m t) l a b) (u m) (G4 l m a b).
  Proof using. intros u l m a b L M. unfold G3, G4. apply hd_real. apply (dl_linear (fun j => G2H2 K a b l j) u m M). Qed.
  Lemma D4F : forall n F2 F u l m a b, (m < N)%nat -> has_derivative (fun t => fermion3 K (entry_set u m t) n F2 F a b l) (u m) (fermion4 n F a b l m).
  Proof using.
    intros n F2 F u l m a b M. unfold fermion3, fermion4.
    apply (hd_csum n (fun t i => Cplus (Cmult (Cconj (F a i l)) (MIJ N F2 F (entry_set u m t) i b)) (Cmult (Cconj (MIJ N F2 F (entry_set u m t) a i)) (F i b l)))). intros i I.
    eapply hd_eq; [apply hd_plus; [apply (hd_mult (fun _ => Cconj (F a i l)) (fun t => MIJ N F2 F (entry_set u m t) i b)); [apply hd_const|apply MIJ_diff; exact M]
      |apply (hd_mult (fun t => Cconj (MIJ N F2 F (entry_set u m t) a i)) (fun _ => F i b l)); [apply hd_conj, MIJ_diff; exact M|apply hd_const]]|]. ring.
  Qed.

  (** * the potential *)
  Definition cwsum (c : R) (n : nat) (Mf : (nat -> R) -> cmat) (u : nat -> R) : R := rsum n (fun p => CWTerm scale (evs n Mf u p) c 0).
  Lemma total_rsum : forall (f : nat -> R) (g : R -> R) n, total g (map f (seq 0 n)) = rsum n (fun i => g (f i)).
  Proof using.
    intros f g n. assert (A : forall l x, total g (l ++ [x]) = total g l + g x).
    { unfold total. induction l as [|y l IHl]; intro x; cbn; [ring|]. rewrite IHl. ring. }
    induction n as [|n IH]; [reflexivity|]. rewrite seq_S, map_app. cbn [map]. rewrite A, IH. reflexivity.
  Qed.
  Lemma masses_total : forall z c n M, 0 < z <= CW_threshold -> total (fun x => bos scale JIb JNb x 0 c 0) (masses csolver z n M) = rsum n (fun p => CWTerm scale (nth p (fst (csolver n M)) 0) c 0).
  Proof using.
    intros z c n M Z. unfold masses. rewrite (total_rsum (fun i => let x := nth i (fst (csolver n M)) 0 in if Rlt_dec (Rabs x) z then 0 else x)). apply rsum_ext. intros p P. cbv zeta.
    unfold bos, boson. destruct (Req_EM_T 0 0); [|congruence]. cbn [Z.leb Z.compare]. rewrite CWTerm0_even.
    set (x := nth p (fst (csolver n M)) 0). destruct (Rlt_dec (Rabs x) z) as [L|]; [|reflexivity]. rewrite CWTerm_zero. unfold CWTerm. destruct (Rlt_dec (Rabs x) CW_threshold); [reflexivity|lra].
  Qed.
  Lemma total_mult : forall (g : R -> R) a l, total (fun x => a * g x) l = a * total g l.
  Proof using. intros g a l. apply total_scale. Qed.
  Lemma masses_total_f : forall n M, total (fun x => fer scale JIf JNf x 0 0) (masses csolver (/ 10 ^ 10) n M) = rsum n (fun p => CWTerm scale (nth p (fst (csolver n M)) 0) C_CWcbFermion 0).
  Proof using.
    intros n M. unfold masses. rewrite (total_rsum (fun i => let x := nth i (fst (csolver n M)) 0 in if Rlt_dec (Rabs x) (/ 10 ^ 10) then 0 else x)). apply rsum_ext. intros p P. cbv zeta.
    unfold fer, fermion, boson. destruct (Req_EM_T 0 0); [|congruence]. cbn [Z.leb Z.compare]. rewrite CWTerm0_even.
    set (x := nth p (fst (csolver n M)) 0). destruct (Rlt_dec (Rabs x) (/ 10 ^ 10)) as [L|]; [|reflexivity]. rewrite CWTerm_zero. unfold CWTerm. destruct (Rlt_dec (Rabs x) CW_threshold) as [|B]; [reflexivity|].
    exfalso. apply B. apply Rlt_trans with (/ 10 ^ 10); [exact L|]. unfold CW_threshold. replace (1 / 10000) with (/ 10 ^ 4) by (cbn; field). apply Rinv_lt_contravar; [apply Rmult_lt_0_compat; apply pow_lt; lra|]. apply Rlt_pow; [lra|lia].
  Qed.
  Lemma potential_sum : forall u, V1LoopZero csolver K DH DG scale JIb JIf JNb JNf parwani u =
    3 * cwsum C_CWcbGB (NGauge K) MG u + 1 * cwsum C_CWcbHiggs N MH u + (-6) * cwsum C_CWcbFermion (NQuarks K) MQ u + (-2) * cwsum C_CWcbFermion (NLepton K) ML u.
  Proof using SYM.
    intro u. assert (Z5 : 0 < / 10 ^ 5 <= CW_threshold) by (unfold CW_threshold; lra).
    unfold V1LoopZero, V1Loop0, spectrum0. cbv zeta. cbn [higgs gauge higgs0 gauge0 quarks leptons].
    unfold HiggsMassesSquared, GaugeMassesSquared, FermionMassesSquared. cbn [Z.eqb Z.leb Z.compare]. rewrite higgs_matrix_eq, gauge_matrix_eq.
    fold (MH u) (MG u). change (FermionMassMatrix (NQuarks K) N (QF2 K) (QF2H1 K) u) with (MQ u). change (FermionMassMatrix (NLepton K) N (LF2 K) (LF2H1 K) u) with (ML u).
    rewrite !total_mult, !(masses_total (/ 10 ^ 5)) by exact Z5. rewrite !masses_total_f. unfold cwsum, evs, NColour. destruct parwani; ring.
  Qed.

  (** * the program's sectors at a point *)
  Variable v : nat -> R.
  Hypothesis GM : good_masses K v.
  Hypothesis PR : plain_rotation rsolver K v.
  Hypothesis RF : real_fermions csolver K v.
  Let sH := higgs_sector rsolver K v.
  Let sG := gauge_sector rsolver K v.
  Let sQ := quark_sector csolver K v.
  Let sL := lepton_sector csolver K v.
  Let HR := HiggsRotation rsolver K v.
  Lemma clip_ok : forall z x, (x = 0 \/ z <= Rabs x) -> clip z x = x.
  Proof using. intros z x [->|H]; unfold clip; [destruct (Rlt_dec (Rabs 0) z); reflexivity|]. destruct (Rlt_dec (Rabs x) z); [lra|reflexivity]. Qed.
  Lemma ten4 : / 10 ^ 5 <= 1 / 10000.
  Proof using. lra. Qed.
  Lemma rframeH : forall u, eigenframe N (cast (MassHiggs K u)) (fun p => nth p (fst (rsolver N (MassHiggs K u))) 0) (fun p a => RtoC (snd (rsolver N (MassHiggs K u)) a p)).
  Proof using SOLVE. intro u. apply (diag_frame N (cast (MassHiggs K u)) (fst (rsolver N (MassHiggs K u)), cast (snd (rsolver N (MassHiggs K u))))). exact (proj1 (SOLVE u)). Qed.
  Lemma rframeG : forall u, eigenframe (NGauge K) (cast (MassGauge K u)) (fun p => nth p (fst (rsolver (NGauge K) (MassGauge K u))) 0) (fun p a => RtoC (snd (rsolver (NGauge K) (MassGauge K u)) a p)).
  Proof using SOLVE. intro u. apply (diag_frame (NGauge K) (cast (MassGauge K u)) (fst (rsolver (NGauge K) (MassGauge K u)), cast (snd (rsolver (NGauge K) (MassGauge K u))))). exact (proj1 (proj2 (SOLVE u))). Qed.
  Lemma clip_mass : forall x, (x = 0 \/ 1 / 10000 < x) -> clip ZeroMass x = x.
  Proof using. intros x H. apply clip_ok. unfold ZeroMass. pose proof ten4. destruct H as [H|H]; [left; exact H|right; rewrite Rabs_right; lra]. Qed.
  Lemma frameH : eigenframe N (MH v) (mass2 sH) (Xr sH).
  Proof using SOLVE SYM GM PR.
    pose proof (rframeH v) as F. destruct GM as [MO _]. destruct (MO _ _ F) as [M1 _].
    eapply frame_ext; [| |exact F].
    - intros p P. cbn [sH higgs_sector mass2]. symmetry. apply clip_mass. apply M1. exact P.
    - intros p a P A. unfold Xr. cbn [sH higgs_sector rot]. unfold HiggsRotation. rewrite clip_ok; [reflexivity|]. apply PR; assumption.
  Qed.
  Lemma frameG : eigenframe (NGauge K) (MG v) (mass2 sG) (Xr sG).
  Proof using SOLVE SYM GM.
    pose proof (rframeG v) as F. destruct GM as [_ [MO _]]. destruct (MO _ _ F) as [M1 _].
    eapply frame_ext; [| |exact F].
    - intros p P. cbn [sG gauge_sector mass2]. symmetry. apply clip_mass. apply M1. exact P.
    - intros p a P A. reflexivity.
  Qed.
  Lemma real_part : forall z, Im z = 0 -> z = RtoC (Re z).
  Proof using. intros [x y] H. cbn in *. subst. reflexivity. Qed.
  Lemma frameQ : eigenframe (NQuarks K) (MQ v) (mass2 sQ) (Xr sQ).
  Proof using SOLVE SYM RF.
    eapply frame_ext; [| |apply (csolver_frame (NQuarks K) MQ SolQ v)]; [reflexivity|]. intros p a P A. unfold vecs, Xr. cbn [sQ quark_sector fermion_sector rot]. apply real_part. apply RF; assumption.
  Qed.
  Lemma frameL : eigenframe (NLepton K) (ML v) (mass2 sL) (Xr sL).
  Proof using SOLVE SYM RF.
    eapply frame_ext; [| |apply (csolver_frame (NLepton K) ML SolL v)]; [reflexivity|]. intros p a P A. unfold vecs, Xr. cbn [sL lepton_sector fermion_sector rot]. apply real_part. apply RF; assumption.
  Qed.
  Lemma HR_orth : forall l l', (l < N)%nat -> (l' < N)%nat -> rsum N (fun i => HR i l * HR i l') = kron l' l.
  Proof using SOLVE SYM GM PR.
    intros l l' L L'. destruct frameH as [_ [_ C]]. specialize (C l l' L L'). rewrite totalC_ok in C. unfold Xr in C.
    rewrite (csum_ext N _ (fun i => RtoC (HR i l * HR i l'))) in C by (intros i I; rewrite Cconj_R, RtoC_mult; reflexivity). rewrite csum_RtoC in C.
    pose proof (f_equal fst C) as E. cbn in E. rewrite E. unfold kron, delta. rewrite (Nat.eqb_sym l l'). destruct (Nat.eqb l' l); reflexivity.
  Qed.
  Lemma ok_massive : forall n M lam X, masses_ok n M -> eigenframe n M lam X -> (forall a, (a < n)%nat -> massive (lam a)) /\ (forall a b, (a < n)%nat -> (b < n)%nat -> apart (lam a) (lam b)).
  Proof using. intros n M lam X MO F. destruct (MO lam X F) as [A B]. split; [exact A|exact B]. Qed.
  Lemma ok_clear : forall n Mf, (forall u, diagonalises n (Mf u) (csolver n (Mf u))) -> masses_ok n (Mf v) -> clear_of n (evs n Mf) v.
  Proof using SOLVE.
    intros n Mf H MO p P. destruct (ok_massive n (Mf v) _ _ MO (csolver_frame n Mf H v)) as [A _]. pose proof CW_threshold_pos. destruct (A p P) as [Z|Z]; [rewrite Z, Rabs_R0; lra|rewrite Rabs_right; lra].
  Qed.
  Definition gradient (l : nat) (u : nat -> R) : R :=
    3 * grad scale C_CWcbGB (NGauge K) G3 (evs (NGauge K) MG) (vecs (NGauge K) MG) l u
    + 1 * grad scale C_CWcbHiggs N H3 (evs N MH) (vecs N MH) l u
    + (-6) * grad scale C_CWcbFermion (NQuarks K) Q3 (evs (NQuarks K) MQ) (vecs (NQuarks K) MQ) l u
    + (-2) * grad scale C_CWcbFermion (NLepton K) P3 (evs (NLepton K) ML) (vecs (NLepton K) ML) l u.
  Definition hessian (l m : nat) (u : nat -> R) : R :=
    3 * hess scale C_CWcbGB (NGauge K) G3 G4 (evs (NGauge K) MG) (vecs (NGauge K) MG) l m u
    + 1 * hess scale C_CWcbHiggs N H3 H4 (evs N MH) (vecs N MH) l m u
    + (-6) * hess scale C_CWcbFermion (NQuarks K) Q3 Q4 (evs (NQuarks K) MQ) (vecs (NQuarks K) MQ) l m u
    + (-2) * hess scale C_CWcbFermion (NLepton K) P3 P4 (evs (NLepton K) ML) (vecs (NLepton K) ML) l m u.
  Definition all_clear (u : nat -> R) : Prop :=
    clear_of N (evs N MH) u /\ clear_of (NGauge K) (evs (NGauge K) MG) u /\ clear_of (NQuarks K) (evs (NQuarks K) MQ) u /\ clear_of (NLepton K) (evs (NLepton K) ML) u.
  Lemma clear_v : all_clear v.
  Proof using SOLVE SYM GM.
    destruct GM as [A [B [C D]]]. split; [|split; [|split]].
    - apply (ok_clear N MH SolH A).
    - apply (ok_clear (NGauge K) MG SolG B).
    - apply (ok_clear (NQuarks K) MQ SolQ C).
    - apply (ok_clear (NLepton K) ML SolL D).
  Qed.
  Lemma dl_scal : forall a f x d, dl f x d -> dl (fun t => a * f t) x (a * d).
  Proof using. intros a f x d H. eapply dl_eq; [apply (dl_mult (fun _ => a) f); [apply dl_const|exact H]|ring]. Qed.
  Lemma potential_gradient : forall u l, (l < N)%nat -> smooth_along K u l -> all_clear u ->
    dl (fun t => V1LoopZero csolver K DH DG scale JIb JIf JNb JNf parwani (entry_set u l t)) (u l) (gradient l u).
  Proof using SOLVE SYM.
    intros u l L [SH [SG [SQ SL]]] [CH [CG [CQ CL]]]. eapply dl_ext; [intro t; symmetry; apply potential_sum|]. unfold gradient.
    apply dl_plus; [apply dl_plus; [apply dl_plus|]|]; apply dl_scal.
    - apply (grad_ok scale C_CWcbGB N (NGauge K) MG G3 (evs (NGauge K) MG) (vecs (NGauge K) MG) HermG (csolver_frame _ _ SolG) D3G u l L SG CG).
    - apply (grad_ok scale C_CWcbHiggs N N MH H3 (evs N MH) (vecs N MH) HermH (csolver_frame _ _ SolH) D3H u l L SH CH).
    - apply (grad_ok scale C_CWcbFermion N (NQuarks K) MQ Q3 (evs (NQuarks K) MQ) (vecs (NQuarks K) MQ) HermQ (csolver_frame _ _ SolQ) (D3F _ _ _) u l L SQ CQ).
    - apply (grad_ok scale C_CWcbFermion N (NLepton K) ML P3 (evs (NLepton K) ML) (vecs (NLepton K) ML) HermL (csolver_frame _ _ SolL) (D3F _ _ _) u l L SL CL).
  Qed.
  Lemma gradient_hessian : forall l m, (l < N)%nat -> (m < N)%nat -> smooth_along K v m ->
    dl (fun t => gradient l (entry_set v m t)) (v m) (hessian l m v).
  Proof using SOLVE SYM GM.
    intros l m L M [SH [SG [SQ SL]]]. destruct clear_v as [CH [CG [CQ CL]]]. unfold gradient, hessian.
    apply dl_plus; [apply dl_plus; [apply dl_plus|]|]; apply dl_scal.
    - apply (hess_ok scale C_CWcbGB N (NGauge K) MG G3 G4 (evs (NGauge K) MG) (vecs (NGauge K) MG) HermG (csolver_frame _ _ SolG) D3G D4G v l m L M SG CG).
    - apply (hess_ok scale C_CWcbHiggs N N MH H3 H4 (evs N MH) (vecs N MH) HermH (csolver_frame _ _ SolH) D3H D4H v l m L M SH CH).
    - apply (hess_ok scale C_CWcbFermion N (NQuarks K) MQ Q3 Q4 (evs (NQuarks K) MQ) (vecs (NQuarks K) MQ) HermQ (csolver_frame _ _ SolQ) (D3F _ _ _) ltac:(intros; apply D4F; assumption) v l m L M SQ CQ).
    - apply (hess_ok scale C_CWcbFermion N (NLepton K) ML P3 P4 (evs (NLepton K) ML) (vecs (NLepton K) ML) HermL (csolver_frame _ _ SolL) (D3F _ _ _) ltac:(intros; apply D4F; assumption) v l m L M SL CL).
  Qed.
  Lemma clear_around : forall m, smooth_along K v m -> exists d, 0 < d /\ forall s, Rabs (s - v m) < d -> all_clear (entry_set v m s).
  Proof using SOLVE SYM GM.
    intros m [SH [SG [SQ SL]]]. destruct clear_v as [CH [CG [CQ CL]]].
    destruct (clear_near N MH (evs N MH) (vecs N MH) HermH (csolver_frame _ _ SolH) v m SH CH) as [d1 [D1 E1]].
    destruct (clear_near (NGauge K) MG (evs (NGauge K) MG) (vecs (NGauge K) MG) HermG (csolver_frame _ _ SolG) v m SG CG) as [d2 [D2 E2]].
    destruct (clear_near (NQuarks K) MQ (evs (NQuarks K) MQ) (vecs (NQuarks K) MQ) HermQ (csolver_frame _ _ SolQ) v m SQ CQ) as [d3 [D3 E3]].
    destruct (clear_near (NLepton K) ML (evs (NLepton K) ML) (vecs (NLepton K) ML) HermL (csolver_frame _ _ SolL) v m SL CL) as [d4 [D4 E4]].
    exists (Rmin (Rmin d1 d2) (Rmin d3 d4)). pose proof (Rmin_l (Rmin d1 d2) (Rmin d3 d4)). pose proof (Rmin_r (Rmin d1 d2) (Rmin d3 d4)). pose proof (Rmin_l d1 d2). pose proof (Rmin_r d1 d2). pose proof (Rmin_l d3 d4). pose proof (Rmin_r d3 d4).
    split; [repeat apply Rmin_glb_lt; assumption|]. intros s S. split; [apply E1; lra|split; [apply E2; lra|split; [apply E3; lra|apply E4; lra]]].
  Qed.
  Lemma first_is_gradient : forall l, (l < N)%nat -> FirstDeriv N HR scale (physical rsolver csolver K v) l = gradient l v.
  Proof using SOLVE S0 SYM GM PR RF.
    intros l L. rewrite (FirstDeriv_back N HR scale (physical rsolver csolver K v) HR_orth l L). unfold physical. fold sG sH sQ sL. rewrite !parts_cons, parts_nil.
    destruct GM as [MH0 [MG0 [MQ0 ML0]]].
    rewrite (grad_link scale (NGauge K) MG G3 (evs (NGauge K) MG) (vecs (NGauge K) MG) v sG S0 HermG (csolver_frame _ _ SolG) eq_refl ltac:(reflexivity) frameG (proj1 (ok_massive _ _ _ _ MG0 frameG)) l).
    rewrite (grad_link scale N MH H3 (evs N MH) (vecs N MH) v sH S0 HermH (csolver_frame _ _ SolH) eq_refl ltac:(reflexivity) frameH (proj1 (ok_massive _ _ _ _ MH0 frameH)) l).
    rewrite (grad_link scale (NQuarks K) MQ Q3 (evs (NQuarks K) MQ) (vecs (NQuarks K) MQ) v sQ S0 HermQ (csolver_frame _ _ SolQ) eq_refl ltac:(reflexivity) frameQ (proj1 (ok_massive _ _ _ _ MQ0 frameQ)) l).
    rewrite (grad_link scale (NLepton K) ML P3 (evs (NLepton K) ML) (vecs (NLepton K) ML) v sL S0 HermL (csolver_frame _ _ SolL) eq_refl ltac:(reflexivity) frameL (proj1 (ok_massive _ _ _ _ ML0 frameL)) l).
    unfold gradient. cbn [sG sH sQ sL gauge_sector higgs_sector quark_sector lepton_sector fermion_sector factor cwconst]. field.
  Qed.
  Lemma second_is_hessian : forall l m, (l < N)%nat -> (m < N)%nat -> smooth_along K v m -> (forall u, never_negative (NGauge K) (cast (MassGauge K u))) ->
    exact2 scale (physical rsolver csolver K v) l m = hessian l m v.
  Proof using SOLVE S0 SYM GM PR RF.
    intros l m L M [SH [SG [SQ SL]]] NN. unfold exact2, physical. fold sG sH sQ sL. rewrite !parts_cons, parts_nil.
    destruct GM as [MH0 [MG0 [MQ0 ML0]]].
    pose proof (ok_massive _ _ _ _ MG0 frameG) as [AG BG]. pose proof (ok_massive _ _ _ _ MH0 frameH) as [AH BH]. pose proof (ok_massive _ _ _ _ MQ0 frameQ) as [AQ BQ]. pose proof (ok_massive _ _ _ _ ML0 frameL) as [AL BL].
    assert (RG : forall u, eigenframe (NGauge K) (MG u) (fun p => nth p (fst (rsolver (NGauge K) (MassGauge K u))) 0) (fun p a => RtoC (snd (rsolver (NGauge K) (MassGauge K u)) a p))) by (intro u; apply (rframeG u)).
    assert (DEC : forall a b, (a < NGauge K)%nat -> (b < NGauge K)%nat -> mass2 sG a = 0 -> mass2 sG b = 0 -> e3 sG m b a = RtoC 0).
    { intros a b A B Za Zb.
      assert (UC : forall p, (p < NGauge K)%nat -> mass2 sG p = nth p (fst (rsolver (NGauge K) (MassGauge K v))) 0) by (intros p P; cbn [sG gauge_sector mass2]; apply clip_mass; destruct (MG0 _ _ (RG v)) as [U _]; apply (U p P)).
      rewrite (UC a A) in Za. rewrite (UC b B) in Zb.
      apply (massless_decouple N (NGauge K) MG G3 (fun u p => nth p (fst (rsolver (NGauge K) (MassGauge K u))) 0) (fun u p a => RtoC (snd (rsolver (NGauge K) (MassGauge K u)) a p)) HermG RG D3G v m a b M SG ltac:(intros u r Hr; apply (NN u _ _ (RG u) r Hr)) A B Za Zb). }
    rewrite (hess_link scale (NGauge K) MG G3 G4 (evs (NGauge K) MG) (vecs (NGauge K) MG) v sG S0 HermG (csolver_frame _ _ SolG) eq_refl ltac:(reflexivity) ltac:(reflexivity) frameG AG BG l m (or_intror DEC)).
    rewrite (hess_link scale N MH H3 H4 (evs N MH) (vecs N MH) v sH S0 HermH (csolver_frame _ _ SolH) eq_refl ltac:(reflexivity) ltac:(reflexivity) frameH AH BH l m (or_introl eq_refl)).
    rewrite (hess_link scale (NQuarks K) MQ Q3 Q4 (evs (NQuarks K) MQ) (vecs (NQuarks K) MQ) v sQ S0 HermQ (csolver_frame _ _ SolQ) eq_refl ltac:(reflexivity) ltac:(reflexivity) frameQ AQ BQ l m (or_introl eq_refl)).
    rewrite (hess_link scale (NLepton K) ML P3 P4 (evs (NLepton K) ML) (vecs (NLepton K) ML) v sL S0 HermL (csolver_frame _ _ SolL) eq_refl ltac:(reflexivity) ltac:(reflexivity) frameL AL BL l m (or_introl eq_refl)).
    unfold hessian. cbn [sG sH sQ sL gauge_sector higgs_sector quark_sector lepton_sector fermion_sector factor cwconst]. field.
  Qed.
  Lemma exact2_symmetric : forall l m, exact2 scale (physical rsolver csolver K v) l m = exact2 scale (physical rsolver csolver K v) m l.
  Proof using SOLVE SYM GM PR RF.
    intros l m. unfold exact2, physical. fold sG sH sQ sL. rewrite !parts_cons, !parts_nil. destruct GM as [MH0 [MG0 [MQ0 ML0]]].
    pose proof (ok_massive _ _ _ _ MG0 frameG) as [AG BG]. pose proof (ok_massive _ _ _ _ MH0 frameH) as [AH BH]. pose proof (ok_massive _ _ _ _ MQ0 frameQ) as [AQ BQ]. pose proof (ok_massive _ _ _ _ ML0 frameL) as [AL BL].
    destruct SYM as [_ [_ [_ [Y4 [_ [YG _]]]]]].
    rewrite (rotated2_sym scale (NGauge K) G4 sG eq_refl ltac:(reflexivity) BG l m) by (intros a b; unfold G4; rewrite YG; reflexivity).
    rewrite (rotated2_sym scale N H4 sH eq_refl ltac:(reflexivity) BH l m) by (intros a b; unfold H4; rewrite Y4; reflexivity).
    rewrite (rotated2_sym scale (NQuarks K) Q4 sQ eq_refl ltac:(reflexivity) BQ l m) by (intros a b; unfold Q4, fermion4; apply csum_ext; intros i I; ring).
    rewrite (rotated2_sym scale (NLepton K) P4 sL eq_refl ltac:(reflexivity) BL l m) by (intros a b; unfold P4, fermion4; apply csum_ext; intros i I; ring).
    reflexivity.
  Qed.
  Lemma no_tachyon : tachyon (physical rsolver csolver K v) = false.
  Proof using SOLVE SYM GM PR RF.
    destruct GM as [MH0 [MG0 [MQ0 ML0]]].
    pose proof (ok_massive _ _ _ _ MG0 frameG) as [AG BG]. pose proof (ok_massive _ _ _ _ MH0 frameH) as [AH BH]. pose proof (ok_massive _ _ _ _ MQ0 frameQ) as [AQ BQ]. pose proof (ok_massive _ _ _ _ ML0 frameL) as [AL BL].
    assert (T : forall s n, size s = n -> (forall a, (a < n)%nat -> massive (mass2 s a)) -> existsb (fun a => if Rlt_dec (mass2 s a) 0 then true else false) (seq 0 (size s)) = false).
    { intros s n SZ A. rewrite SZ. destruct (existsb _ _) eqn:E; [|reflexivity]. exfalso. apply existsb_exists in E. destruct E as [a [I B]]. apply in_seq in I. pose proof CW_threshold_pos.
      destruct (A a ltac:(lia)) as [Z|Z]; destruct (Rlt_dec (mass2 s a) 0); try discriminate; lra. }
    unfold tachyon, physical. fold sG sH sQ sL. cbn [existsb]. rewrite (T sG _ eq_refl AG), (T sH _ eq_refl AH), (T sQ _ eq_refl AQ), (T sL _ eq_refl AL). reflexivity.
  Qed.
  (** * results *)
  Lemma first_result : forall l, (l < N)%nat -> smooth_along K v l ->
    exists r d, FirstDerivative rsolver csolver K v scale true = Ok (Some r) /\ length r = N /\
      derivable_pt_lim (fun t => V1LoopZero csolver K DH DG scale JIb JIf JNb JNf parwani (entry_set v l t)) (v l) d /\ cut_at_zero d (nth l r 0).
  Proof using SOLVE S0 SYM GM PR RF.
    intros l L S. exists (map (fun l => clip NumZero (FirstDeriv N HR scale (physical rsolver csolver K v) l)) (seq 0 N)), (gradient l v). split; [|split; [|split]].
    - unfold FirstDerivative, WeinbergFirstDerivative. rewrite no_tachyon. reflexivity.
    - rewrite map_length, seq_length. reflexivity.
    - apply potential_gradient; [exact L|exact S|exact clear_v].
    - rewrite (nth_indep _ 0 (clip NumZero (FirstDeriv N HR scale (physical rsolver csolver K v) 0%nat))) by (rewrite map_length, seq_length; exact L).
      rewrite (map_nth (fun l => clip NumZero (FirstDeriv N HR scale (physical rsolver csolver K v) l))), seq_nth by exact L. cbn [Nat.add]. rewrite (first_is_gradient l L).
      unfold cut_at_zero, clip, NumZero. destruct (Rlt_dec (Rabs (gradient l v)) (/ 10 ^ 10)); [left; split; [assumption|reflexivity]|right; split; [lra|reflexivity]].
  Qed.
  Lemma second_result : forall l m dV eps, (l < N)%nat -> (m < N)%nat -> smooth_along K v m -> 0 < eps -> (forall s, Rabs (s - v m) < eps -> smooth_along K (entry_set v m s) l) ->
    (forall u, never_negative (NGauge K) (cast (MassGauge K u))) ->
    (forall s, Rabs (s - v m) < eps -> derivable_pt_lim (fun t => V1LoopZero csolver K DH DG scale JIb JIf JNb JNf parwani (entry_set (entry_set v m s) l t)) (entry_set v m s l) (dV s)) ->
    exists H h, SecondDerivative rsolver csolver K v scale true = Ok (Some H) /\ derivable_pt_lim dV (v m) h /\
      Rabs (H l m - h) <= (1 + INR N * INR N) * / 10 ^ 10.
  Proof using SOLVE S0 SYM GM PR RF.
    intros l m dV eps L M S E0 SS NN DV. exists (SecondDeriv N HR scale (physical rsolver csolver K v)), (hessian l m v). split; [|split].
    - unfold SecondDerivative, WeinbergSecondDerivativeAsMatrix. rewrite no_tachyon. reflexivity.
    - destruct (clear_around m S) as [d [D0 DC]]. eapply dl_ext_loc with (eps0 := Rmin d eps) (f := fun t => gradient l (entry_set v m t)); [apply Rmin_glb_lt; assumption| |apply gradient_hessian; assumption].
      intros s Hs. pose proof (Rmin_l d eps). pose proof (Rmin_r d eps). apply (uniqueness_limite _ _ _ _ (potential_gradient (entry_set v m s) l L (SS s ltac:(lra)) (DC s ltac:(lra))) (DV s ltac:(lra))).
    - rewrite <- (second_is_hessian l m L M S NN). apply (second_error N HR scale (physical rsolver csolver K v) HR_orth l m L M (exact2_symmetric l m)).
  Qed.
  Lemma derivative_exists : forall l m, (l < N)%nat -> smooth_along K v m -> (forall s, smooth_along K (entry_set v m s) l) ->
    exists dV eps, 0 < eps /\ forall s, Rabs (s - v m) < eps -> derivable_pt_lim (fun t => V1LoopZero csolver K DH DG scale JIb JIf JNb JNf parwani (entry_set (entry_set v m s) l t)) (entry_set v m s l) (dV s).
  Proof using SOLVE SYM GM.
    intros l m L S SS. destruct (clear_around m S) as [d [D0 DC]]. exists (fun s => gradient l (entry_set v m s)), d. split; [exact D0|]. intros s Hs. apply potential_gradient; [exact L|apply SS|apply DC; exact Hs].
  Qed.
End Run.
