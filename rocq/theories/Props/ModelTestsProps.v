(** C136: the checks of an implemented model. *)
From Coq Require Import Reals Lra Lia List ZArith Permutation Sorted.
From Verif Require Import Model.ModelTests Spec.ModelTestsSpec Proofs.ModelTestsProofs.
Import ListNotations.
Local Open Scope R_scope.

(** the symmetry tests pass exactly for symmetric tensors of equal dimensions, and never throw *)
Theorem C136_scalar2 : forall t, (CheckSymmetricTensorScalarSecond t = Pass <-> symmetric2 t) /\ CheckSymmetricTensorScalarSecond t <> Throw.
Proof. exact second_correct. Qed.
Theorem C136_scalar3 : forall t, (CheckSymmetricTensorScalarThird t = Pass <-> symmetric3 t) /\ CheckSymmetricTensorScalarThird t <> Throw.
Proof. exact third_correct. Qed.
Theorem C136_scalar4 : forall t, (CheckSymmetricTensorScalarFourth t = Pass <-> symmetric4 t) /\ CheckSymmetricTensorScalarFourth t <> Throw.
Proof. exact fourth_correct. Qed.
Theorem C136_gauge : forall t, (CheckSymmetricTensorGauge t = Pass <-> t = [] \/ exists h, (0 < h)%nat /\ gauge4 h t) /\ CheckSymmetricTensorGauge t <> Throw.
Proof. exact gauge_correct. Qed.
Theorem C136_fermions : forall t, (CheckSymmetricTensorLeptons t = Pass <-> fermions2 t) /\ CheckSymmetricTensorLeptons t <> Throw.
Proof. exact leptons_correct. Qed.
(** the test of the Yukawa couplings does so if the number of scalars is the same everywhere, which it does not look at *)
Theorem C136_yukawa_partial : forall t h, cube (length t) (length t) h t -> (CheckSymmetricTensorLeptonsThird t = Pass <-> fermions3 h t) /\ CheckSymmetricTensorLeptonsThird t <> Throw.
Proof. exact leptons3_correct. Qed.
Theorem C136_yukawa_refuted : exists t, (forall r, In r t -> length r = length t) /\ CheckSymmetricTensorLeptonsThird t = Pass /\ ~ csame (entry3 t 0 1 1) (entry3 t 1 0 1).
Proof. exact ragged_passes. Qed.
(** labels of the triple couplings: three for each unordered triple of scalars *)
Theorem C136_labels : forall n labels, CheckNumberOfTripleCouplings n labels = Pass <-> (2 * labels = n * (n + 1) * (n + 2))%nat.
Proof. exact triple_labels. Qed.

(** masses of the gauge bosons *)
Theorem C136_gauge_masses : forall mW mZ c, 0 < mW <= mZ -> CheckGaugeBosonMasses mW mZ (map Some c) = Pass <->
  exists photon w1 w2 z, c = [photon; w1; w2; z] /\ Rabs photon + Rabs (w1 - mW ^ 2) / mW ^ 2 + Rabs (w2 - mW ^ 2) / mW ^ 2 + Rabs (z - mZ ^ 2) / mZ ^ 2 <= 1 / 10 ^ 5.
Proof. exact gauge_masses. Qed.
(** masses of the quarks, if there are as many as in the input; more of them end in an exception *)
Theorem C136_quarks_partial : forall NLepton leptons quarks, exists input,
  StronglySorted Rle input /\ Permutation input (map (fun m => m ^ 2) (quarks ++ quarks) ++ if Nat.eqb NLepton 0 then [0; 0; 0] ++ map (fun m => m ^ 2) (leptons ++ leptons) else []) /\
  (forall c, length c = length input -> CheckQuarkMasses NLepton leptons quarks (map Some c) = Pass -> within (1 / 10 ^ 5) (map Some c) input) /\
  CheckQuarkMasses NLepton leptons quarks (map Some input) = Pass /\
  forall c, (length input < length c)%nat -> CheckQuarkMasses NLepton leptons quarks c = Throw.
Proof. exact quark_masses. Qed.
(** a model without quarks passes *)
Theorem C136_quarks_refuted : exists quarks, quarks = [2 / 1000; 127 / 100; 1725 / 10; 5 / 1000; 95 / 1000; 418 / 100] /\ forall NLepton leptons, CheckQuarkMasses NLepton leptons quarks [] = Pass.
Proof. exact no_quarks. Qed.
(** masses of the leptons: within the bound, and missing ones are noticed unless they are light *)
Theorem C136_leptons_partial : forall NLepton leptons, (0 < NLepton)%nat -> exists input,
  StronglySorted Rle input /\ Permutation input ([0; 0; 0] ++ map (fun m => m ^ 2) (leptons ++ leptons)) /\
  (forall c, length c = length input -> CheckLeptonMasses NLepton leptons (map Some c) = Pass -> within (1 / 10 ^ 5) (map Some c) input) /\
  (forall c x, (length c < length input)%nat -> CheckLeptonMasses NLepton leptons (map Some c) = Pass -> In x (skipn (length c) input) -> x <= 1 / 10 ^ 5) /\
  CheckLeptonMasses NLepton leptons (map Some input) = Pass.
Proof. exact lepton_masses. Qed.
(** the bound is larger than the squared mass of the electron, so a massless electron passes *)
Theorem C136_electron_refuted : exists e mu tau, 0 < e /\ e = 511 / 10 ^ 6 /\ CheckLeptonMasses 9 [e; mu; tau] (map Some [0; 0; 0; 0; 0; mu ^ 2; mu ^ 2; tau ^ 2; tau ^ 2]) = Pass.
Proof. exact massless_electron. Qed.
(** the vacuum is compared up to signs of its components *)
Theorem C136_vacuum_partial : forall given c, length c = length given -> CheckTreeLevelMin given (map Some c) = Pass ->
  forall i, (i < length given)%nat -> Rabs (Rabs (nth i c 0) - Rabs (nth i given 0)) <= 1 / 2.
Proof. exact vacuum_compared. Qed.
Theorem C136_vacuum_refuted : exists v w, CheckTreeLevelMin [v; w] [Some v; Some (- w)] = Pass /\ 100 <= Rabs (w - - w).
Proof. exact other_sign. Qed.
(** derivatives that are numbers *)
Theorem C136_tadpoles_partial : forall c, CheckTadpoleRelations (map Some c) = Pass -> forall x, In x c -> Rabs x <= 1 / 10 ^ 5.
Proof. exact tadpoles_compared. Qed.
Theorem C136_counterterms_partial : forall l, CheckCTConditions (map (fun '(a, b) => (Some a, Some b)) l) = Pass <-> forall a b, In (a, b) l -> Rabs (a + b) <= 1 / 10 ^ 5.
Proof. exact conditions_iff. Qed.
(** NaN passes *)
Theorem C136_nan_refuted : (forall l, In None l -> CheckTadpoleRelations l = Pass) /\ (forall l, (forall p, In p l -> fst p = None) -> CheckCTConditions l = Pass) /\
  (forall l, In (None, None) l \/ (exists t, In (None, t) l) -> CheckVTreeSimplified l = Pass /\ CheckVCounterSimplified l = Pass).
Proof. exact (conj tadpoles_nan (conj conditions_nan simplified_nan)). Qed.
(** the simplified potential *)
Theorem C136_simplified_partial : forall l, (forall s t, In (s, t) l -> s <> 0 \/ t <> 0) -> CheckVTreeSimplified (map (fun '(a, b) => (Some a, Some b)) l) = Pass ->
  forall s t, In (s, t) l -> Rabs (t - s) <= (Rabs t + Rabs s) / 10 ^ 5.
Proof. exact simplified_compared. Qed.
(** a simplified counterterm potential that is wrong by a fifth everywhere passes *)
Theorem C136_counter_refuted : forall l, length l = 10%nat -> (forall t, In t l -> t <> 0) -> CheckVCounterSimplified (map (fun t => (Some (6 / 5 * t), Some t)) l) = Pass.
Proof. exact counter_wrong. Qed.
(** the sum of the relative deviations is compared with 1: one value of the opposite sign passes, several do not *)
Theorem C136_counter_opposite : forall l, (forall t, In t l -> t <> 0) -> CheckVCounterSimplified (map (fun t => (Some (- t), Some t)) l) = Pass <-> (length l <= 1)%nat.
Proof. exact counter_opposite. Qed.
(** masses at one loop; the sign of the squared mass is ignored *)
Theorem C136_masses_partial : forall l, CheckNLOMasses (map (fun '(a, b) => (Some a, Some b)) l) = Pass -> forall tree nlo, In (tree, nlo) l ->
  1 / 10 ^ 5 <= Rabs tree -> 1 / 10 ^ 5 <= Rabs nlo -> Rabs (Rabs nlo - tree) <= Rmax (Rabs nlo) (Rabs tree) / 2.
Proof. exact higgs_masses. Qed.
(** one mass passes exactly if it changes by at most half of the larger value *)
Theorem C136_one_mass_partial : forall tree nlo, 1 / 10 ^ 5 <= tree -> 1 / 10 ^ 5 <= nlo ->
  CheckNLOMasses [(Some tree, Some nlo)] = Pass <-> Rabs (nlo - tree) <= Rmax tree nlo / 2.
Proof. exact one_mass. Qed.
Theorem C136_tachyon_refuted : forall m, 1 / 10 ^ 5 < m -> CheckNLOMasses [(Some m, Some (- m))] = Pass.
Proof. exact tachyon. Qed.

(** "You're good to go!" if and only if all tests passed *)
Theorem C136_report : forall p passes n good, CheckImplementation p = Some (passes, n, good) -> n = length (tests p) /\ (passes <= n)%nat /\ (good = true <-> forall o, In o (tests p) -> o = Pass).
Proof. exact report. Qed.
(** a model without quarks, with NaN derivatives, a vacuum of another sign, a negative squared mass and a wrong counterterm potential is good to go *)
Theorem C136_good_refuted : exists p, CheckImplementation p = Some (23%nat, 23%nat, true) /\ quarkMasses p = [] /\ quarks p <> [] /\ tadpoles p = [None] /\
  (exists m, In (Some m, Some (- m)) (higgsMasses p) /\ 0 < m) /\ vacuum p = [100; 200] /\ minimum p = [Some 100; Some (- 200)] /\
  (forall s t, In (s, t) (VCounter p) -> exists x, t = Some x /\ s = Some (6 / 5 * x)).
Proof.
  exists wrong. split; [exact good_to_go|]. split; [reflexivity|]. split; [discriminate|]. split; [reflexivity|]. split; [exists (125 ^ 2); split; [left; reflexivity|lra]|].
  split; [reflexivity|]. split; [reflexivity|]. intros s t I. cbn [VCounter wrong] in I. apply in_map_iff in I. destruct I as (x & E & _). exists x. inversion E. split; reflexivity.
Qed.
(** the program checks the point of the line, once *)
Theorem C136_program_partial : forall (L : Type) (read : L -> point) Line lines d, (2 <= Line <= Z.of_nat (length lines))%Z ->
  let p := read (nth (Z.to_nat (Line - 1)) lines d) in
  test_main read Line lines = (match CheckImplementation p with None => false | _ => true end, [(p, CheckImplementation p)]).
Proof. exact @program. Qed.
(** lines before the first are refused *)
Theorem C136_line_refused : forall (L : Type) (read : L -> point) Line lines, (Line < 1)%Z -> test_main read Line lines = (false, []).
Proof. exact @line_refused. Qed.
(** it succeeds without a check for the first line and for lines after the end *)
Theorem C136_nothing_refuted : forall (L : Type) (read : L -> point) Line lines, (Line = 1 \/ Z.of_nat (length lines) < Line)%Z -> test_main read Line lines = (true, []).
Proof. exact @nothing. Qed.
(** it succeeds for a model that fails *)
Theorem C136_status_refuted : exists p passes n, CheckImplementation p = Some (passes, n, false) /\ (passes < n)%nat /\ test_main (fun _ : unit => p) 2 [tt; tt] = (true, [(p, Some (passes, n, false))]).
Proof. exact failing_success. Qed.

(** a symmetric matrix passes and another one does not *)
Example C136_nonvacuous_tensors : CheckSymmetricTensorScalarSecond [[Some 1; Some 2]; [Some 2; Some 3]] = Pass /\ CheckSymmetricTensorScalarSecond [[Some 1; Some 2]; [Some 4; Some 3]] = Fail /\
  CheckSymmetricTensorScalarSecond [[Some 1; None]; [None; Some 3]] = Fail /\ CheckSymmetricTensorScalarSecond [[Some 1; Some 2]] = Fail /\ CheckNumberOfTripleCouplings 4 60 = Pass.
Proof.
  cbn. unfold loop, compare, verdict. cbn [seq fold_right Nat.ltb Nat.leb at2 nth_error at1 neqb].
  destruct (Req_EM_T 1 1) as [_|N]; [|lra]. destruct (Req_EM_T 2 2) as [_|N]; [|lra]. destruct (Req_EM_T 3 3) as [_|N]; [|lra]. destruct (Req_EM_T 2 4) as [N|_]; [lra|]. repeat split; reflexivity.
Qed.
(** masses close to the ones of the input *)
Example C136_nonvacuous_masses : CheckGaugeBosonMasses 80 91 (map Some [0; 80 ^ 2; 80 ^ 2; 91 ^ 2]) = Pass /\ CheckGaugeBosonMasses 80 91 (map Some [0; 80 ^ 2; 80 ^ 2; 92 ^ 2]) <> Pass /\
  cube 2 2 1 [[[(Some 0, Some 0)]; [(Some 1, Some 0)]]; [[(Some 1, Some 0)]; [(Some 0, Some 0)]]] /\ (forall s t, In (s, t) [(1, 1); (0, 2)] -> s <> 0 \/ t <> 0).
Proof.
  split; [|split; [|split]].
  - apply gauge_masses; [lra|]. exists 0, (80 ^ 2), (80 ^ 2), (91 ^ 2). split; [reflexivity|]. rewrite !Rminus_diag_eq, Rabs_R0 by reflexivity. lra.
  - intros H. apply gauge_masses in H; [|lra]. destruct H as (p & w1 & w2 & z & E & H). injection E as E1 E2 E3 E4. assert (Z : z - 91 ^ 2 = 183) by lra. rewrite Z, (Rabs_right 183) in H by lra.
    pose proof (Rabs_pos p). pose proof (Rabs_pos (w1 - 80 ^ 2)). pose proof (Rabs_pos (w2 - 80 ^ 2)). lra.
  - split; [reflexivity|]. intros r [<-|[<-|[]]]; (split; [reflexivity|]; intros q [<-|[<-|[]]]; reflexivity).
  - intros s t [E|[E|[]]]; inversion E; subst; [left|right]; lra.
Qed.

Print Assumptions C136_scalar2.
Print Assumptions C136_scalar3.
Print Assumptions C136_scalar4.
Print Assumptions C136_gauge.
Print Assumptions C136_fermions.
Print Assumptions C136_yukawa_partial.
Print Assumptions C136_yukawa_refuted.
Print Assumptions C136_labels.
Print Assumptions C136_gauge_masses.
Print Assumptions C136_quarks_partial.
Print Assumptions C136_quarks_refuted.
Print Assumptions C136_leptons_partial.
Print Assumptions C136_electron_refuted.
Print Assumptions C136_vacuum_partial.
Print Assumptions C136_vacuum_refuted.
Print Assumptions C136_tadpoles_partial.
Print Assumptions C136_counterterms_partial.
Print Assumptions C136_nan_refuted.
Print Assumptions C136_simplified_partial.
Print Assumptions C136_counter_refuted.
Print Assumptions C136_masses_partial.
Print Assumptions C136_tachyon_refuted.
Print Assumptions C136_report.
Print Assumptions C136_good_refuted.
Print Assumptions C136_program_partial.
Print Assumptions C136_nothing_refuted.
Print Assumptions C136_status_refuted.
Print Assumptions C136_one_mass_partial.
Print Assumptions C136_line_refused.
Print Assumptions C136_counter_opposite.
