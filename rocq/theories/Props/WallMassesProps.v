(** C146: masses of the heavy fermions along the wall; C147: the statistical factor of the transport equations. *)
From Coq Require Import Reals List Arith Lra Lia.
From Coquelicot Require Import Coquelicot.
From Verif Require Import Model.WallMasses Spec.WallMassesSpec Proofs.WallMassesProofs Proofs.StatFactorProofs.
Import ListNotations.
Open Scope R_scope.

Theorem C146_quarks : forall query nf M D LW vc, LW <> 0 -> vc <> [] -> (3 <= nf)%nat -> mass_query query nf M D vc ->
  exists mt dt mb db, (forall z, top_func query nf LW vc z = Some ([mt z; mb z], [dt z; db z])) /\
    mass_on_wall (fun z => M (fields LW vc z) (nf - 1)%nat) mt dt /\ mass_on_wall (fun z => M (fields LW vc z) (nf - 3)%nat) mb db.
Proof. exact (fun query nf M D LW vc N V B Q => top_ok query nf M D LW vc N V Q B). Qed.
Print Assumptions C146_quarks.

Theorem C146_tau : forall query nf M D LW vc, LW <> 0 -> vc <> [] -> (1 <= nf)%nat -> mass_query query nf M D vc ->
  exists m d, (forall z, tau_func query nf LW vc z = Some ([m z], [d z])) /\ mass_on_wall (fun z => M (fields LW vc z) (nf - 1)%nat) m d.
Proof. exact (fun query nf M D LW vc N V B Q => tau_ok query nf M D LW vc N V Q B). Qed.
Print Assumptions C146_tau.

Theorem C146_kink : forall query nf M D LW vc, LW <> 0 -> vc <> [] -> (1 <= nf)%nat -> mass_query query nf M D vc ->
  (forall s, M (times s vc) (nf - 1)%nat = s ^ 2 * M vc (nf - 1)%nat) ->
  forall z, exists d, tau_func query nf LW vc z = Some ([sqrt (M vc (nf - 1)%nat) / (1 + exp (2 * z / LW))], [d]).
Proof. exact (fun query nf M D LW vc N V B Q => tau_kink query nf M D LW vc N V Q B). Qed.
Print Assumptions C146_kink.

(** two fields, four states; the squared mass of state k is k times the squared length of the fields *)
Definition sample_M (phi : list R) (k : nat) : R := INR k * dot phi phi.
Definition sample_D (phi : list R) (i k : nat) : R := 2 * INR k * nth (i - 1) phi 0.
Definition sample_query (phi : list R) (i : nat) : list R := map (sample_M phi) (seq 0 4) ++ map (sample_D phi i) (seq 0 4).
Example C146_nonvacuous : mass_query sample_query 4 sample_M sample_D [100; 200] /\
  (forall s, sample_M (times s [100; 200]) 3 = s ^ 2 * sample_M [100; 200] 3) /\ fields 1 [100; 200] 0 = [50; 100].
Proof.
  split; [|split].
  - constructor.
    + reflexivity.
    + intros phi k _. unfold sample_M. apply Rmult_le_pos; [apply pos_INR|]. induction phi as [|x phi IH]; cbn; [lra|]. pose proof (Rle_0_sqr x). unfold Rsqr in *. lra.
    + intros s k _. unfold sample_M, sample_D, times. cbn [map dot nth Nat.sub seq length]. auto_derive; [exact I|]. ring.
  - intros s. unfold sample_M, times. cbn [map dot]. ring.
  - unfold fields. cbn [map]. replace (2 * 0 / 1) with 0 by field. rewrite exp_0. f_equal; [lra|]. f_equal. lra.
Qed.

(** ** C147 *)
Theorem C147_integral : forall T m, 0 < T -> 0 <= m -> m / T + / 100000 < 300 ->
  is_RInt (fun x => 6 / PI ^ 2 * x * sqrt (x ^ 2 - (m / T) ^ 2) * (exp x / (exp x + 1) ^ 2)) (m / T + / 100000) 300 (NIntegrate_kappa T m).
Proof. exact kappa_integral. Qed.
Print Assumptions C147_integral.

Theorem C147_positive : forall T m, 0 < T -> 0 <= m -> 0 <= NIntegrate_kappa T m /\ (0 < NIntegrate_kappa T m <-> m / T + / 100000 < 300).
Proof. exact kappa_positive. Qed.
Print Assumptions C147_positive.

Theorem C147_decreasing : forall T m m', 0 < T -> 0 <= m -> m < m' -> m / T + / 100000 < 300 -> NIntegrate_kappa T m' < NIntegrate_kappa T m.
Proof. exact kappa_decreasing. Qed.
Print Assumptions C147_decreasing.

Theorem C147_suppressed : forall T m, 0 < T -> 0 <= m -> NIntegrate_kappa T m <= 6 / PI ^ 2 * ((m / T) ^ 2 + 2 * (m / T) + 2) * exp (- (m / T)).
Proof. exact kappa_suppressed. Qed.
Print Assumptions C147_suppressed.

Example C147_nonvacuous : 0 / 100 + / 100000 < 300 /\ 170 / 100 + / 100000 < 300 /\ NIntegrate_kappa 100 170 < NIntegrate_kappa 100 0 /\ NIntegrate_kappa (1 / 10) 170 = 0.
Proof.
  split; [lra|]. split; [lra|]. split; [apply C147_decreasing; lra|]. pose proof (C147_positive (1 / 10) 170 ltac:(lra) ltac:(lra)) as [A B].
  destruct (Req_dec (NIntegrate_kappa (1 / 10) 170) 0) as [E|E]; [exact E|]. assert (170 / (1 / 10) + / 100000 < 300) by (apply B; lra). lra.
Qed.
