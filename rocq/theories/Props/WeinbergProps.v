(** C121: physical couplings and the derivatives of the one-loop potential computed from them. *)
From Coq Require Import Reals List Lra Lia ZArith.
From Coquelicot Require Import Coquelicot.
From Verif Require Import Model.Base Model.Weinberg Model.EigenDeriv Spec.EigenSpec Spec.WeinbergSpec Proofs.WeinbergRun Proofs.WeinbergExamples Proofs.EigenExamples.
Import ListNotations.
Open Scope R_scope.

(** Before the couplings have been calculated an error is reported. *)
Theorem C121_needs_couplings : forall rsolver csolver K v scale,
  FirstDerivative rsolver csolver K v scale false = Throw RuntimeError /\
  SecondDerivative rsolver csolver K v scale false = Throw RuntimeError.
Proof. intros. split; reflexivity. Qed.

(** A negative squared mass of a scalar, which the one-loop potential itself accepts, makes both results NaN. *)
Theorem C121_tachyon : forall rsolver csolver K v scale p, (p < NHiggs K)%nat ->
  nth p (fst (rsolver (NHiggs K) (MassHiggs K v))) 0 <= - / 10 ^ 5 ->
  FirstDerivative rsolver csolver K v scale true = Ok None /\ SecondDerivative rsolver csolver K v scale true = Ok None.
Proof. exact tachyon_nan. Qed.
Example C121_nonvacuous_tachyon : nth 0 (fst (rsolver1 (NHiggs single) (MassHiggs single (fun _ => 0)))) 0 <= - / 10 ^ 5.
Proof. unfold rsolver1. cbn [fst nth]. rewrite single_higgs. lra. Qed.

(** WeinbergFirstDerivative: if squared masses are 0 or above 1e-4, different ones differ by more than 1e-5, no
    entry of the rotation matrix of the scalars is dropped and the eigenvectors of the fermions are real, then the
    result is the gradient of the one-loop potential V1Loop at T = 0, apart from the cut at 1e-10. *)
Theorem C121_first_derivative_partial : forall rsolver csolver K DH DG scale JIb JIf JNb JNf parwani v l,
  solves rsolver csolver K -> 0 < scale -> symmetric_curvature K ->
  good_masses K v -> plain_rotation rsolver K v -> real_fermions csolver K v ->
  (l < NHiggs K)%nat -> smooth_along K v l ->
  exists r d, FirstDerivative rsolver csolver K v scale true = Ok (Some r) /\ length r = NHiggs K /\
    derivable_pt_lim (fun t => V1LoopZero csolver K DH DG scale JIb JIf JNb JNf parwani (entry_set v l t)) (v l) d /\
    cut_at_zero d (nth l r 0).
Proof. intros rsolver csolver K DH DG scale JIb JIf JNb JNf parwani v l H1 H2 H3 H4 H5 H6 H7 H8. exact (first_result rsolver csolver K DH DG scale JIb JIf JNb JNf parwani H1 H2 H3 v H4 H5 H6 l H7 H8). Qed.

(** WeinbergSecondDerivativeAsMatrixXd: the matrix of second derivatives, up to the cuts at 1e-10. *)
Theorem C121_second_derivative_partial : forall rsolver csolver K DH DG scale JIb JIf JNb JNf parwani v l m dV eps,
  solves rsolver csolver K -> 0 < scale -> symmetric_curvature K ->
  good_masses K v -> plain_rotation rsolver K v -> real_fermions csolver K v ->
  (l < NHiggs K)%nat -> (m < NHiggs K)%nat -> smooth_along K v m ->
  0 < eps -> (forall s, Rabs (s - v m) < eps -> smooth_along K (entry_set v m s) l) ->
  (forall u, never_negative (NGauge K) (cast (MassGauge K u))) ->
  (forall s, Rabs (s - v m) < eps ->
     derivable_pt_lim (fun t => V1LoopZero csolver K DH DG scale JIb JIf JNb JNf parwani (entry_set (entry_set v m s) l t))
       (entry_set v m s l) (dV s)) ->
  exists H h, SecondDerivative rsolver csolver K v scale true = Ok (Some H) /\ derivable_pt_lim dV (v m) h /\
    Rabs (H l m - h) <= (1 + INR (NHiggs K) * INR (NHiggs K)) * / 10 ^ 10.
Proof.
  intros rsolver csolver K DH DG scale JIb JIf JNb JNf parwani v l m dV eps H1 H2 H3 H4 H5 H6 H7 H8 H9 H10 H11 H12 H13.
  exact (second_result rsolver csolver K DH DG scale JIb JIf JNb JNf parwani H1 H2 H3 v H4 H5 H6 l m dV eps H7 H8 H9 H10 H11 H12 H13).
Qed.

(** One scalar, one gauge boson, one quark, one lepton. *)
Example C121_nonvacuous : forall DH DG JIb JIf JNb JNf parwani, let v := fun _ : nat => 2 in
  solves rsolver1 solver1 single /\ symmetric_curvature single /\ good_masses single v /\
  plain_rotation rsolver1 single v /\ real_fermions solver1 single v /\ (forall u, smooth_along single u 0) /\
  (forall u, never_negative (NGauge single) (cast (MassGauge single u))) /\
  exists dV eps, 0 < eps /\ forall s, Rabs (s - v 0%nat) < eps ->
    derivable_pt_lim (fun t => V1LoopZero solver1 single DH DG 1 JIb JIf JNb JNf parwani (entry_set (entry_set v 0 s) 0 t)) (entry_set v 0 s 0) (dV s).
Proof.
  intros DH DG JIb JIf JNb JNf parwani v. split; [exact single_solves|]. split; [exact single_sym|]. split; [exact single_good|]. split; [exact single_plain|].
  split; [exact single_real|]. split; [exact single_smooth|]. split; [exact single_never|].
  apply (derivative_exists rsolver1 solver1 single DH DG 1 JIb JIf JNb JNf parwani single_solves single_sym v single_good 0 0); [cbn; lia|apply single_smooth|intro s; apply single_smooth].
Qed.

(** The fermions' mass matrix is Hermitian, the rotation used for the couplings is the real part of its
    eigenvectors.  For two quarks with a complex Yukawa matrix the first derivative is wrong, whatever eigenvectors
    the solver returns. *)
Theorem C121_first_derivative_refuted : exists K v,
  symmetric_curvature K /\ good_masses K v /\ (forall u, smooth_along K u 0) /\ (exists rs cs, solves rs cs K) /\
  forall rsolver csolver DH DG JIb JIf JNb JNf parwani, solves rsolver csolver K ->
    plain_rotation rsolver K v /\
    exists r d, FirstDerivative rsolver csolver K v 1 true = Ok (Some r) /\
      derivable_pt_lim (fun t => V1LoopZero csolver K DH DG 1 JIb JIf JNb JNf parwani (entry_set v 0 t)) (v 0%nat) d /\
      1 / 1000 < Rabs (nth 0 r 0 - d).
Proof.
  exists twoquarks, (fun _ => 1). split; [exact two_sym|]. split; [exact two_good|]. split; [exact two_smooth|].
  split; [exists rsolver2, csolver2; exact two_solves|]. intros rsolver csolver DH DG JIb JIf JNb JNf parwani S.
  split; [exact (two_plain rsolver csolver S)|exact (two_result rsolver csolver DH DG JIb JIf JNb JNf parwani S)].
Qed.

Print Assumptions C121_first_derivative_partial.
Print Assumptions C121_second_derivative_partial.
Print Assumptions C121_first_derivative_refuted.
