(** C142: third and fourth derivatives of the one-loop potential. *)
From Coq Require Import Reals List Lra Lia.
From Coquelicot Require Import Coquelicot.
From Verif Require Import Model.Base Model.Loop Model.LoopFour Model.EigenDeriv Model.Weinberg Model.WeinbergHigher Spec.WeinbergHigherSpec.
From Verif Require Import Proofs.WeinbergHigherRun Proofs.WeinbergHigherResult Proofs.WeinbergHigherTotal Proofs.WeinbergHigherLight Proofs.WeinbergHigherThrow.
Import ListNotations.
Open Scope R_scope.

(** Before the couplings have been calculated an error is reported. *)
Theorem C142_needs_couplings : forall N O scale sectors,
  WeinbergThirdDerivative N O scale sectors false = Throw RuntimeError /\ WeinbergForthDerivative N O scale sectors false = Throw RuntimeError.
Proof. intros. split; reflexivity. Qed.

(** Squared masses that are not negative: numbers are returned. *)
Theorem C142_returns : forall N O scale sectors,
  (forall s a, In s sectors -> (a < size s)%nat -> 0 <= mass2 s a) ->
  (exists r, WeinbergThirdDerivative N O scale sectors true = Ok (Some r)) /\ (exists r, WeinbergForthDerivative N O scale sectors true = Ok (Some r)).
Proof. intros N O scale sectors H. exact (conj (third_returns N O scale sectors H) (fourth_returns N O scale sectors H)). Qed.

(** A negative squared mass: no numbers are returned. *)
Theorem C142_tachyon : forall N O scale sectors s a r, In s sectors -> (a < size s)%nat -> mass2 s a < 0 ->
  WeinbergThirdDerivative N O scale sectors true <> Ok (Some r) /\ WeinbergForthDerivative N O scale sectors true <> Ok (Some r).
Proof. exact tachyon_no_numbers. Qed.

(** If a loop function fails for three or four states of a field, an error is reported. *)
Theorem C142_three_states : forall N O scale sectors s a b c, In s sectors -> (a < size s)%nat -> (b < size s)%nat -> (c < size s)%nat ->
  (forall r, fbaseTri scale (mass2 s a) (mass2 s b) (mass2 s c) <> Ok r) ->
  WeinbergThirdDerivative N O scale sectors true = Throw RuntimeError /\ WeinbergForthDerivative N O scale sectors true = Throw RuntimeError.
Proof. exact three_states. Qed.
Theorem C142_four_states : forall N O scale sectors s a b c d, In s sectors -> (a < size s)%nat -> (b < size s)%nat -> (c < size s)%nat -> (d < size s)%nat ->
  (forall r, fbaseFour scale (mass2 s a) (mass2 s b) (mass2 s c) (mass2 s d) <> Ok r) ->
  WeinbergForthDerivative N O scale sectors true = Throw RuntimeError.
Proof. exact four_states. Qed.
(** two squared masses of opposite signs *)
Example C142_nonvacuous_throws : forall r, fbaseTri 1 (-1) (-1) 4 <> Ok r.
Proof.
  intros r. unfold fbaseTri, snap0, snap, Thres. repeat (let H := fresh in destruct (Rlt_dec _ _) as [H|H]; [try (exfalso; revert H; unfold Rabs; repeat destruct (Rcase_abs _); lra)|]);
    try (exfalso; match goal with H : ~ _ < _ |- _ => revert H; unfold Rabs; repeat destruct (Rcase_abs _); lra end).
  all: unfold tri_branch, is0, eqb; repeat (destruct (Req_EM_T _ _); try lra); cbn [andb negb option_map lnopt]; unfold lnopt; destruct (Rlt_dec _ _); try lra; discriminate.
Qed.

(** The tensors have N^3 and N^4 entries and are symmetric in neighbouring indices, hence in all indices. *)
Theorem C142_third_symmetric : forall N O scale sectors r, WeinbergThirdDerivative N O scale sectors true = Ok (Some r) ->
  length r = (N * (N * N))%nat /\
  forall l m n, (l < N)%nat -> (m < N)%nat -> (n < N)%nat ->
    nth (n + N * (m + N * l)) r 0 = nth (n + N * (l + N * m)) r 0 /\ nth (n + N * (m + N * l)) r 0 = nth (m + N * (n + N * l)) r 0.
Proof. exact third_symmetric. Qed.
Theorem C142_fourth_symmetric : forall N O scale sectors r, WeinbergForthDerivative N O scale sectors true = Ok (Some r) ->
  length r = (N * (N * (N * N)))%nat /\
  forall j l m n, (j < N)%nat -> (l < N)%nat -> (m < N)%nat -> (n < N)%nat ->
    nth (n + N * (m + N * (l + N * j))) r 0 = nth (n + N * (m + N * (j + N * l))) r 0 /\
    nth (n + N * (m + N * (l + N * j))) r 0 = nth (n + N * (l + N * (m + N * j))) r 0 /\
    nth (n + N * (m + N * (l + N * j))) r 0 = nth (m + N * (n + N * (l + N * j))) r 0.
Proof. exact fourth_symmetric. Qed.

(** Along a line v + t u on which the rotations at v keep the squared mass matrices diagonal, and on which every state
    either has a squared mass of at least 1e-5 at v or is massless throughout, the tensors contracted with u give the
    third and fourth derivative of the one-loop potential, up to the cut at 1e-10.  What is missing for the full claim are
    the lines on which states mix. *)
Theorem C142_third_derivative_partial : forall N O scale u L, 0 < scale -> orthonormal N O ->
  (forall s d e, In (s, d, e) L -> diagonal s (slope N u s) d /\ diagonal s (curve N u s) e /\ massive_or_decoupled s d e) ->
  exists r v, WeinbergThirdDerivative N O scale (map (fun x => fst (fst x)) L) true = Ok (Some r) /\
    is_derive_n (one_loop scale L) 3 0 v /\ Rabs (contract3 N u r - v) <= rsum N (fun l => Rabs (u l)) ^ 3 * / 10 ^ 10.
Proof. exact third_full. Qed.
Theorem C142_fourth_derivative_partial : forall N O scale u L, 0 < scale -> orthonormal N O ->
  (forall s d e, In (s, d, e) L -> diagonal s (slope N u s) d /\ diagonal s (curve N u s) e /\ massive_or_decoupled s d e) ->
  exists r v, WeinbergForthDerivative N O scale (map (fun x => fst (fst x)) L) true = Ok (Some r) /\
    is_derive_n (one_loop scale L) 4 0 v /\ Rabs (contract4 N u r - v) <= rsum N (fun l => Rabs (u l)) ^ 4 * / 10 ^ 10.
Proof. exact fourth_full. Qed.

(** One Higgs field and a field with three states, of squared masses 1 + 2 t + t^2, 4 + t + 3 t^2 / 2 and 0. *)
Example C142_nonvacuous : orthonormal 1 one_rot /\
  forall s d e, In (s, d, e) [(three, pair_d, pair_e)] -> diagonal s (slope 1 one_dir s) d /\ diagonal s (curve 1 one_dir s) e /\ massive_or_decoupled s d e.
Proof.
  split; [exact one_ortho|]. intros s d e [E|[]]. assert (E1 : s = three /\ d = pair_d /\ e = pair_e) by (revert E; generalize three, pair_d, pair_e; intros x y z E; injection E as <- <- <-; auto).
  destruct E1 as [-> [-> ->]]. exact (conj three_slope (conj three_curve three_massive)).
Qed.
Example C142_nonvacuous_returns : (forall s a, In s [three] -> (a < size s)%nat -> 0 <= mass2 s a) /\ mass2 three 1 = 4.
Proof. split; [|reflexivity]. intros s a [<- |[]] A. cbn [mass2 three]. destruct a as [|[|a]]; cbn [pair_mass]; lra. Qed.
Example C142_nonvacuous_tachyon : exists s : sector, (0 < size s)%nat /\ mass2 s 0 < 0.
Proof. exists (mkSector 1 (fun _ => -1) (fun _ _ => 1) (fun _ _ _ => RtoC 0) (fun _ _ _ _ => RtoC 0) 0 0). cbn. split; [lia|lra]. Qed.

(** A fermion of squared mass 1e-10, as with a Yukawa coupling of 1 at the field value 1e-5: the loop functions take its
    squared mass for 0, and both derivatives are wrong by more than the cut. *)
Theorem C142_light_refuted : exists s d e, 0 < mass2 s 0 /\ size s = 1%nat /\
  diagonal s (slope 1 (fun _ => 1) s) d /\ diagonal s (curve 1 (fun _ => 1) s) e /\
  (exists r v, WeinbergThirdDerivative 1 (fun _ _ => 1) 1 [s] true = Ok (Some r) /\ is_derive_n (one_loop 1 [(s, d, e)]) 3 0 v /\
     / 10 ^ 7 < Rabs (contract3 1 (fun _ => 1) r - v)) /\
  (exists r v, WeinbergForthDerivative 1 (fun _ _ => 1) 1 [s] true = Ok (Some r) /\ is_derive_n (one_loop 1 [(s, d, e)]) 4 0 v /\
     / 10 < Rabs (contract4 1 (fun _ => 1) r - v)).
Proof. exact light_refuted. Qed.

Print Assumptions C142_needs_couplings.
Print Assumptions C142_returns.
Print Assumptions C142_tachyon.
Print Assumptions C142_three_states.
Print Assumptions C142_four_states.
Print Assumptions C142_third_symmetric.
Print Assumptions C142_fourth_symmetric.
Print Assumptions C142_third_derivative_partial.
Print Assumptions C142_fourth_derivative_partial.
Print Assumptions C142_light_refuted.
