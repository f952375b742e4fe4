(** Coupling tensors of CxSM. *)
From Coq Require Import Reals Lra Lia ZArith List Permutation Arith.
From Coquelicot Require Import Complex.
From Verif.Model Require Import Base Potential Tables PotCxSM.
From Verif.Spec Require Import NumDerivSpec PotentialSpec ScalarSpec.
From Verif.Proofs Require Import DerivLib NumDerivProofs PotentialProofs TensorProofs Contract Contract2 TabTac ScalarProofs.
Import ListNotations.
Open Scope R_scope.

Lemma tree_ok p : good N (SetCurvatureArrays p) (tree_L1 p) (expand writes2 (red (tree_L2 p))) [] (expand writes4 (red (tree_L4 p))).
Proof.
  destruct p. split; cbn [tL1 tL2 tL3 tL4 SetCurvatureArrays].
  - by_sym rep_assign.
  - explicit_rep writes2 cov2.
  - apply rep_zero.
  - explicit_rep writes4 cov4.
  - explicit_sym writes2 cov2.
  - apply zero_sym.
  - explicit_sym writes4 cov4.
Qed.
Lemma tree_value p v : length v = N -> tree N (SetCurvatureArrays p) v 0 =
  Ok (V_complex_singlet (p_msq p) (p_lambda p) (p_delta2 p) (p_b2 p) (p_d2 p) ((p_Reb1 p), (p_Imb1 p)) ((p_Rea1 p), (p_Ima1 p))
      (cxsm_doublet v) (cxsm_singlet v)).
Proof.
  intro L. rewrite (tree_good _ _ _ _ _ _ v (tree_ok p) L). f_equal. destruct p.
  rewrite (tsum_writes2 N), (tsum_writes4 N) by (vm_compute; reflexivity).
  unfold V_complex_singlet, cxsm_doublet, cxsm_singlet. rewrite Re_half_S, Re_S, two_over_sqrt2, !norm2_ok, !abs2_field.
  unfold N in L. destruct_list v L. tabcbv. field.
Qed.
Definition ct_tensors c := mkT (assign (CT_L1 c) zero_tensor) (assign (CT_L2 c) zero_tensor) zero_tensor (assign (CT_L4 c) zero_tensor).
Lemma ct_ok c : good N (ct_tensors c) (CT_L1 c) (expand writes2 (red (CT_L2 c))) [] (expand writes4 (red (CT_L4 c))).
Proof.
  destruct c. split; cbn [tL1 tL2 tL3 tL4 ct_tensors].
  - by_sym rep_assign.
  - explicit_rep writes2 cov2.
  - apply rep_zero.
  - explicit_rep writes4 cov4.
  - explicit_sym writes2 cov2.
  - apply zero_sym.
  - explicit_sym writes4 cov4.
Qed.
Lemma ct_value par c v : length v = N -> set_CT_Pot_Par par = Ok c -> counterterm N c v 0 =
  Ok (V_complex_singlet (nth 0 par 0) (nth 1 par 0) (nth 2 par 0) (nth 3 par 0) (nth 4 par 0) ((nth 5 par 0), (nth 6 par 0)) ((nth 7 par 0), (nth 8 par 0))
      (cxsm_doublet v) (cxsm_singlet v)
      + tadpoles [(0%nat, nth 9 par 0); (1%nat, nth 10 par 0); (2%nat, nth 11 par 0); (3%nat, nth 12 par 0); (4%nat, nth 13 par 0); (5%nat, nth 14 par 0)] v).
Proof.
  intros L E. apply (bind_Ok _ ct_tensors) in E as (cc & E & ->). unfold read_CT in E.
  do 15 (destruct par as [|? par]; [discriminate E|]). apply Ok_inj in E. subst cc.
  rewrite (counterterm_good _ _ _ _ _ _ v (ct_ok _) L). f_equal.
  rewrite (tsum_writes2 N), (tsum_writes4 N) by (vm_compute; reflexivity).
  unfold V_complex_singlet, cxsm_doublet, cxsm_singlet. rewrite Re_half_S, Re_S, two_over_sqrt2, !norm2_ok, !abs2_field.
  unfold N in L. destruct_list v L. tabcbv. field.
Qed.
