From Coq Require Import Reals Lra Lia ZArith List Permutation Arith.
From Coquelicot Require Import Complex.
From Verif.Model Require Import Base Potential Tables PotSM.
From Verif.Spec Require Import NumDerivSpec PotentialSpec ScalarSpec.
From Verif.Proofs Require Import DerivLib NumDerivProofs PotentialProofs TensorProofs Contract Contract2 TabTac ScalarProofs.
Import ListNotations.
Open Scope R_scope.

Lemma tree_ok p : good N (SetCurvatureArrays p) [] (expand writes2 (red (tree_L2 p))) [] (expand writes4 (tree_L4 p)).
Proof.
  destruct p as [muSq lambda]. split; cbn [tL1 tL2 tL3 tL4 SetCurvatureArrays].
  - apply rep_zero.
  - explicit_rep writes2 cov2.
  - apply rep_zero.
  - by_sym rep_sym4.
  - explicit_sym writes2 cov2.
  - apply zero_sym.
  - apply sym4_ok.
Qed.
Definition ct_tensors c := mkT (assign (CT_L1 c) zero_tensor) (assign (CT_L2 c) zero_tensor) zero_tensor (sym4Dim (assign (CT_L4 c) zero_tensor) N N N N).
Lemma ct_ok c : good N (ct_tensors c)
  (CT_L1 c) (expand writes2 (red (CT_L2 c))) [] (expand writes4 (CT_L4 c)).
Proof.
  destruct c. split; cbn [tL1 tL2 tL3 tL4 ct_tensors].
  - by_sym rep_assign.
  - explicit_rep writes2 cov2.
  - apply rep_zero.
  - by_sym rep_sym4.
  - explicit_sym writes2 cov2.
  - apply zero_sym.
  - apply sym4_ok.
Qed.
Lemma tree_value p v : length v = N -> tree N (SetCurvatureArrays p) v 0 =
  Ok (V_doublet (p_muSq p) (p_lambda p) (sm_doublet v)).
Proof.
  intro L. rewrite (tree_good _ _ _ _ _ _ v (tree_ok p) L). f_equal. destruct p.
  rewrite (tsum_writes2 N), (tsum_writes4 N) by (vm_compute; reflexivity).
  unfold V_doublet, sm_doublet. rewrite !norm2_ok. unfold N in L. destruct_list v L. tabcbv. field.
Qed.
Lemma ct_value par c v : length v = N -> set_CT_Pot_Par par = Ok c -> counterterm N c v 0 =
  Ok (V_doublet (nth 0 par 0) (nth 1 par 0) (sm_doublet v)
      + tadpoles [(0%nat, nth 2 par 0); (1%nat, nth 3 par 0); (2%nat, nth 4 par 0); (3%nat, nth 5 par 0)] v).
Proof.
  intros L E. apply (bind_Ok _ ct_tensors) in E as (cc & E & ->). unfold read_CT in E.
  do 6 (destruct par as [|? par]; [discriminate E|]). apply Ok_inj in E. subst cc.
  rewrite (counterterm_good _ _ _ _ _ _ v (ct_ok _) L). f_equal.
  rewrite (tsum_writes2 N), (tsum_writes4 N) by (vm_compute; reflexivity).
  unfold V_doublet, sm_doublet. rewrite !norm2_ok. unfold N in L. destruct_list v L. tabcbv. field.
Qed.
