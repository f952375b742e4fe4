(** Coupling tensors of N2HDM. *)
From Coq Require Import Reals Lra Lia ZArith List Permutation Arith.
From Coquelicot Require Import Complex.
From Verif.Model Require Import Base Potential Tables PotN2HDM.
From Verif.Spec Require Import NumDerivSpec PotentialSpec ScalarSpec.
From Verif.Proofs Require Import DerivLib NumDerivProofs PotentialProofs TensorProofs Contract Contract2 TabTac ScalarProofs.
Import ListNotations.
Open Scope R_scope.

Lemma tree_ok p : good N (SetCurvatureArrays p) [] (expand writes2 (red (tree_L2 p))) [] (expand doublet_writes (tree_L4 p)).
Proof.
  destruct p. split; cbn [tL1 tL2 tL3 tL4 SetCurvatureArrays].
  - apply rep_zero.
  - explicit_rep writes2 cov2.
  - apply rep_zero.
  - by_sym rep_doublet.
  - explicit_sym writes2 cov2.
  - apply zero_sym.
  - apply doublet_ok.
Qed.
Lemma tree_value p v : length v = N -> tree N (SetCurvatureArrays p) v 0 =
  Ok (V_two_doublets (p_u1 p) (p_u2 p) ((p_RealMMix p), 0) (p_L1 p) (p_L2 p) (p_L3 p) (p_L4 p) ((p_RL5 p), 0) (0, 0)
      (n2hdm_first v) (n2hdm_second v)
      + V_singlet (p_Nus p) (p_NL6 p) (p_NL7 p) (p_NL8 p) (0, 0) (n2hdm_first v) (n2hdm_second v) (nth 8 v 0)).
Proof.
  intro L. rewrite (tree_good _ _ _ _ _ _ v (tree_ok p) L). f_equal. destruct p.
  rewrite (tsum_writes2 N), (tsum_doublet N) by (vm_compute; reflexivity).
  unfold first_doublet, second_doublet, n2hdm_first, n2hdm_second, V_two_doublets, V_singlet. rewrite !inner_ok, ?Re_mult3, ?Re_mult2, !norm2_ok, !abs2_pair.
  unfold N in L. destruct_list v L. tabcbv. field.
Qed.
Definition ct_tensors c := mkT (assign (CT_L1 c) zero_tensor) (sym2Dim (assign (CT_L2 c) zero_tensor) N N) zero_tensor (doublet_sym4 N (assign (CT_L4 c) zero_tensor)).
Lemma ct_ok c : good N (ct_tensors c) (CT_L1 c) (expand writes2 (CT_L2 c)) [] (expand doublet_writes (CT_L4 c)).
Proof.
  destruct c. split; cbn [tL1 tL2 tL3 tL4 ct_tensors].
  - by_sym rep_assign.
  - by_sym rep_sym2.
  - apply rep_zero.
  - by_sym rep_doublet.
  - apply sym2_ok.
  - apply zero_sym.
  - apply doublet_ok.
Qed.
Lemma ct_value par c v : length v = N -> set_CT_Pot_Par par = Ok c -> counterterm N c v 0 =
  Ok (V_two_doublets (nth 0 par 0) (nth 1 par 0) ((nth 2 par 0), 0) (nth 3 par 0) (nth 4 par 0) (nth 5 par 0) (nth 6 par 0) ((nth 7 par 0), 0) (0, 0)
      (n2hdm_first v) (n2hdm_second v)
      + V_singlet (nth 8 par 0) (nth 9 par 0) (nth 10 par 0) (nth 11 par 0) (0, 0) (n2hdm_first v) (n2hdm_second v) (nth 8 v 0)
      + tadpoles [(6%nat, nth 12 par 0); (7%nat, nth 13 par 0); (8%nat, nth 14 par 0)] v).
Proof.
  intros L E. apply (bind_Ok _ ct_tensors) in E as (cc & E & ->). unfold read_CT in E.
  do 15 (destruct par as [|? par]; [discriminate E|]). apply Ok_inj in E. subst cc.
  rewrite (counterterm_good _ _ _ _ _ _ v (ct_ok _) L). f_equal.
  rewrite (tsum_writes2 N), (tsum_doublet N) by (vm_compute; reflexivity).
  unfold first_doublet, second_doublet, n2hdm_first, n2hdm_second, V_two_doublets, V_singlet. rewrite !inner_ok, ?Re_mult3, ?Re_mult2, !norm2_ok, !abs2_pair.
  unfold N in L. destruct_list v L. tabcbv. field.
Qed.
