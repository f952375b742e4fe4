(** C100: for vectors that MinimizeOrderVEV produces, VTree and CounterTerm return the same value with and without the
    simplified formulas, and their derivative branches are the derivatives of that value. *)
From Coq Require Import Reals Lra Lia ZArith List.
From Verif.Model Require Import Base Potential Tables Vacua Simplified.
From Verif.Model Require PotSM PotC2HDM PotCPintheDark.
From Verif.Spec Require Import NumDerivSpec PotentialSpec.
From Verif.Proofs Require Import TabTac VacTac VacuumCore SimplifiedProofs.
Import ListNotations.
Local Open Scope R_scope.

(** missing in these theorems: vectors with other non-zero components, see the refutations *)
Theorem C100_C2HDM_tree_partial :
  forall p cb vev w diff b, length vev = length (order_C2HDM cb) -> placed 0 PotC2HDM.N (order_C2HDM cb) vev w ->
  tree_C2HDM p w diff b = tree_C2HDM p w diff true.
Proof. exact C2HDM_tree. Qed.
Print Assumptions C100_C2HDM_tree_partial.
Theorem C100_C2HDM_counterterm_partial :
  forall par cb vev w diff b, length vev = length (order_C2HDM cb) -> placed 0 PotC2HDM.N (order_C2HDM cb) vev w ->
  counter_C2HDM par w diff b = counter_C2HDM par w diff true.
Proof. exact C2HDM_counter. Qed.
Print Assumptions C100_C2HDM_counterterm_partial.
Theorem C100_C2HDM_tree_gradient_partial :
  forall p cb vev w i, length vev = length (order_C2HDM cb) -> placed 0 PotC2HDM.N (order_C2HDM cb) vev w -> In i (order_C2HDM cb) ->
  exists d, tree_C2HDM p w (Z.of_nat (S i)) false = Ok d /\ partial_derivative Ok (fun v => tree_C2HDM p v 0 false) w i d.
Proof. exact C2HDM_tree_along. Qed.
Print Assumptions C100_C2HDM_tree_gradient_partial.
Theorem C100_C2HDM_counterterm_gradient_partial :
  forall par T cb vev w i, PotC2HDM.set_CT_Pot_Par par = Ok T ->
  length vev = length (order_C2HDM cb) -> placed 0 PotC2HDM.N (order_C2HDM cb) vev w -> In i (order_C2HDM cb) ->
  exists d, counter_C2HDM par w (Z.of_nat (S i)) false = Ok d /\ partial_derivative Ok (fun v => counter_C2HDM par v 0 false) w i d.
Proof. exact C2HDM_counter_along. Qed.
Print Assumptions C100_C2HDM_counterterm_gradient_partial.
Example C100_nonvacuous_C2HDM : placed 0 PotC2HDM.N (order_C2HDM true) [1; 2; 3; 4] [0; 0; 1; 0; 2; 0; 3; 4] /\
  placed 0 PotC2HDM.N (order_C2HDM false) [2; 3; 4] [0; 0; 0; 0; 2; 0; 3; 4] /\
  tree_C2HDM (PotC2HDM.mkP 1 2 3 4 5 6 7 8 9 10) [0; 0; 0; 0; 2; 0; 0; 0] 0 false = Ok 12 /\
  exists T, PotC2HDM.set_CT_Pot_Par [1; 2; 3; 4; 5; 6; 7; 8; 9; 10; 11; 12; 13; 14; 15] = Ok T.
Proof.
  split; [exact (spread_placed 8 [2; 4; 6; 7]%nat [1; 2; 3; 4] ltac:(nodup) eq_refl ltac:(repeat constructor))|].
  split; [exact (spread_placed 8 [4; 6; 7]%nat [2; 3; 4] ltac:(nodup) eq_refl ltac:(repeat constructor))|].
  split; [cbn; apply f_equal; field|eexists; reflexivity].
Qed.

Theorem C100_CPintheDark_tree_partial :
  forall p vev w diff b, length vev = length order_CPintheDark -> placed 0 PotCPintheDark.N order_CPintheDark vev w ->
  tree_CPintheDark p w diff b = tree_CPintheDark p w diff true.
Proof. exact CPintheDark_tree. Qed.
Print Assumptions C100_CPintheDark_tree_partial.
Theorem C100_CPintheDark_counterterm_partial :
  forall par vev w diff b, length vev = length order_CPintheDark -> placed 0 PotCPintheDark.N order_CPintheDark vev w ->
  counter_CPintheDark par w diff b = counter_CPintheDark par w diff true.
Proof. exact CPintheDark_counter. Qed.
Print Assumptions C100_CPintheDark_counterterm_partial.
Theorem C100_CPintheDark_tree_gradient_partial :
  forall p vev w i, length vev = length order_CPintheDark -> placed 0 PotCPintheDark.N order_CPintheDark vev w -> In i order_CPintheDark ->
  exists d, tree_CPintheDark p w (Z.of_nat (S i)) false = Ok d /\ partial_derivative Ok (fun v => tree_CPintheDark p v 0 false) w i d.
Proof. exact CPintheDark_tree_along. Qed.
Print Assumptions C100_CPintheDark_tree_gradient_partial.
Theorem C100_CPintheDark_counterterm_gradient_partial :
  forall par T vev w i, PotCPintheDark.set_CT_Pot_Par par = Ok T ->
  length vev = length order_CPintheDark -> placed 0 PotCPintheDark.N order_CPintheDark vev w -> In i order_CPintheDark ->
  exists d, counter_CPintheDark par w (Z.of_nat (S i)) false = Ok d /\ partial_derivative Ok (fun v => counter_CPintheDark par v 0 false) w i d.
Proof. exact CPintheDark_counter_along. Qed.
Print Assumptions C100_CPintheDark_counterterm_gradient_partial.
Example C100_nonvacuous_CPintheDark : placed 0 PotCPintheDark.N order_CPintheDark [1; 2; 3; 4; 5] [0; 0; 1; 0; 2; 0; 3; 4; 5] /\
  tree_CPintheDark (PotCPintheDark.mkP 1 2 3 4 5 6 7 8 9 10 11 12 13) [0; 0; 0; 0; 2; 0; 0; 0; 0] 0 false = Ok 14 /\
  exists T, PotCPintheDark.set_CT_Pot_Par [1; 2; 3; 4; 5; 6; 7; 8; 9; 10; 11; 12; 13; 14; 15; 16; 17; 18; 19] = Ok T.
Proof.
  split; [exact (spread_placed 9 [2; 4; 6; 7; 8]%nat [1; 2; 3; 4; 5] ltac:(nodup) eq_refl ltac:(repeat constructor))|].
  split; [cbn; apply f_equal; field|eexists; reflexivity].
Qed.

(** the SM does not use its formulas; they are right all the same *)
Theorem C100_SM_tree :
  forall p v diff b, length v = PotSM.N -> tree_SM p v diff b = tree_SM p v diff true.
Proof. exact SM_tree. Qed.
Print Assumptions C100_SM_tree.
Theorem C100_SM_tree_formula_partial :
  forall p vev w, length vev = length order_SM -> placed 0 PotSM.N order_SM vev w ->
  VTreeSimplified_SM p w = tree PotSM.N (PotSM.SetCurvatureArrays p) w 0.
Proof. exact SM_simplified. Qed.
Print Assumptions C100_SM_tree_formula_partial.
Theorem C100_SM_counterterm_formula_partial :
  forall par c T vev w, length vev = length order_SM -> placed 0 PotSM.N order_SM vev w ->
  PotSM.read_CT par = Ok c -> PotSM.set_CT_Pot_Par par = Ok T -> VCounterSimplified_SM true c w = counterterm PotSM.N T w 0.
Proof. exact SM_counter_simplified. Qed.
Print Assumptions C100_SM_counterterm_formula_partial.
Example C100_nonvacuous_SM : placed 0 PotSM.N order_SM [2] [0; 0; 2; 0] /\ VTreeSimplified_SM (PotSM.mkP 1 3) [0; 0; 2; 0] = Ok 14 /\
  exists c T, PotSM.read_CT [1; 2; 3; 4; 5; 6] = Ok c /\ PotSM.set_CT_Pot_Par [1; 2; 3; 4; 5; 6] = Ok T.
Proof.
  split; [exact (spread_placed 4 [2]%nat [2] ltac:(nodup) eq_refl ltac:(repeat constructor))|].
  split; [cbn; apply f_equal; field|do 2 eexists; split; reflexivity].
Qed.

(** a field configuration with a non-zero charged component: the formula ignores it, the tensors do not *)
Theorem C100_C2HDM_other_fields_refuted :
  exists p v, length v = PotC2HDM.N /\ tree_C2HDM p v 0 false = Ok 0 /\ tree_C2HDM p v 0 true = Ok (1 / 2).
Proof. exact C2HDM_differs. Qed.
Print Assumptions C100_C2HDM_other_fields_refuted.
Theorem C100_CPintheDark_other_fields_refuted :
  exists p v, length v = PotCPintheDark.N /\ tree_CPintheDark p v 0 false = Ok 0 /\ tree_CPintheDark p v 0 true = Ok (1 / 2).
Proof. exact CPintheDark_differs. Qed.
Print Assumptions C100_CPintheDark_other_fields_refuted.
(** there the derivative branch does not return the derivative of the value *)
Theorem C100_C2HDM_gradient_refuted :
  exists p v, length v = PotC2HDM.N /\ tree_C2HDM p v 1 false = Ok 1 /\ partial_derivative Ok (fun w => tree_C2HDM p w 0 false) v 0 0.
Proof. exact C2HDM_gradient. Qed.
Print Assumptions C100_C2HDM_gradient_refuted.
