(** The simplified potentials. *)
From Coq Require Import Reals Lra Lia ZArith List Bool.
From Coquelicot Require Import Coquelicot.
From Verif.Model Require Import Base Potential Tables Vacua Simplified.
From Verif.Model Require PotSM PotC2HDM PotCPintheDark.
From Verif.Spec Require Import NumDerivSpec PotentialSpec ScalarSpec.
From Verif.Proofs Require Import Contract Contract2 TabTac VacTac VacuumCore VacuaProofs ScalarProofs.
From Verif.Proofs Require PotSMProofs PotC2HDMProofs PotCPintheDarkProofs.
From Verif.Proofs Require Import ModelDeriv.
Import ListNotations.
Local Open Scope R_scope.

Ltac expand_doublets := unfold sm_doublet, first_doublet, second_doublet, V_doublet, V_two_doublets, V_singlet, tadpoles;
  cbn [nth fold_right fst snd]; rewrite ?inner_ok, ?Re_mult3, ?Re_mult2, ?norm2_ok, ?abs2_pair.
Ltac subspace P vev L := cbv [order_SM order_C2HDM order_CPintheDark length] in L; destruct_list vev L; place P.

Lemma C2HDM_tree p cb vev w diff b : length vev = length (order_C2HDM cb) -> placed 0 PotC2HDM.N (order_C2HDM cb) vev w ->
  tree_C2HDM p w diff b = tree_C2HDM p w diff true.
Proof.
  intros L P. unfold tree_C2HDM, VTree_of. destruct b; [reflexivity|]. cbn [negb].
  assert (E : exists a b c d, w = [0; 0; a; 0; b; 0; c; d]) by (destruct cb; subspace P vev L; eauto). clear P L.
  destruct E as (a & b & c & d & ->).
  destruct (Z.eqb_spec diff 0) as [->|NE]; [|destruct p; reflexivity]. rewrite PotC2HDMProofs.tree_value by reflexivity. destruct p.
  cbn [use_tree_C2HDM VTreeSimplified_C2HDM negb get nth_error bind andb]. apply f_equal. cbn [PotC2HDM.p_u1 PotC2HDM.p_u2 PotC2HDM.p_RealMMix PotC2HDM.p_Iu3 PotC2HDM.p_L1 PotC2HDM.p_L2 PotC2HDM.p_L3 PotC2HDM.p_L4 PotC2HDM.p_RL5 PotC2HDM.p_IL5].
  expand_doublets. field.
Qed.
Lemma C2HDM_counter par cb vev w diff b : length vev = length (order_C2HDM cb) -> placed 0 PotC2HDM.N (order_C2HDM cb) vev w ->
  counter_C2HDM par w diff b = counter_C2HDM par w diff true.
Proof.
  intros L P. unfold counter_C2HDM. destruct b; [reflexivity|].
  assert (E : exists a b c d, w = [0; 0; a; 0; b; 0; c; d]) by (destruct cb; subspace P vev L; eauto). clear P L.
  destruct E as (a & b & c & d & ->).
  do 15 (destruct par as [|? par]; [reflexivity|]). unfold PotC2HDM.set_CT_Pot_Par. cbn [PotC2HDM.read_CT bind].
  unfold CounterTerm_of. cbn [negb andb use_counter_C2HDM].
  destruct (Z.eqb_spec diff 0) as [->|NE]; [|reflexivity].
  match goal with |- _ = counterterm _ ?T ?v 0 => rewrite (PotC2HDMProofs.ct_value (r :: r0 :: r1 :: r2 :: r3 :: r4 :: r5 :: r6 :: r7 :: r8 :: r9 :: r10 :: r11 :: r12 :: r13 :: par) T v eq_refl eq_refl) end.
  cbn [use_counter_C2HDM VCounterSimplified_C2HDM negb get nth_error bind andb]. apply f_equal. expand_doublets. field.
Qed.
Lemma CPintheDark_tree p vev w diff b : length vev = length order_CPintheDark -> placed 0 PotCPintheDark.N order_CPintheDark vev w ->
  tree_CPintheDark p w diff b = tree_CPintheDark p w diff true.
Proof.
  intros L P. unfold tree_CPintheDark, VTree_of. destruct b; [reflexivity|]. cbn [negb].
  assert (E : exists a b c d e, w = [0; 0; a; 0; b; 0; c; d; e]) by (subspace P vev L; eauto 6). clear P L.
  destruct E as (a & b & c & d & e & ->).
  destruct (Z.eqb_spec diff 0) as [->|NE]; [|destruct p; reflexivity]. rewrite PotCPintheDarkProofs.tree_value by reflexivity. destruct p.
  cbn [use_tree_CPintheDark VTreeSimplified_CPintheDark negb get nth_error bind andb]. apply f_equal.
  cbn [PotCPintheDark.p_m11s PotCPintheDark.p_m22s PotCPintheDark.p_mSs PotCPintheDark.p_ReA PotCPintheDark.p_ImA PotCPintheDark.p_L1 PotCPintheDark.p_L2 PotCPintheDark.p_L3 PotCPintheDark.p_L4 PotCPintheDark.p_L5 PotCPintheDark.p_L6 PotCPintheDark.p_L7 PotCPintheDark.p_L8].
  expand_doublets. field.
Qed.
Lemma CPintheDark_counter par vev w diff b : length vev = length order_CPintheDark -> placed 0 PotCPintheDark.N order_CPintheDark vev w ->
  counter_CPintheDark par w diff b = counter_CPintheDark par w diff true.
Proof.
  intros L P. unfold counter_CPintheDark. destruct b; [reflexivity|].
  assert (E : exists a b c d e, w = [0; 0; a; 0; b; 0; c; d; e]) by (subspace P vev L; eauto 6). clear P L.
  destruct E as (a & b & c & d & e & ->).
  do 19 (destruct par as [|? par]; [reflexivity|]). unfold PotCPintheDark.set_CT_Pot_Par. cbn [PotCPintheDark.read_CT bind].
  unfold CounterTerm_of. cbn [negb andb use_counter_CPintheDark].
  destruct (Z.eqb_spec diff 0) as [->|NE]; [|reflexivity].
  match goal with |- _ = counterterm _ ?T ?v 0 => rewrite (PotCPintheDarkProofs.ct_value (r :: r0 :: r1 :: r2 :: r3 :: r4 :: r5 :: r6 :: r7 :: r8 :: r9 :: r10 :: r11 :: r12 :: r13 :: r14 :: r15 :: r16 :: r17 :: par) T v eq_refl eq_refl) end.
  cbn [use_counter_CPintheDark VCounterSimplified_CPintheDark negb get nth_error bind andb]. apply f_equal. expand_doublets. field.
Qed.
(** the SM has the formulas but does not use them; they would be right *)
Lemma SM_tree p v diff b : length v = PotSM.N -> tree_SM p v diff b = tree_SM p v diff true.
Proof. intro L. unfold PotSM.N in L. destruct_list v L. destruct p, b; reflexivity. Qed.
Lemma SM_simplified p vev w : length vev = length order_SM -> placed 0 PotSM.N order_SM vev w ->
  VTreeSimplified_SM p w = tree PotSM.N (PotSM.SetCurvatureArrays p) w 0.
Proof.
  intros L P. subspace P vev L. rewrite PotSMProofs.tree_value by reflexivity. destruct p. cbn [VTreeSimplified_SM get nth_error].
  apply f_equal. cbn [PotSM.p_muSq PotSM.p_lambda]. expand_doublets. field.
Qed.
Lemma SM_counter_simplified par c T vev w : length vev = length order_SM -> placed 0 PotSM.N order_SM vev w -> PotSM.read_CT par = Ok c -> PotSM.set_CT_Pot_Par par = Ok T ->
  VCounterSimplified_SM true c w = counterterm PotSM.N T w 0.
Proof.
  intros L P E F. subspace P vev L. rewrite (PotSMProofs.ct_value par T [0; 0; r; 0] eq_refl F).
  do 6 (destruct par as [|? par]; [discriminate E|]). apply Ok_inj in E. subst c. cbn [VCounterSimplified_SM negb get nth_error].
  apply f_equal. expand_doublets. field.
Qed.

(** derivatives along the vacuum expectation values *)
Lemma moved_placed n order vev w i t : placed 0 n order vev w -> length vev = length order -> NoDup order -> Forall (fun o => (o < n)%nat) order -> In i order ->
  exists vev', length vev' = length order /\ placed 0 n order vev' (moved w i t).
Proof.
  intros (L & A & B) LV ND FO I. exists (map (fun o => nth o (moved w i t) 0) order). split; [apply map_length|].
  assert (In' : (i < n)%nat) by (rewrite Forall_forall in FO; now apply FO).
  assert (LM : length (moved w i t) = n). { unfold moved. rewrite app_length, firstn_length. cbn [length]. rewrite skipn_length. lia. }
  split; [exact LM|]. split.
  - intros k o K. rewrite (map_nth_error _ _ _ K). apply nth_error_nth'. rewrite LM. rewrite Forall_forall in FO. apply FO. eapply nth_error_In; eauto.
  - intros j J NI. assert (j <> i) by congruence. rewrite <- (B j J NI). unfold moved.
    destruct (Nat.lt_ge_cases j i).
    + rewrite nth_error_app1 by (rewrite firstn_length; lia).
      transitivity (nth_error (firstn i w ++ skipn i w) j); [now rewrite nth_error_app1 by (rewrite firstn_length; lia)|now rewrite firstn_skipn].
    + rewrite nth_error_app2 by (rewrite firstn_length; lia). rewrite firstn_length, Nat.min_l by lia.
      destruct (j - i)%nat as [|m] eqn:Em; [lia|]. cbn [nth_error].
      transitivity (nth_error (firstn (S i) w ++ skipn (S i) w) j); [|now rewrite firstn_skipn].
      rewrite nth_error_app2 by (rewrite firstn_length; lia). rewrite firstn_length, Nat.min_l by lia. f_equal. lia.
Qed.
Lemma along n order (f : list R -> Z -> bool -> outcome R) vev w i :
  (forall vev w diff b, length vev = length order -> placed 0 n order vev w -> f w diff b = f w diff true) ->
  first_derivatives Ok n (fun v d => f v d true) -> placed 0 n order vev w -> length vev = length order -> NoDup order -> Forall (fun o => (o < n)%nat) order -> In i order ->
  exists d, f w (Z.of_nat (S i)) false = Ok d /\ partial_derivative Ok (fun v => f v 0%Z false) w i d.
Proof.
  intros S FD P LV ND FO I. assert (In' : (i < n)%nat) by (rewrite Forall_forall in FO; now apply FO).
  destruct (FD w i (proj1 P) In') as (d & E & g & G & D). exists d. split; [rewrite (S vev w _ false LV P); exact E|].
  exists g. split; [|exact D]. intro t. destruct (moved_placed n order vev w i t P LV ND FO I) as (vev' & L' & P'). rewrite (S vev' _ _ false L' P'). apply G.
Qed.
Lemma C2HDM_tree_along p cb vev w i : length vev = length (order_C2HDM cb) -> placed 0 PotC2HDM.N (order_C2HDM cb) vev w -> In i (order_C2HDM cb) ->
  exists d, tree_C2HDM p w (Z.of_nat (S i)) false = Ok d /\ partial_derivative Ok (fun v => tree_C2HDM p v 0 false) w i d.
Proof.
  intros L P I. apply (along PotC2HDM.N (order_C2HDM cb) (tree_C2HDM p) vev); try assumption.
  - intros. now apply (C2HDM_tree p cb vev0).
  - exact (tree_derivatives _ _ _ _ _ _ (PotC2HDMProofs.tree_ok p)).
  - destruct cb; nodup.
  - unfold PotC2HDM.N. destruct cb; cbn; repeat constructor; lia.
Qed.
Lemma C2HDM_counter_along par T cb vev w i : PotC2HDM.set_CT_Pot_Par par = Ok T -> length vev = length (order_C2HDM cb) -> placed 0 PotC2HDM.N (order_C2HDM cb) vev w -> In i (order_C2HDM cb) ->
  exists d, counter_C2HDM par w (Z.of_nat (S i)) false = Ok d /\ partial_derivative Ok (fun v => counter_C2HDM par v 0 false) w i d.
Proof.
  intros E L P I. apply (along PotC2HDM.N (order_C2HDM cb) (counter_C2HDM par) vev); try assumption.
  - intros. now apply (C2HDM_counter par cb vev0).
  - apply (bind_Ok _ PotC2HDMProofs.ct_tensors) in E as (cc & E & ->). unfold counter_C2HDM. change (PotC2HDM.set_CT_Pot_Par par) with (bind (PotC2HDM.read_CT par) (fun c => Ok (PotC2HDMProofs.ct_tensors c))).
    rewrite E. cbn [bind]. exact (ct_derivatives _ _ _ _ _ _ (PotC2HDMProofs.ct_ok cc)).
  - destruct cb; nodup.
  - unfold PotC2HDM.N. destruct cb; cbn; repeat constructor; lia.
Qed.
Lemma CPintheDark_tree_along p vev w i : length vev = length order_CPintheDark -> placed 0 PotCPintheDark.N order_CPintheDark vev w -> In i order_CPintheDark ->
  exists d, tree_CPintheDark p w (Z.of_nat (S i)) false = Ok d /\ partial_derivative Ok (fun v => tree_CPintheDark p v 0 false) w i d.
Proof.
  intros L P I. apply (along PotCPintheDark.N order_CPintheDark (tree_CPintheDark p) vev); try assumption.
  - intros. now apply (CPintheDark_tree p vev0).
  - exact (tree_derivatives _ _ _ _ _ _ (PotCPintheDarkProofs.tree_ok p)).
  - nodup.
  - unfold PotCPintheDark.N. cbn; repeat constructor; lia.
Qed.
Lemma CPintheDark_counter_along par T vev w i : PotCPintheDark.set_CT_Pot_Par par = Ok T -> length vev = length order_CPintheDark -> placed 0 PotCPintheDark.N order_CPintheDark vev w -> In i order_CPintheDark ->
  exists d, counter_CPintheDark par w (Z.of_nat (S i)) false = Ok d /\ partial_derivative Ok (fun v => counter_CPintheDark par v 0 false) w i d.
Proof.
  intros E L P I. apply (along PotCPintheDark.N order_CPintheDark (counter_CPintheDark par) vev); try assumption.
  - intros. now apply (CPintheDark_counter par vev0).
  - apply (bind_Ok _ PotCPintheDarkProofs.ct_tensors) in E as (cc & E & ->). unfold counter_CPintheDark. change (PotCPintheDark.set_CT_Pot_Par par) with (bind (PotCPintheDark.read_CT par) (fun c => Ok (PotCPintheDarkProofs.ct_tensors c))).
    rewrite E. cbn [bind]. exact (ct_derivatives _ _ _ _ _ _ (PotCPintheDarkProofs.ct_ok cc)).
  - nodup.
  - unfold PotCPintheDark.N. cbn; repeat constructor; lia.
Qed.

(** outside this subspace *)
Lemma C2HDM_differs : exists p v, length v = PotC2HDM.N /\ tree_C2HDM p v 0 false = Ok 0 /\ tree_C2HDM p v 0 true = Ok (1 / 2).
Proof.
  exists (PotC2HDM.mkP 1 0 0 0 0 0 0 0 0 0), [1; 0; 0; 0; 0; 0; 0; 0]. split; [reflexivity|]. split.
  - cbn. apply f_equal. field.
  - unfold tree_C2HDM, VTree_of. cbn [negb]. rewrite PotC2HDMProofs.tree_value by reflexivity. apply f_equal.
    cbn [PotC2HDM.p_u1 PotC2HDM.p_u2 PotC2HDM.p_RealMMix PotC2HDM.p_Iu3 PotC2HDM.p_L1 PotC2HDM.p_L2 PotC2HDM.p_L3 PotC2HDM.p_L4 PotC2HDM.p_RL5 PotC2HDM.p_IL5].
    expand_doublets. field.
Qed.
Lemma CPintheDark_differs : exists p v, length v = PotCPintheDark.N /\ tree_CPintheDark p v 0 false = Ok 0 /\ tree_CPintheDark p v 0 true = Ok (1 / 2).
Proof.
  exists (PotCPintheDark.mkP 1 0 0 0 0 0 0 0 0 0 0 0 0), [1; 0; 0; 0; 0; 0; 0; 0; 0]. split; [reflexivity|]. split.
  - cbn. apply f_equal. field.
  - unfold tree_CPintheDark, VTree_of. cbn [negb]. rewrite PotCPintheDarkProofs.tree_value by reflexivity. apply f_equal.
    cbn [PotCPintheDark.p_m11s PotCPintheDark.p_m22s PotCPintheDark.p_mSs PotCPintheDark.p_ReA PotCPintheDark.p_ImA PotCPintheDark.p_L1 PotCPintheDark.p_L2 PotCPintheDark.p_L3 PotCPintheDark.p_L4 PotCPintheDark.p_L5 PotCPintheDark.p_L6 PotCPintheDark.p_L7 PotCPintheDark.p_L8].
    expand_doublets. field.
Qed.
(** there VTree with diff = 1 is not the derivative of VTree with diff = 0 *)
Lemma C2HDM_gradient : exists p v, length v = PotC2HDM.N /\ tree_C2HDM p v 1 false = Ok 1 /\ partial_derivative Ok (fun w => tree_C2HDM p w 0 false) v 0 0.
Proof.
  exists (PotC2HDM.mkP 1 0 0 0 0 0 0 0 0 0), [1; 0; 0; 0; 0; 0; 0; 0]. split; [reflexivity|]. split.
  - destruct (tree_derivatives _ _ _ _ _ _ (PotC2HDMProofs.tree_ok (PotC2HDM.mkP 1 0 0 0 0 0 0 0 0 0)) [1; 0; 0; 0; 0; 0; 0; 0] 0%nat eq_refl ltac:(unfold PotC2HDM.N; lia)) as (d & E & g & G & D).
    change (Z.of_nat 1) with 1%Z in E. unfold tree_C2HDM, VTree_of. cbn [negb VTreeSimplified_C2HDM get nth_error bind use_tree_C2HDM andb Z.eqb]. rewrite E. apply f_equal.
    apply (uniqueness_limite g 1); [exact D|].
    apply (derivable_pt_lim_ext (fun t => t * t / 2)).
    { intro t. specialize (G t). rewrite PotC2HDMProofs.tree_value in G by reflexivity. apply Ok_inj in G. rewrite <- G. unfold moved. cbn [firstn skipn app].
      cbn [PotC2HDM.p_u1 PotC2HDM.p_u2 PotC2HDM.p_RealMMix PotC2HDM.p_Iu3 PotC2HDM.p_L1 PotC2HDM.p_L2 PotC2HDM.p_L3 PotC2HDM.p_L4 PotC2HDM.p_RL5 PotC2HDM.p_IL5].
      expand_doublets. field. }
    cbn [nth]. apply is_derive_Reals. auto_derive; [exact I|]. field.
  - exists (fun _ => 0). split; [|apply derivable_pt_lim_const]. intro t. cbn. apply f_equal. field.
Qed.
