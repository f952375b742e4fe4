(** C50-C53, C59, C70, C71: tensors, potential, mass matrix, vev conversion. *)
From Coq Require Import Reals Lra Lia ZArith QArith Qabs List Permutation Sorted.
From Verif.Model Require Import Base Potential Vacua.
From Verif.Spec Require Import NumDerivSpec PotentialSpec.
From Verif.Proofs Require Import TensorProofs PotentialProofs VevProofs.
Import ListNotations.
Local Open Scope R_scope.

(** ** C50 *)
Theorem C50_rank2 :
  forall A n (T : tensor A),
    symmetric_tensor n 2 (sym2Dim T n n) /\
    (forall i, length i = 2%nat -> below n i -> canonical i -> sym2Dim T n n i = T i) /\
    (forall i, length i <> 2%nat \/ ~ below n i -> sym2Dim T n n i = T i).
Proof. exact @sym2_ok. Qed.
Print Assumptions C50_rank2.

Theorem C50_rank3 :
  forall A n (T : tensor A),
    symmetric_tensor n 3 (sym3Dim T n n n) /\
    (forall i, length i = 3%nat -> below n i -> canonical i -> sym3Dim T n n n i = T i) /\
    (forall i, length i <> 3%nat \/ ~ below n i -> sym3Dim T n n n i = T i).
Proof. exact @sym3_ok. Qed.
Print Assumptions C50_rank3.

Theorem C50_rank4 :
  forall A n (T : tensor A),
    symmetric_tensor n 4 (sym4Dim T n n n n) /\
    (forall i, length i = 4%nat -> below n i -> canonical i -> sym4Dim T n n n n i = T i) /\
    (forall i, length i <> 4%nat \/ ~ below n i -> sym4Dim T n n n n i = T i).
Proof. exact @sym4_ok. Qed.
Print Assumptions C50_rank4.

Example C50_nonvacuous :
  let T := fun i : list nat => fold_left (fun s k => 10 * s + k)%nat i 0%nat in
  sym4Dim T 4 4 4 4 [3; 0; 2; 1]%nat = 123%nat /\ T [3; 0; 2; 1]%nat <> 123%nat /\ canonical [0; 1; 2; 3]%nat /\ below 4 [3; 0; 2; 1]%nat.
Proof.
  cbn zeta. split; [vm_compute; reflexivity|]. split; [vm_compute; discriminate|]. split; repeat constructor.
Qed.

(** ** C51 *)
Theorem C51_tree_value :
  forall n L1 L2 L3 L4 v, length v = n ->
    VTree n L1 L2 L3 L4 v 0 = Ok (quartic n L1 L2 L3 L4 (fun k => nth k v 0)).
Proof. exact VTree0. Qed.
Print Assumptions C51_tree_value.

Theorem C51_tree_gradient :
  forall n L1 L2 L3 L4, sym2 n L2 -> sym3 n L3 -> sym4 n L4 ->
  forall v i, length v = n -> (i < n)%nat ->
    exists d, VTree n L1 L2 L3 L4 v (Z.of_nat (S i)) = Ok d /\ partial_derivative Ok (fun w => VTree n L1 L2 L3 L4 w 0) v i d.
Proof. exact tree_gradient. Qed.
Print Assumptions C51_tree_gradient.

Theorem C51_counterterm_gradient :
  forall n L1 L2 L3 L4, sym2 n L2 -> sym3 n L3 -> sym4 n L4 ->
  forall v i, length v = n -> (i < n)%nat ->
    exists d, CounterTerm n L1 L2 L3 L4 v (Z.of_nat (S i)) = Ok d /\
      partial_derivative Ok (fun w => CounterTerm n L1 L2 L3 L4 w 0) v i d.
Proof. exact ct_gradient. Qed.
Print Assumptions C51_counterterm_gradient.

(** the mass matrix at zero temperature is the (symmetric) Hessian of the potential *)
Theorem C51_mass_matrix_is_hessian :
  forall n L1 L2 L3 L4 Debye, sym2 n L2 -> sym3 n L3 -> sym4 n L4 ->
  forall v, length v = n ->
    exists M, HiggsMassMatrix n L2 L3 L4 Debye v 0 0 = Ok M /\ forall i j, (i < n)%nat -> (j < n)%nat ->
      M i j = M j i /\ partial_derivative Ok (fun w => VTree n L1 L2 L3 L4 w (Z.of_nat (S i))) v j (M i j).
Proof. exact mass_is_hessian. Qed.
Print Assumptions C51_mass_matrix_is_hessian.

(** derivatives of the mass matrix with respect to a field and to the temperature *)
Theorem C51_mass_matrix_field_derivative :
  forall n L2 L3 L4 Debye, sym3 n L3 -> sym4 n L4 ->
  forall v, length v = n -> forall T m, (m < n)%nat ->
    exists M3, HiggsMassMatrix n L2 L3 L4 Debye v T (Z.of_nat (S m)) = Ok M3 /\
      forall i j, (i < n)%nat -> (j < n)%nat ->
        partial_derivative Some (fun w => match HiggsMassMatrix n L2 L3 L4 Debye w T 0 with Ok M => Some (M i j) | _ => None end) v m (M3 i j).
Proof. exact mass_field_derivative. Qed.
Print Assumptions C51_mass_matrix_field_derivative.

Theorem C51_mass_matrix_temperature_derivative :
  forall n L2 L3 L4 Debye v, length v = n -> forall T,
    (forall i j, (i < n)%nat -> (j < n)%nat -> Debye i j = Debye j i) ->
    exists MT, HiggsMassMatrix n L2 L3 L4 Debye v T (-1) = Ok MT /\
      forall i j, (i < n)%nat -> (j < n)%nat ->
        exists g, (forall t, (match HiggsMassMatrix n L2 L3 L4 Debye v t 0 with Ok M => Some (M i j) | _ => None end) = Some (g t)) /\
          derivable_pt_lim g T (MT i j).
Proof. exact mass_T_derivative. Qed.
Print Assumptions C51_mass_matrix_temperature_derivative.

Theorem C51_counterterm_nabla_and_hessian :
  forall n L1 L2 L3 L4, sym2 n L2 -> sym3 n L3 -> sym4 n L4 ->
  forall v, length v = n ->
    (exists g, NablaVCT n L1 L2 L3 L4 v = Ok g /\ forall i, (i < n)%nat ->
       CounterTerm n L1 L2 L3 L4 v (Z.of_nat (S i)) = Ok (g i) /\
       partial_derivative Ok (fun w => CounterTerm n L1 L2 L3 L4 w 0) v i (g i)) /\
    (exists H, HessianCT n L2 L3 L4 v = Ok H /\ forall i j, (i < n)%nat -> (j < n)%nat ->
       H i j = H j i /\ partial_derivative Ok (fun w => CounterTerm n L1 L2 L3 L4 w (Z.of_nat (S i))) v j (H i j)).
Proof. intros n L1 L2 L3 L4 S2 S3 S4 v Hv. split; [now apply nabla_ct|now apply hessian_ct]. Qed.
Print Assumptions C51_counterterm_nabla_and_hessian.

Example C51_nonvacuous :
  let L4 := fun i j k l : nat => INR (i + j + k + l) in
  sym4 2 L4 /\ VTree 2 (fun _ => 0) (fun _ _ => 0) (fun _ _ _ => 0) L4 [1; 0] 2 = Ok (1 / 6).
Proof.
  cbn zeta. split.
  - intros i j k l _ _ _ _. split; [|split]; f_equal; lia.
  - change 2%Z with (Z.of_nat 2). rewrite VTree1 by (reflexivity || lia). unfold grad. f_equal. cbn. lra.
Qed.

(** ** C52 *)
Theorem C52_vector_form_irrelevant_partial :
  forall NHiggs nVEV VevOrder tree Tree CT Loop1 v w T diff order,
    length v = nVEV -> nVEV <> NHiggs -> order <> 0%Z ->
    MinimizeOrderVEV 0 VevOrder v NHiggs = Ok w -> length w = NHiggs ->
    VEff NHiggs nVEV VevOrder tree Tree CT Loop1 v T diff order = VEff NHiggs nVEV VevOrder tree Tree CT Loop1 w T diff order.
Proof.
  intros NHiggs nVEV VevOrder tree Tree CT Loop1 v w T diff order Lv N O E Lw. unfold VEff. rewrite Lv, Lw, !Nat.eqb_refl.
  destruct (Nat.eqb_spec nVEV NHiggs) as [|_]; [contradiction|]. destruct (Nat.eqb_spec NHiggs nVEV) as [|_]; [congruence|].
  cbn [andb negb]. rewrite E. cbn [bind]. unfold VEff_full. destruct (Z.eqb_spec order 0) as [|_]; [contradiction|]. reflexivity.
Qed.
Print Assumptions C52_vector_form_irrelevant_partial.

(** for order 0 (tree level) the short form still gets the loop corrections *)
Theorem C52_tree_order_partial :
  forall NHiggs nVEV VevOrder Tree CT Loop1 v w T diff t c l,
    length v = nVEV -> nVEV <> NHiggs -> MinimizeOrderVEV 0 VevOrder v NHiggs = Ok w -> length w = NHiggs ->
    Tree w diff = Ok t -> CT w diff = Ok c -> Loop1 w T diff = Ok l ->
    VEff NHiggs nVEV VevOrder false Tree CT Loop1 w T diff 0 = Ok t /\
    VEff NHiggs nVEV VevOrder false Tree CT Loop1 v T diff 0 = Ok (t + c + l).
Proof.
  intros NHiggs nVEV VevOrder Tree CT Loop1 v w T diff t c l Lv N E Lw ET EC EL. unfold VEff. rewrite Lv, Lw, !Nat.eqb_refl.
  destruct (Nat.eqb_spec nVEV NHiggs) as [|_]; [contradiction|]. destruct (Nat.eqb_spec NHiggs nVEV) as [|_]; [congruence|].
  cbn [andb negb]. rewrite E. cbn [bind]. unfold VEff_full. rewrite ET, EC, EL. cbn. auto.
Qed.
Print Assumptions C52_tree_order_partial.

(** a vector with any other number of entries is refused; a complete vector gives the tree-level potential
    for order 0 or when only tree level is asked for, and the sum with counterterms and loop part otherwise;
    an error of one of the parts is passed on *)
Theorem C52_value :
  forall NHiggs nVEV VevOrder UseTree Tree CT Loop1 v T diff order,
    (length v <> nVEV -> length v <> NHiggs -> VEff NHiggs nVEV VevOrder UseTree Tree CT Loop1 v T diff order = Throw RuntimeError) /\
    (length v = NHiggs -> order = 0%Z \/ UseTree = true -> VEff NHiggs nVEV VevOrder UseTree Tree CT Loop1 v T diff order = Tree v diff) /\
    (length v = NHiggs -> order <> 0%Z -> UseTree = false ->
       forall r, VEff NHiggs nVEV VevOrder UseTree Tree CT Loop1 v T diff order = Ok r <->
         exists t c l, Tree v diff = Ok t /\ CT v diff = Ok c /\ Loop1 v T diff = Ok l /\ r = t + c + l).
Proof.
  intros NHiggs nVEV VevOrder UseTree Tree CT Loop1 v T diff order. unfold VEff. split; [|split].
  - intros A B. destruct (Nat.eqb_spec (length v) nVEV) as [|_]; [contradiction|]. destruct (Nat.eqb_spec (length v) NHiggs) as [|_]; [contradiction|]. reflexivity.
  - intros A B. rewrite A, Nat.eqb_refl, (Nat.eqb_sym NHiggs nVEV). destruct (Nat.eqb_spec nVEV NHiggs) as [|_]; cbn [andb negb];
      unfold VEff_full; (replace (negb (Z.eqb order 0) && negb UseTree) with false by
        (symmetry; apply andb_false_iff; destruct B as [-> | ->]; [left; reflexivity|right; reflexivity])); destruct (Tree v diff); reflexivity.
  - intros A B C r. subst UseTree. rewrite A, Nat.eqb_refl, (Nat.eqb_sym NHiggs nVEV). rewrite andb_negb_r, andb_false_r.
    unfold VEff_full. destruct (Z.eqb_spec order 0) as [|_]; [contradiction|]. cbn [negb andb].
    destruct (Tree v diff) as [t| | |]; cbn [bind]; [|split; [discriminate|intros (? & ? & ? & ? & _); discriminate]..].
    destruct (CT v diff) as [c| | |]; cbn [bind]; [|split; [discriminate|intros (? & ? & ? & ? & ? & _); discriminate]..].
    destruct (Loop1 v T diff) as [l| | |]; cbn [bind]; [|split; [discriminate|intros (? & ? & ? & ? & ? & ? & _); discriminate]..].
    split; [intros [= <-]; eauto 10|]. intros (t' & c' & l' & E1 & E2 & E3 & ->). congruence.
Qed.
Print Assumptions C52_value.

(** a quadratic tree-level potential with a quartic counterterm in the R2HDM's layout *)
Theorem C52_vector_form_refuted :
  exists NHiggs nVEV VevOrder Tree CT Loop1 v w T,
    length v = nVEV /\ MinimizeOrderVEV 0 VevOrder v NHiggs = Ok w /\ length w = NHiggs /\
    VEff NHiggs nVEV VevOrder false Tree CT Loop1 v T 0 0 <> VEff NHiggs nVEV VevOrder false Tree CT Loop1 w T 0 0.
Proof.
  pose (Tree := fun (v : list R) (_ : Z) => Ok (nth 6 v 0 * nth 6 v 0)).
  pose (CT := fun (v : list R) (_ : Z) => Ok (nth 7 v 0)).
  pose (Lp := fun (_ : list R) (_ : R) (_ : Z) => Ok 0).
  exists 8%nat, 4%nat, [2; 4; 6; 7]%nat, Tree, CT, Lp, [0; 0; 1; 1], [0; 0; 0; 0; 0; 0; 1; 1], 0.
  split; [reflexivity|]. split; [reflexivity|]. split; [reflexivity|].
  cbn. intro E. injection E as E. lra.
Qed.
Print Assumptions C52_vector_form_refuted.

Example C52_nonvacuous : exists w, MinimizeOrderVEV 0 [2; 4; 6; 7]%nat [1; 2; 3; 4] 8 = Ok w /\ length w = 8%nat.
Proof. eexists. split; reflexivity. Qed.

(** ** C53 *)
(** whatever the table: safe exactly when the last field carries a vev *)
Theorem C53_conversion :
  forall n order (v : list R), length v = length order -> StronglySorted lt order -> Forall (fun o => (o < n)%nat) order -> (0 < n)%nat ->
    (In (n - 1)%nat order -> exists w, MinimizeOrderVEV 0 order v n = Ok w /\ placed 0 n order v w) /\
    (~ In (n - 1)%nat order -> MinimizeOrderVEV 0 order v n = UB).
Proof. exact (order_spec 0). Qed.
Print Assumptions C53_conversion.

Theorem C53_shipped_models_partial :
  forall name n order, In (name, (n, order)) model_tables -> name <> s2l "sm" ->
    forall v : list R, length v = length order -> exists w, MinimizeOrderVEV 0 order v n = Ok w /\ placed 0 n order v w.
Proof.
  intros name n order I N v Lv.
  assert (H : StronglySorted lt order /\ Forall (fun o => (o < n)%nat) order /\ (0 < n)%nat /\ In (n - 1)%nat order).
  { unfold model_tables in I.
    repeat (apply in_inv in I; destruct I as [I|I];
      [injection I as <- <- <-; first [exfalso; apply N; reflexivity
        |split; [repeat constructor; lia|split; [repeat constructor; lia|split; [lia|cbn; tauto]]]]|]). destruct I. }
  destruct H as (H1 & H2 & H3 & H4). now apply (C53_conversion n order v).
Qed.
Print Assumptions C53_shipped_models_partial.

Theorem C53_shipped_models_refuted :
  exists name n order, In (name, (n, order)) model_tables /\
    forall v : list R, length v = length order -> MinimizeOrderVEV 0 order v n = UB.
Proof.
  exists (s2l "sm"), 4%nat, [2%nat]. split; [unfold model_tables; cbn; tauto|]. intros v Lv.
  destruct (C53_conversion 4 [2%nat] v Lv) as [_ H]; [repeat constructor|repeat constructor|lia|].
  apply H. cbn. intros [E|[]]. discriminate E.
Qed.
Print Assumptions C53_shipped_models_refuted.

(** the table is the one the vacua of the models are stated with (C99) *)
Theorem C53_orders :
  In (s2l "sm", (4%nat, order_SM)) model_tables /\ In (s2l "cxsm", (6%nat, order_CxSM)) model_tables /\
  In (s2l "r2hdm", (8%nat, order_R2HDM)) model_tables /\ In (s2l "c2hdm", (8%nat, order_C2HDM false)) model_tables /\
  In (s2l "c2hdm charge breaking", (8%nat, order_C2HDM true)) model_tables /\
  In (s2l "n2hdm", (9%nat, order_N2HDM)) model_tables /\ In (s2l "cpinthedark", (9%nat, order_CPintheDark)) model_tables.
Proof. repeat split; cbn; tauto. Qed.
Print Assumptions C53_orders.

Example C53_nonvacuous : MinimizeOrderVEV 0%Z [2; 4; 6; 7]%nat [1; 2; 3; 4]%Z 8 = Ok [0; 0; 1; 0; 2; 0; 3; 4]%Z.
Proof. reflexivity. Qed.

(** ** C59 *)
Theorem C59_acceptance_partial :
  forall nVEV vevTreeMin v, (nVEV <= length v)%nat -> (nVEV <= length vevTreeMin)%nat ->
    (forall k, (k < nVEV)%nat -> nth_error v k <> Some None /\ nth_error vevTreeMin k <> Some None) ->
    exists b, CheckNLOVEV nVEV vevTreeMin v = Ok b /\ (b = true <-> close_to_tree nVEV vevTreeMin v).
Proof.
  intros nV t v A B NN. destruct (check_spec nV t v A B) as (b & E & I). exists b. split; [exact E|]. rewrite I. split.
  - intros H k K. destruct (NN k K) as [N1 N2].
    destruct (nth_error v k) as [[x|]|] eqn:EX; [|congruence|apply nth_error_None in EX; lia].
    destruct (nth_error t k) as [[y|]|] eqn:EY; [|congruence|apply nth_error_None in EY; lia].
    exists x, y. split; [reflexivity|]. split; [reflexivity|]. now apply (H k).
  - intros H k x y K X Y. destruct (H k K) as (x' & y' & X' & Y' & D). rewrite X in X'. rewrite Y in Y'.
    injection X' as <-. injection Y' as <-. exact D.
Qed.
Print Assumptions C59_acceptance_partial.

(** with NaN: the components that are not numbers are ignored *)
Theorem C59_nan_ignored :
  forall nVEV vevTreeMin v, (nVEV <= length v)%nat -> (nVEV <= length vevTreeMin)%nat ->
    exists b, CheckNLOVEV nVEV vevTreeMin v = Ok b /\
      (b = true <-> forall k x y, (k < nVEV)%nat -> nth_error v k = Some (Some x) -> nth_error vevTreeMin k = Some (Some y) ->
         (Qabs (Qabs x - Qabs y) < 1)%Q).
Proof. exact check_spec. Qed.
Print Assumptions C59_nan_ignored.

Theorem C59_nan_accepted_refuted :
  exists nVEV vevTreeMin v, length v = nVEV /\ length vevTreeMin = nVEV /\ In None v /\
    CheckNLOVEV nVEV vevTreeMin v = Ok true /\ ~ close_to_tree nVEV vevTreeMin v.
Proof.
  exists 1%nat, [Some 246%Q], [None]. split; [reflexivity|]. split; [reflexivity|]. split; [now left|]. split; [vm_compute; reflexivity|].
  intro H. destruct (H 0%nat ltac:(lia)) as (x & y & E & _). discriminate E.
Qed.
Print Assumptions C59_nan_accepted_refuted.

Example C59_nonvacuous :
  CheckNLOVEV 2 [Some 246; Some 0]%Q [Some (-245.5); Some 0.25]%Q = Ok true /\
  CheckNLOVEV 2 [Some 246; Some 0]%Q [Some 245; Some 0]%Q = Ok false.
Proof. vm_compute. auto. Qed.

(** ** C70 *)
Theorem C70_coupled_vevs_zeroed_partial :
  forall charged order n sol,
    length sol = length order -> StronglySorted lt order -> Forall (fun o => (o < n)%nat) order -> coupled_first charged order ->
    ((exists o, In o order /\ charged o = false) \/ (forall i, charged i = true -> exists o, In o order /\ (i <= o)%nat)) ->
    exists sol', SetEWVEVZero charged order n sol = Ok sol' /\ ew_zeroed charged order sol sol'.
Proof. exact ewzero_spec. Qed.
Print Assumptions C70_coupled_vevs_zeroed_partial.

(** a singlet coordinate in front of a doublet one keeps the latter from being zeroed *)
Theorem C70_singlet_first_refuted :
  exists charged order n sol sol', length sol = length order /\ StronglySorted lt order /\ Forall (fun o => (o < n)%nat) order /\
    SetEWVEVZero charged order n sol = Ok sol' /\ ~ ew_zeroed charged order sol sol'.
Proof.
  exists (fun i => Nat.ltb 0 i), [0; 4]%nat, 5%nat, [5; 7], [5; 7]. split; [reflexivity|]. split; [repeat constructor|]. split; [repeat constructor; lia|].
  split; [reflexivity|]. intros [_ H]. specialize (H 1%nat 4%nat eq_refl). cbn in H. injection H as H. lra.
Qed.
Print Assumptions C70_singlet_first_refuted.

(** in the Standard Model (four coupled fields, vev at position 2) the table is read past its end *)
Theorem C70_standard_model_refuted :
  forall charged, (forall i, (i < 4)%nat -> charged i = true) -> forall x, SetEWVEVZero charged [2%nat] 4 [x] = UB.
Proof. intros c H x. unfold SetEWVEVZero. cbn. rewrite !H by lia. reflexivity. Qed.
Print Assumptions C70_standard_model_refuted.

Example C70_nonvacuous :
  let charged := fun i => Nat.ltb i 8 in
  coupled_first charged [1; 5; 6; 7; 8]%nat /\ SetEWVEVZero charged [1; 5; 6; 7; 8]%nat 9 [1; 2; 3; 4; 5] = Ok [0; 0; 0; 0; 5].
Proof.
  cbn zeta. split; [|reflexivity]. intros k l a b K A B C. do 6 (destruct l as [|l]; [destruct k as [|[|[|[|[|k]]]]]; cbn in A, B; try lia; try discriminate; injection A as <-; injection B as <-; cbn in *; congruence|]).
  destruct l; discriminate B.
Qed.

(** ** C71 *)
Theorem C71_electroweak_vev :
  forall NHiggs (charged : nat -> bool) (v : list R), (NHiggs <= length v)%nat ->
    let s := sqrt (sumR NHiggs (fun i => if charged i then nth i v 0 ^ 2 else 0)) in
    exists r, EWSBVEV NHiggs charged v = Ok r /\ (s <= 1 / 2 -> r = 0) /\ (1 / 2 < s -> r = s).
Proof.
  intros N c v L s. unfold EWSBVEV.
  destruct (existsb _ _) eqn:E.
  - apply existsb_exists in E as (i & I & J). apply in_seq in I. apply andb_prop in J as [_ J]. apply Nat.leb_le in J. lia.
  - rewrite (accum_sum N _ (fun i => if c i then nth i v 0 ^ 2 else 0)) by (intros; destruct (c k); lra). rewrite Rplus_0_l. fold s.
    eexists. split; [reflexivity|]. destruct (Rle_dec s 0.5); split; intro; try reflexivity; lra.
Qed.
Print Assumptions C71_electroweak_vev.

(** only the coupled fields matter *)
Theorem C71_uncoupled_irrelevant :
  forall NHiggs (charged : nat -> bool) (v w : list R), (NHiggs <= length v)%nat -> (NHiggs <= length w)%nat ->
    (forall i, (i < NHiggs)%nat -> charged i = true -> Rabs (nth i v 0) = Rabs (nth i w 0)) ->
    EWSBVEV NHiggs charged v = EWSBVEV NHiggs charged w.
Proof.
  intros N c v w Lv Lw H. destruct (C71_electroweak_vev N c v Lv) as (r & E & A & B).
  destruct (C71_electroweak_vev N c w Lw) as (r' & E' & A' & B'). rewrite E, E'.
  assert (EQ : sumR N (fun i => if c i then nth i v 0 ^ 2 else 0) = sumR N (fun i => if c i then nth i w 0 ^ 2 else 0)).
  { apply NumDerivProofs.sumR_ext. intros i Hi. destruct (c i) eqn:C; [|reflexivity]. rewrite <- !Rsqr_pow2, Rsqr_abs, (Rsqr_abs (nth i w 0)). now rewrite (H i Hi C). }
  rewrite EQ in A, B. destruct (Rle_lt_dec (sqrt (sumR N (fun i => if c i then nth i w 0 ^ 2 else 0))) (1 / 2)) as [G|G].
  - now rewrite (A G), (A' G).
  - now rewrite (B G), (B' G).
Qed.
Print Assumptions C71_uncoupled_irrelevant.

Theorem C71_short_vector_rejected :
  forall NHiggs charged v, (length v < NHiggs)%nat -> (exists i, (length v <= i < NHiggs)%nat /\ charged i = true) ->
    EWSBVEV NHiggs charged v = Throw OutOfRange.
Proof.
  intros N c v L (i & H & C). unfold EWSBVEV. destruct (existsb _ _) eqn:E; [reflexivity|].
  assert (X : existsb (fun i => c i && Nat.leb (length v) i)%bool (seq 0 N) = true); [|congruence].
  apply existsb_exists. exists i. split; [apply in_seq; lia|]. rewrite C. cbn. apply Nat.leb_le. lia.
Qed.
Print Assumptions C71_short_vector_rejected.

Example C71_nonvacuous : EWSBVEV 3 (fun i => Nat.ltb i 2) [3; 4; 100] = Ok 5.
Proof.
  destruct (C71_electroweak_vev 3 (fun i => Nat.ltb i 2) [3; 4; 100] ltac:(cbn; lia)) as (r & E & A & B).
  rewrite E. f_equal. cbn in B. replace (0 + 3 * (3 * 1) + 4 * (4 * 1) + 0) with (5 * 5) in B by ring. rewrite sqrt_square in B by lra. apply B. lra.
Qed.
