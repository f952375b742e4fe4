(** The tree-level vacua set by set_gen are stationary points. *)
From Coq Require Import Reals Lra Lia ZArith List Permutation Bool.
From Verif.Model Require Import Base Potential Tables Vacua.
From Verif.Model Require PotSM PotCxSM PotR2HDM PotC2HDM PotN2HDM PotCPintheDark.
From Verif.Spec Require Import NumDerivSpec PotentialSpec ScalarSpec WardSpec.
From Verif.Proofs Require Import Contract Contract2 TabTac VacTac VacuumCore.
From Verif.Proofs Require PotSMProofs PotCxSMProofs PotR2HDMProofs PotC2HDMProofs PotN2HDMProofs PotCPintheDarkProofs.
Import ListNotations.
Local Open Scope R_scope.

Ltac place P := apply placed_spread in P; [|nodup|reflexivity];
  cbv [spread order_SM order_CxSM order_R2HDM order_C2HDM order_N2HDM order_CPintheDark seq map combine fold_right fst snd Nat.eqb
       PotSM.N PotCxSM.N PotR2HDM.N PotC2HDM.N PotN2HDM.N PotCPintheDark.N] in P; subst.
Lemma vac_eq n T T' ds w w' x x' : vacuum_at n T ds w x -> T = T' -> w = w' -> x = x' -> vacuum_at n T' ds w' x'.
Proof. now intros H -> -> ->. Qed.

Ltac list_ring := repeat match goal with |- _ :: _ = _ :: _ => apply f_equal2; [first [reflexivity|ring]|] end; reflexivity.
Ltac norm_beta E := match type of E with ?x = 1 => match goal with |- _ = ?v ^ 2 => transitivity (v ^ 2 * x); [ring|rewrite E; ring] end end.
Lemma SM_vacuum v0 MH par p vev w : v0 <> 0 -> set_gen_SM v0 MH par = Ok (p, vev) -> placed 0 PotSM.N order_SM vev w ->
  vacuum_at PotSM.N (PotSM.SetCurvatureArrays p) slots_SM w (v0 ^ 2).
Proof.
  intros V E P. apply Ok_inj in E. apply pair_equal_spec in E as [<- <-]. place P.
  apply (vac_eq _ _ _ _ _ _ _ _ (SM_core (- (- MH ^ 2 / 2) * / v0 ^ 2) v0)); [|reflexivity|reflexivity].
  do 2 f_equal. field. assumption.
Qed.
Lemma SM_mass v0 MH par p vev w : v0 <> 0 -> set_gen_SM v0 MH par = Ok (p, vev) -> placed 0 PotSM.N order_SM vev w ->
  exists M, mass_matrix PotSM.N (PotSM.SetCurvatureArrays p) w = Ok M /\
    forall i j, (i < 4)%nat -> (j < 4)%nat -> M i j = if (Nat.eqb i 2 && Nat.eqb j 2)%bool then MH ^ 2 else 0.
Proof.
  intros V E P. apply Ok_inj in E. apply pair_equal_spec in E as [<- <-]. place P.
  match goal with |- context [PotSM.SetCurvatureArrays ?p] => pose proof (PotSMProofs.tree_ok p) as G end.
  assert (HS : forall k, inb [2%nat] k = false -> nth k [0; 0; v0; 0] 0 = 0) by support.
  match type of G with good _ _ ?t1 ?t2 ?t3 ?t4 => compute_as Kh (hess_rows PotSM.N t2 t3 t4 [0; 0; v0; 0] [2%nat]) end.
  destruct (tree_hess_rows _ _ _ _ _ _ G [0; 0; v0; 0] eq_refl _ HS _ Kh) as (M & E & A). exists M. split; [exact E|].
  intros i j I J. rewrite A by assumption. clear - I J V. cases_lt i I; cases_lt j J; evalat; field; assumption.
Qed.

Lemma R2HDM_vacuum v0 par p vev cs w : nth 6 par 0 <> 0 -> set_gen_R2HDM v0 par = Ok (p, vev, cs) -> placed 0 PotR2HDM.N order_R2HDM vev w ->
  vacuum_at PotR2HDM.N (PotR2HDM.SetCurvatureArrays p) slots_2HDM w (v0 ^ 2).
Proof.
  intros T E P. do 8 (destruct par as [|? par]; [discriminate E|]). cbn [nth] in T. apply Ok_inj in E.
  apply pair_equal_spec in E as [E _]. apply pair_equal_spec in E as [<- <-].
  match type of T with ?t <> 0 => destruct (beta_facts t) as (C0 & E1 & E2 & E3 & E4 & E5); rewrite E1, E2, E5 in *; clear E1 E2 E4 E5;
    set (c := CosBeta t) in *; clearbody c end.
  place P.
  match type of T with ?t <> 0 => 
  match goal with |- context [PotR2HDM.mkP _ _ ?m ?a ?b ?d ?e ?f] =>
    apply (vac_eq _ _ _ _ _ _ _ _ (R2HDM_core (m / t) t (v0 * c) a b d e f)) end end.
  - do 2 f_equal; field; assumption.
  - list_ring.
  - norm_beta E3.
Qed.

Lemma C2HDM_vacuum cb v0 par p vev cs w : 0 < nth 7 par 0 -> set_gen_C2HDM cb v0 par = Ok (p, vev, cs) -> placed 0 PotC2HDM.N (order_C2HDM cb) vev w ->
  vacuum_at PotC2HDM.N (PotC2HDM.SetCurvatureArrays p) slots_2HDM w (v0 ^ 2).
Proof.
  intros T E P. do 9 (destruct par as [|? par]; [discriminate E|]). cbn [nth] in T. apply Ok_inj in E.
  apply pair_equal_spec in E as [E _]. apply pair_equal_spec in E as [<- <-].
  match type of T with 0 < ?t => destruct (beta_facts t) as (C0 & E1 & E2 & E3 & E4 & E5); rewrite E1, E2, E4 in *; clear E1 E2 E4 E5;
    rewrite (Rabs_right t) in * by lra; set (c := CosBeta t) in *; clearbody c end.
  assert (w = [0; 0; 0; 0; v0 * c; 0; v0 * (r6 * c); 0]) as -> by (destruct cb; place P; reflexivity).
  clear P. match type of T with 0 < ?t => 
  match goal with |- context [PotC2HDM.mkP _ _ ?m _ ?a ?b ?d ?e ?f ?g] =>
    apply (vac_eq _ _ _ _ _ _ _ _ (C2HDM_core (m / t) t (v0 * c) a b d e f g)) end end.
  - do 2 f_equal; field; lra.
  - list_ring.
  - norm_beta E3.
Qed.
Lemma N2HDM_vacuum v0 par p vev cs w : 0 < nth 8 par 0 -> set_gen_N2HDM v0 par = Ok (p, vev, cs) -> placed 0 PotN2HDM.N order_N2HDM vev w ->
  vacuum_at PotN2HDM.N (PotN2HDM.SetCurvatureArrays p) slots_N2HDM w (v0 ^ 2).
Proof.
  intros T E P. do 12 (destruct par as [|? par]; [discriminate E|]). cbn [nth] in T. apply Ok_inj in E.
  apply pair_equal_spec in E as [E _]. apply pair_equal_spec in E as [<- <-].
  match type of T with 0 < ?t => destruct (beta_facts t) as (C0 & E1 & E2 & E3 & E4 & E5); rewrite E4 in *; clear E1 E2 E4 E5;
    rewrite (Rabs_right t) in * by lra; set (c := CosBeta t) in *; clearbody c end.
  place P. match type of T with 0 < ?t => 
  match goal with |- context [PotN2HDM.mkP _ _ ?m ?a ?b ?d ?e ?f _ ?g ?h ?k] =>
    match goal with |- context [[0; 0; 0; 0; 0; 0; _; _; ?vs]] =>
    apply (vac_eq _ _ _ _ _ _ _ _ (N2HDM_core (m / t) t (v0 * c) vs a b d e f g h k)) end end end.
  - do 2 f_equal; field; lra.
  - list_ring.
  - norm_beta E3.
Qed.
Lemma CPintheDark_vacuum v0 par p vev w : set_gen_CPintheDark v0 par = Ok (p, vev) -> placed 0 PotCPintheDark.N order_CPintheDark vev w ->
  nth 0 par 0 = - nth 5 par 0 * v0 ^ 2 / 2 ->
  vacuum_at PotCPintheDark.N (PotCPintheDark.SetCurvatureArrays p) slots_2HDM w (v0 ^ 2).
Proof.
  intros E P M. do 13 (destruct par as [|? par]; [discriminate E|]). cbn [nth] in M. apply Ok_inj in E.
  apply pair_equal_spec in E as [<- <-]. place P. apply CPintheDark_core.
Qed.
Lemma CxSM_vacuum par p vev w : set_gen_CxSM par = Ok (p, vev) -> placed 0 PotCxSM.N order_CxSM vev w ->
  vacuum_at PotCxSM.N (PotCxSM.SetCurvatureArrays p) slots_CxSM w (nth 0 par 0 ^ 2).
Proof.
  intros E P. do 12 (destruct par as [|? par]; [discriminate E|]). cbn [nth]. unfold set_gen_CxSM in E.
  assert (S2 : sqrt 2 * sqrt 2 = 2) by (apply sqrt_sqrt; lra). pose proof sqrt2_nonzero as S0.
  set (q := sqrt 2) in *. assert (X : forall x, x / q = x * q / 2) by (intro x; rewrite <- S2; field; exact S0).
  assert (Y : forall a b, a * q = b -> a = b * q / 2) by (intros a b <-; rewrite Rmult_assoc, S2; field).
  match type of E with (if Req_EM_T ?a 0 then _ else _) = _ => destruct (Req_EM_T a 0) as [A|A] end;
  match type of E with (if Req_EM_T ?a 0 then _ else _) = _ => destruct (Req_EM_T a 0) as [B|B] end;
  apply Ok_inj in E; apply pair_equal_spec in E as [<- <-]; place P;
  match goal with |- context [PotCxSM.mkP _ ?a ?b ?d ?e ?f ?g _ _] => match goal with |- context [[0; 0; 0; ?h; ?s; ?z]] =>
    apply (vac_eq _ _ _ _ _ _ _ _ (CxSM_core h s z a b d e f g)); [|reflexivity|reflexivity] end end;
  fold q; do 2 f_equal; try reflexivity; try (field; assumption); rewrite ?X; try (field [S2]; assumption).
Qed.

(** a single component of the gradient at the vacuum *)
Ltac refute_at n G v S i E :=
  let HS := fresh "HS" in let Kg := fresh "Kg" in
  assert (HS : forall k, inb S k = false -> nth k v 0 = 0) by support;
  match type of G with good _ _ ?t1 ?t2 ?t3 ?t4 => compute_as Kg (grad_row n t1 t2 t3 t4 v S) end;
  let B := fresh "B" in assert (B : (i < n)%nat) by (unfold n; lia);
  pose proof (E i B) as X; rewrite (tree_grad_row _ _ _ _ _ _ G v eq_refl _ HS _ Kg i B) in X; apply Ok_inj in X; cbn [nth] in X.
Lemma C2HDM_negative v0 cb : 0 < v0 -> exists par p vev cs w, set_gen_C2HDM cb v0 par = Ok (p, vev, cs) /\ nth 7 par 0 = -1 /\
  placed 0 PotC2HDM.N (order_C2HDM cb) vev w /\ ~ stationary Ok PotC2HDM.N (tree PotC2HDM.N (PotC2HDM.SetCurvatureArrays p)) w.
Proof.
  intro V. set (c := CosBeta (-1)). destruct (beta_facts (-1)) as (C0 & E1 & E2 & E3 & E4 & E5). fold c in C0.
  exists [0; 0; 0; 0; 0; 0; 1; -1; 1]. do 3 eexists. exists [0; 0; 0; 0; v0 * c; 0; v0 * SinBeta (-1); 0]. split; [reflexivity|]. split; [reflexivity|]. split.
  - destruct cb; [exact (spread_placed 8 [2; 4; 6; 7]%nat [0; v0 * c; v0 * SinBeta (-1); 0] ltac:(nodup) eq_refl ltac:(repeat constructor))|
      exact (spread_placed 8 [4; 6; 7]%nat [v0 * c; v0 * SinBeta (-1); 0] ltac:(nodup) eq_refl ltac:(repeat constructor))].
  - intro St. match type of St with context [PotC2HDM.SetCurvatureArrays ?p] => pose proof (PotC2HDMProofs.tree_ok p) as G end.
    assert (AB : Rabs (-1) = 1) by (unfold Rabs; destruct (Rcase_abs (-1)); lra). rewrite E4, AB in St. rewrite E1, E2 in G, St. fold c in G, St, C0. clearbody c.
    refute_at PotC2HDM.N G [0; 0; 0; 0; v0 * c; 0; v0 * (1 * c); 0] [4; 6]%nat 4%nat St.
    assert (0 < v0 * c) by (now apply Rmult_lt_0_compat). nra.
Qed.
Lemma N2HDM_negative v0 : 0 < v0 -> exists par p vev cs w, set_gen_N2HDM v0 par = Ok (p, vev, cs) /\ nth 8 par 0 = -1 /\
  placed 0 PotN2HDM.N order_N2HDM vev w /\ ~ stationary Ok PotN2HDM.N (tree PotN2HDM.N (PotN2HDM.SetCurvatureArrays p)) w.
Proof.
  intro V. set (c := CosBeta (-1)). destruct (beta_facts (-1)) as (C0 & E1 & E2 & E3 & E4 & E5). fold c in C0.
  exists [0; 0; 0; 0; 0; 0; 0; 0; -1; 1; 1; 1]. do 3 eexists. exists [0; 0; 0; 0; 0; 0; v0 * c; v0 * SinBeta (-1); 1]. split; [reflexivity|]. split; [reflexivity|]. split.
  - exact (spread_placed 9 [1; 5; 6; 7; 8]%nat [0; 0; v0 * c; v0 * SinBeta (-1); 1] ltac:(nodup) eq_refl ltac:(repeat constructor)).
  - intro St. match type of St with context [PotN2HDM.SetCurvatureArrays ?p] => pose proof (PotN2HDMProofs.tree_ok p) as G end.
    assert (AB : Rabs (-1) = 1) by (unfold Rabs; destruct (Rcase_abs (-1)); lra). rewrite E4, AB in St, G. fold c in G, St, C0. clearbody c.
    refute_at PotN2HDM.N G [0; 0; 0; 0; 0; 0; v0 * c; v0 * (1 * c); 1] [6; 7; 8]%nat 6%nat St.
    assert (0 < v0 * c) by (now apply Rmult_lt_0_compat). nra.
Qed.
Lemma CPintheDark_offshell v0 par p vev w : v0 <> 0 -> set_gen_CPintheDark v0 par = Ok (p, vev) -> placed 0 PotCPintheDark.N order_CPintheDark vev w ->
  stationary Ok PotCPintheDark.N (tree PotCPintheDark.N (PotCPintheDark.SetCurvatureArrays p)) w -> nth 0 par 0 = - nth 5 par 0 * v0 ^ 2 / 2.
Proof.
  intros V E P St. do 13 (destruct par as [|? par]; [discriminate E|]). cbn [nth]. apply Ok_inj in E.
  apply pair_equal_spec in E as [<- <-]. place P.
  match type of St with context [PotCPintheDark.SetCurvatureArrays ?p] => pose proof (PotCPintheDarkProofs.tree_ok p) as G end.
  refute_at PotCPintheDark.N G [0; 0; 0; 0; v0; 0; 0; 0; 0] [4]%nat 4%nat St.
  assert (F : (r + r4 * v0 ^ 2 / 2) * v0 = 0) by (rewrite <- X; field). apply Rmult_integral in F as [F|F]; [lra|contradiction].
Qed.
Lemma CPintheDark_free v0 : v0 <> 0 -> exists par p vev w, set_gen_CPintheDark v0 par = Ok (p, vev) /\ placed 0 PotCPintheDark.N order_CPintheDark vev w /\
  ~ stationary Ok PotCPintheDark.N (tree PotCPintheDark.N (PotCPintheDark.SetCurvatureArrays p)) w.
Proof.
  intro V. exists [1; 0; 0; 0; 0; 0; 0; 0; 0; 0; 0; 0; 0]. do 2 eexists. exists [0; 0; 0; 0; v0; 0; 0; 0; 0]. split; [reflexivity|].
  assert (P : placed 0 PotCPintheDark.N order_CPintheDark [0; v0; 0; 0; 0] [0; 0; 0; 0; v0; 0; 0; 0; 0])
    by exact (spread_placed 9 [2; 4; 6; 7; 8]%nat [0; v0; 0; 0; 0] ltac:(nodup) eq_refl ltac:(repeat constructor)).
  split; [exact P|]. intro S. pose proof (CPintheDark_offshell v0 [1; 0; 0; 0; 0; 0; 0; 0; 0; 0; 0; 0; 0] _ _ _ V eq_refl P S) as E. cbn [nth] in E. lra.
Qed.
