(** Gauge boson masses in neutral vacua. *)
From Coq Require Import Reals Lra Lia ZArith List Arith.
From Coquelicot Require Import Complex.
From Verif.Model Require Import Base Potential Tables Gauge SMConst Vacua.
From Verif.Model Require PotSM PotCxSM PotR2HDM PotC2HDM PotN2HDM PotCPintheDark.
From Verif.Spec Require Import PotentialSpec ScalarSpec WardSpec GaugeSpec.
From Verif.Proofs Require Import TabTac ScalarProofs VacTac VacuumCore VacuaProofs GaugeProofs.
Import ListNotations.
Open Scope R_scope.

(** neutral fields *)
Definition neutral (ds : list slot) (w : list R) : Prop := Forall (fun q => let '(a, b, _, _) := q in nth a w 0 = 0 /\ nth b w 0 = 0) ds.
Lemma kinetic_neutral g gs ds w a b : neutral ds w -> kinetic_mass g gs ds w a b =
  norm_squared (flat_map slot_members ds) w *
  match a, b with
  | W1, W1 | W2, W2 | W3, W3 => g * g / 4
  | B, B => gs * gs / 4
  | W3, B | B, W3 => - (g * gs / 4)
  | _, _ => 0
  end.
Proof.
  unfold kinetic_mass, norm_squared. induction 1 as [|q ds Hq _ IH]; [cbn; ring|]. cbn [fold_right flat_map]. rewrite IH. clear IH.
  destruct q as [[[x y] z] t]. destruct Hq as [Hx Hy]. unfold doublet_at. rewrite kinetic_comp, Hx, Hy. cbn [slot_members app fold_right]. rewrite Hx, Hy.
  destruct a, b; unfold comp; field.
Qed.
Lemma physical n tab g gs ds D w v2 : as_kinetic n tab g gs ds -> length w = n -> neutral ds w -> norm_squared (flat_map slot_members ds) w = v2 ->
  0 < g * g + gs * gs ->
  physical_bosons (gauge_mass n (assign tab zero_tensor) D w 0) g gs (g * g / 4 * v2) ((g * g + gs * gs) / 4 * v2).
Proof.
  intros K L Nw V G.
  assert (M : forall a b, gauge_mass n (assign tab zero_tensor) D w 0 (index a) (index b) = v2 *
    match a, b with
    | W1, W1 | W2, W2 | W3, W3 => g * g / 4
    | B, B => gs * gs / 4
    | W3, B | B, W3 => - (g * gs / 4)
    | _, _ => 0
    end) by (intros a b; rewrite K by exact L; rewrite kinetic_neutral by exact Nw; now rewrite V).
  assert (NZ : g <> 0 \/ gs <> 0) by (destruct (Req_dec g 0) as [->|]; [right|now left]; intros ->; lra).
  generalize dependent (gauge_mass n (assign tab zero_tensor) D w 0). intros f M.
  assert (I : forall i, (i < 4)%nat -> exists a, i = index a).
  { intros [|[|[|[|i]]]] H; [now exists W1|now exists W2|now exists W3|now exists B|lia]. }
  unfold physical_bosons, eigenvector. cbn [length nth].
  split; [|split; [|split]]; (split; [reflexivity|]; split; [|intros i Hi; destruct (I i Hi) as [a ->]; pose proof (M a W1) as A1; pose proof (M a W2) as A2; pose proof (M a W3) as A3; pose proof (M a B) as A4; cbn [index] in A1, A2, A3, A4; rewrite A1, A2, A3, A4; destruct a; cbn [index nth]; field]).
  - exists 0%nat. cbn. lra.
  - exists 1%nat. cbn. lra.
  - destruct NZ as [NZ|NZ]; [exists 2%nat; cbn; exact NZ|exists 3%nat; cbn; intro; apply NZ; lra].
  - destruct NZ as [NZ|NZ]; [exists 3%nat|exists 2%nat]; cbn; exact NZ.
Qed.

(** the vacua in components *)
Lemma trig t : CosBeta t * CosBeta t + SinBeta t * SinBeta t = 1 /\ 0 < CosBeta t /\ (t <> 0 -> 0 < SinBeta t).
Proof.
  assert (H : 0 < 1 + t * t) by nra. assert (P : 0 < CosBetaSquared t) by (unfold CosBetaSquared; apply Rdiv_lt_0_compat; lra).
  assert (Q : 0 <= SinBetaSquared t) by (unfold SinBetaSquared; apply Rmult_le_pos; nra).
  unfold CosBeta, SinBeta. rewrite !sqrt_sqrt by lra. split; [|split].
  - unfold SinBetaSquared, CosBetaSquared. field. lra.
  - now apply sqrt_lt_R0.
  - intro T. apply sqrt_lt_R0. unfold SinBetaSquared. apply Rmult_lt_0_compat; [nra|exact P].
Qed.
Lemma trig_signed t : CosBeta t * CosBeta t + SinBeta_signed t * SinBeta_signed t = 1 /\ 0 < CosBeta t /\ (t <> 0 -> SinBeta_signed t <> 0).
Proof.
  destruct (trig t) as (A & C0 & D). unfold SinBeta_signed. destruct (Rlt_dec t 0); (split; [lra|split; [exact C0|intro T; specialize (D T); lra]]).
Qed.
Lemma SM_w v0 MH par p vev w : set_gen_SM v0 MH par = Ok (p, vev) -> placed 0 PotSM.N order_SM vev w -> w = [0; 0; v0; 0].
Proof. intros E P. apply Ok_inj in E. apply pair_equal_spec in E as [<- <-]. place P. reflexivity. Qed.
Lemma CxSM_w par p vev w : set_gen_CxSM par = Ok (p, vev) -> placed 0 PotCxSM.N order_CxSM vev w -> w = [0; 0; 0; nth 0 par 0; nth 1 par 0; nth 2 par 0].
Proof.
  intros E P. do 12 (destruct par as [|? par]; [discriminate E|]). unfold set_gen_CxSM in E.
  repeat match type of E with context [if ?b then _ else _] => destruct b end; apply Ok_inj in E; apply pair_equal_spec in E as [<- <-]; place P; reflexivity.
Qed.
Lemma R2HDM_w v0 par p vev c s w : set_gen_R2HDM v0 par = Ok (p, vev, (c, s)) -> placed 0 PotR2HDM.N order_R2HDM vev w ->
  w = [0; 0; 0; 0; v0 * c; 0; v0 * s; 0] /\ c * c + s * s = 1 /\ 0 < c /\ (nth 6 par 0 <> 0 -> s <> 0).
Proof.
  intros E P. do 8 (destruct par as [|? par]; [discriminate E|]). apply Ok_inj in E. apply pair_equal_spec in E as [E F]. apply pair_equal_spec in E as [<- <-].
  apply pair_equal_spec in F as [<- <-]. split; [place P; reflexivity|]. apply trig_signed.
Qed.
Lemma C2HDM_w cb v0 par p vev c s w : set_gen_C2HDM cb v0 par = Ok (p, vev, (c, s)) -> placed 0 PotC2HDM.N (order_C2HDM cb) vev w ->
  w = [0; 0; 0; 0; v0 * c; 0; v0 * s; 0] /\ c * c + s * s = 1 /\ 0 < c /\ (nth 7 par 0 <> 0 -> s <> 0).
Proof.
  intros E P. do 9 (destruct par as [|? par]; [discriminate E|]). apply Ok_inj in E. apply pair_equal_spec in E as [E F]. apply pair_equal_spec in E as [<- <-].
  apply pair_equal_spec in F as [<- <-]. split; [destruct cb; place P; reflexivity|].
  match goal with |- CosBeta ?t * _ + _ = _ /\ _ => destruct (trig t) as (A & B0 & D) end. repeat split; try assumption. cbn [nth]. intro T. specialize (D T). lra.
Qed.
Lemma N2HDM_w v0 par p vev c s n w : set_gen_N2HDM v0 par = Ok (p, vev, (c, s, n)) -> placed 0 PotN2HDM.N order_N2HDM vev w ->
  w = [0; 0; 0; 0; 0; 0; v0 * c; v0 * s; n] /\ c * c + s * s = 1 /\ 0 < c /\ (nth 8 par 0 <> 0 -> s <> 0).
Proof.
  intros E P. do 12 (destruct par as [|? par]; [discriminate E|]). apply Ok_inj in E. apply pair_equal_spec in E as [E F]. apply pair_equal_spec in E as [<- <-].
  apply pair_equal_spec in F as [F <-]. apply pair_equal_spec in F as [<- <-]. split; [place P; reflexivity|].
  match goal with |- CosBeta ?t * _ + _ = _ /\ _ => destruct (trig t) as (A & B0 & D) end. repeat split; try assumption. cbn [nth]. intro T. specialize (D T). lra.
Qed.
Lemma CPintheDark_w v0 par p vev w : set_gen_CPintheDark v0 par = Ok (p, vev) -> placed 0 PotCPintheDark.N order_CPintheDark vev w -> w = [0; 0; 0; 0; v0; 0; 0; 0; 0].
Proof. intros E P. do 13 (destruct par as [|? par]; [discriminate E|]). apply Ok_inj in E. apply pair_equal_spec in E as [<- <-]. place P. reflexivity. Qed.

(** the couplings reproduce the masses *)
Definition sensible (i : input) : Prop := 0 < i_GF i /\ 0 < i_MassW i /\ i_MassW i <= i_MassZ i.
Lemma coupling_facts i : sensible i -> let K := GetSMConstants i in
  0 < vev0 K /\ C_g K * C_g K / 4 * vev0 K ^ 2 = i_MassW i ^ 2 /\ (C_g K * C_g K + C_gs K * C_gs K) / 4 * vev0 K ^ 2 = i_MassZ i ^ 2 /\ 0 < C_g K * C_g K + C_gs K * C_gs K.
Proof.
  intros (G & W & Z) K.
  assert (S2 : 0 < sqrt 2) by (apply sqrt_lt_R0; lra).
  assert (V : 0 < vev0 K).
  { cbn [K GetSMConstants vev0]. apply sqrt_lt_R0. unfold Rdiv. rewrite Rmult_1_r, Rmult_1_l. apply Rmult_lt_0_compat; now apply Rinv_0_lt_compat. }
  assert (EG : C_g K = 2 * i_MassW i / vev0 K) by reflexivity.
  assert (ES : C_gs K = 2 * sqrt (i_MassZ i ^ 2 - i_MassW i ^ 2) / vev0 K) by reflexivity.
  assert (D : 0 <= i_MassZ i ^ 2 - i_MassW i ^ 2) by nra.
  pose proof (sqrt_sqrt _ D) as Q. rewrite EG, ES. clear EG ES. set (r := sqrt (i_MassZ i ^ 2 - i_MassW i ^ 2)) in *. clearbody r.
  set (v := vev0 K) in *. clearbody v. clear K.
  assert (E2 : (2 * i_MassW i / v * (2 * i_MassW i / v) + 2 * r / v * (2 * r / v)) / 4 * v ^ 2 = i_MassZ i ^ 2).
  { transitivity (i_MassW i ^ 2 + r * r); [field; lra|]. rewrite Q. ring. }
  repeat split; [exact V|field; lra|exact E2|].
  assert (P : 0 < 2 * i_MassW i / v) by (apply Rdiv_lt_0_compat; lra). nra.
Qed.
Ltac vac i S K G := pose proof (coupling_facts i S) as (V & EW & EZ & P); fold K in V, EW, EZ, P; rewrite <- EW, <- EZ;
  apply (physical _ _ _ _ _ _ _ _ G); [reflexivity|repeat constructor| |exact P].
Lemma SM_bosons i MH par p vev w D : sensible i -> let K := GetSMConstants i in
  set_gen_SM (vev0 K) MH par = Ok (p, vev) -> placed 0 PotSM.N order_SM vev w ->
  physical_bosons (gauge_mass PotSM.N (assign (SM_G2H2 (C_g K) (C_gs K)) zero_tensor) D w 0) (C_g K) (C_gs K) (i_MassW i ^ 2) (i_MassZ i ^ 2).
Proof.
  intros S K E Pl. apply (SM_w _ _ _ _ _ _ E) in Pl as ->. vac i S K (SM_kinetic (C_g K) (C_gs K)). cbn -[vev0]. ring.
Qed.
Lemma R2HDM_bosons i par p vev cs w D : sensible i -> let K := GetSMConstants i in
  set_gen_R2HDM (vev0 K) par = Ok (p, vev, cs) -> placed 0 PotR2HDM.N order_R2HDM vev w ->
  physical_bosons (gauge_mass PotR2HDM.N (assign (R2HDM_G2H2 (C_g K) (C_gs K)) zero_tensor) D w 0) (C_g K) (C_gs K) (i_MassW i ^ 2) (i_MassZ i ^ 2).
Proof.
  intros S K E Pl. destruct cs as [c s]. apply (R2HDM_w _ _ _ _ _ _ _ E) in Pl as (-> & U & _). vac i S K (R2HDM_kinetic (C_g K) (C_gs K)).
  cbn -[vev0]. transitivity (vev0 K ^ 2 * (c * c + s * s)); [ring|]. rewrite U. ring.
Qed.
Lemma C2HDM_bosons i cb par p vev cs w D : sensible i -> let K := GetSMConstants i in
  set_gen_C2HDM cb (vev0 K) par = Ok (p, vev, cs) -> placed 0 PotC2HDM.N (order_C2HDM cb) vev w ->
  physical_bosons (gauge_mass PotC2HDM.N (assign (C2HDM_G2H2 (C_g K) (C_gs K)) zero_tensor) D w 0) (C_g K) (C_gs K) (i_MassW i ^ 2) (i_MassZ i ^ 2).
Proof.
  intros S K E Pl. destruct cs as [c s]. apply (C2HDM_w _ _ _ _ _ _ _ _ E) in Pl as (-> & U & _). vac i S K (C2HDM_kinetic (C_g K) (C_gs K)).
  cbn -[vev0]. transitivity (vev0 K ^ 2 * (c * c + s * s)); [ring|]. rewrite U. ring.
Qed.
Lemma N2HDM_bosons i par p vev cs w D : sensible i -> let K := GetSMConstants i in
  set_gen_N2HDM (vev0 K) par = Ok (p, vev, cs) -> placed 0 PotN2HDM.N order_N2HDM vev w ->
  physical_bosons (gauge_mass PotN2HDM.N (assign (N2HDM_G2H2 (C_g K) (C_gs K)) zero_tensor) D w 0) (C_g K) (C_gs K) (i_MassW i ^ 2) (i_MassZ i ^ 2).
Proof.
  intros S K E Pl. destruct cs as [[c s] n]. apply (N2HDM_w _ _ _ _ _ _ _ _ E) in Pl as (-> & U & _). vac i S K (N2HDM_kinetic (C_g K) (C_gs K)).
  cbn -[vev0]. transitivity (vev0 K ^ 2 * (c * c + s * s)); [ring|]. rewrite U. ring.
Qed.
Lemma CPintheDark_bosons i par p vev w D : sensible i -> let K := GetSMConstants i in
  set_gen_CPintheDark (vev0 K) par = Ok (p, vev) -> placed 0 PotCPintheDark.N order_CPintheDark vev w ->
  physical_bosons (gauge_mass PotCPintheDark.N (assign (CPintheDark_G2H2 (C_g K) (C_gs K)) zero_tensor) D w 0) (C_g K) (C_gs K) (i_MassW i ^ 2) (i_MassZ i ^ 2).
Proof.
  intros S K E Pl. apply (CPintheDark_w _ _ _ _ _ E) in Pl as ->. vac i S K (CPintheDark_kinetic (C_g K) (C_gs K)). cbn -[vev0]. ring.
Qed.
(** the CxSM takes the vacuum expectation value of the doublet from the input line *)
Lemma CxSM_bosons i par p vev w D : sensible i -> let K := GetSMConstants i in let r := (nth 0 par 0 / vev0 K) ^ 2 in
  set_gen_CxSM par = Ok (p, vev) -> placed 0 PotCxSM.N order_CxSM vev w ->
  physical_bosons (gauge_mass PotCxSM.N (assign (CxSM_G2H2 (C_g K) (C_gs K)) zero_tensor) D w 0) (C_g K) (C_gs K) (i_MassW i ^ 2 * r) (i_MassZ i ^ 2 * r).
Proof.
  intros S K r E Pl. apply (CxSM_w _ _ _ _ E) in Pl as ->. pose proof (coupling_facts i S) as (V & EW & EZ & P); fold K in V, EW, EZ, P. rewrite <- EW, <- EZ.
  replace (C_g K * C_g K / 4 * vev0 K ^ 2 * r) with (C_g K * C_g K / 4 * nth 0 par 0 ^ 2) by (unfold r; field; lra).
  replace ((C_g K * C_g K + C_gs K * C_gs K) / 4 * vev0 K ^ 2 * r) with ((C_g K * C_g K + C_gs K * C_gs K) / 4 * nth 0 par 0 ^ 2) by (unfold r; field; lra).
  apply (physical _ _ _ _ _ _ _ _ (CxSM_kinetic (C_g K) (C_gs K))); [reflexivity|repeat constructor| |exact P]. cbn -[vev0]. ring.
Qed.
Lemma eigen_unique M x m1 m2 : eigenvector M x m1 -> eigenvector M x m2 -> m1 = m2.
Proof.
  intros (L & (k & K) & E1) (_ & _ & E2).
  assert (H : (k < 4)%nat) by (destruct (le_lt_dec 4 k); [elim K; apply nth_overflow; lia|assumption]).
  specialize (E1 k H). specialize (E2 k H). rewrite E1 in E2. apply Rmult_eq_reg_r with (nth k x 0); assumption.
Qed.
Lemma CxSM_bosons_refuted i D : sensible i -> exists par p vev w, let K := GetSMConstants i in
  set_gen_CxSM par = Ok (p, vev) /\ placed 0 PotCxSM.N order_CxSM vev w /\
  ~ physical_bosons (gauge_mass PotCxSM.N (assign (CxSM_G2H2 (C_g K) (C_gs K)) zero_tensor) D w 0) (C_g K) (C_gs K) (i_MassW i ^ 2) (i_MassZ i ^ 2).
Proof.
  intro S. set (v := vev0 (GetSMConstants i)). pose proof (coupling_facts i S) as (V & _). cbv zeta in V. fold v in V.
  set (par := [2 * v; 100; 50; 1; 1; 2; 3; 4; 5; 6; 7; 8]).
  assert (E : exists p vev, set_gen_CxSM par = Ok (p, vev) /\ vev = [2 * v; 100; 50]).
  { unfold set_gen_CxSM, par. destruct (Req_EM_T 50 0); [lra|]. destruct (Req_EM_T 100 0); [lra|]. do 2 eexists. split; reflexivity. }
  destruct E as (p & vev & E & Ev). exists par, p, vev, [0; 0; 0; 2 * v; 100; 50]. cbv zeta. split; [exact E|].
  assert (Pl : placed 0 PotCxSM.N order_CxSM vev [0; 0; 0; 2 * v; 100; 50]).
  { subst vev. exact (spread_placed 6 [3; 4; 5]%nat [2 * v; 100; 50] ltac:(nodup) eq_refl ltac:(repeat constructor)). }
  split; [exact Pl|]. intros (A & _). pose proof (CxSM_bosons i par p vev _ D S E Pl) as (A2 & _). cbn [nth par] in A2. fold v in A2.
  pose proof (eigen_unique _ _ _ _ A A2) as Q. replace ((2 * v / v) ^ 2) with 4 in Q by (field; lra). destruct S as (_ & W & _). nra.
Qed.
