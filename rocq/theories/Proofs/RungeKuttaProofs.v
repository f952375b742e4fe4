(** The Runge-Kutta step of the bounce is a method of order 5 with an embedded method of order 4. *)
From Coq Require Import Reals List QArith Qreals Lra Lia ZArith.
From Flocq Require Import Core Relative.
From Verif Require Import Model.RungeKutta Spec.RungeKuttaSpec.
Import ListNotations.
Open Scope R_scope.

Definition CK_rows : list (list Q) :=
  [ []; [1 # 5]; [3 # 40; 9 # 40]; [3 # 10; -9 # 10; 6 # 5]; [-11 # 54; 5 # 2; -70 # 27; 35 # 27];
    [1631 # 55296; 175 # 512; 575 # 13824; 44275 # 110592; 253 # 4096] ]%Q.
Definition CK5 : tableau := mkTableau CK_rows [37 # 378; 0; 250 # 621; 125 # 594; 0; 512 # 1771]%Q.
Definition CK4 : tableau := mkTableau CK_rows [2825 # 27648; 0; 18575 # 48384; 13525 # 55296; 277 # 14336; 1 # 4]%Q.

Lemma pair_eq : forall a b c d : R, a = c -> b = d -> (a, b) = (c, d).
Proof. intros; f_equal; assumption. Qed.
Ltac q2r := unfold Q2R; cbn [Qnum Qden].
Ltac qv v := match goal with |- context [Q2R (qsum ?l)] => replace (Q2R (qsum l)) with (Q2R v) by (apply Qeq_eqR; vm_compute; reflexivity) end; unfold Q2R; cbn [Qnum Qden]; field.
Section Same.
  Variables (F : R -> vec -> vec) (y : vec) (rho h : R).
  Let k1 := F rho y.
  Lemma arg : forall a b u v, a = b -> u = v -> F a u = F b v.
  Proof. intros; subst; reflexivity. Qed.
  Lemma rk_unfold : forall w, rk_step (mkTableau CK_rows w) F y rho h =
    let k1 := F rho y in
    let k2 := F (rho + 2 / 10 * h) (y +v (2 / 10 * h) *v k1) in
    let k3 := F (rho + 3 / 10 * h) (y +v h *v (3 / 40 *v k1 +v 9 / 40 *v k2)) in
    let k4 := F (rho + 6 / 10 * h) (y +v h *v (3 / 10 *v k1 +v - (9 / 10) *v k2 +v 12 / 10 *v k3)) in
    let k5 := F (rho + 1 * h) (y +v h *v (- (11) / 54 *v k1 +v 25 / 10 *v k2 +v - (70) / 27 *v k3 +v 35 / 27 *v k4)) in
    let k6 := F (rho + 875 / 1000 * h) (y +v h *v (1631 / 55296 *v k1 +v 175 / 512 *v k2 +v 575 / 13824 *v k3 +v 44275 / 110592 *v k4 +v 253 / 4096 *v k5)) in
    pair_add y (pair_mul h (combine w [k1; k2; k3; k4; k5; k6])).
  Proof.
    intros w; unfold rk_step, CK_rows; cbn [rows weights stages app].
    assert (E1 : F (rho + Q2R (qsum []) * h) (pair_add y (pair_mul h (combine [] []))) = F rho y).
    { apply arg; [qv 0%Q|destruct y; unfold pair_add, pair_mul; cbn; apply pair_eq; ring]. }
    rewrite E1; clear E1; cbv zeta; set (k1' := F rho y).
    match goal with |- context [F (rho + Q2R (qsum [_]) * h) ?u] => assert (E : F (rho + Q2R (qsum [1 # 5]%Q) * h) u = F (rho + 2 / 10 * h) (y +v (2 / 10 * h) *v k1')) end.
    { apply arg; [qv (1 # 5)%Q|]. cbn [combine]; unfold vadd, vmul, pair_add, pair_mul; cbn [fst snd]; q2r; apply pair_eq; cbn [fst snd]; field. }
    rewrite E; clear E; set (k2 := F (rho + 2 / 10 * h) _).
    match goal with |- context [F (rho + Q2R (qsum [_; _]) * h) ?u] => assert (E : F (rho + Q2R (qsum [3 # 40; 9 # 40]%Q) * h) u = F (rho + 3 / 10 * h) (y +v h *v (3 / 40 *v k1' +v 9 / 40 *v k2))) end.
    { apply arg; [qv (3 # 10)%Q|]. cbn [combine]; unfold vadd, vmul, pair_add, pair_mul; cbn [fst snd]; q2r; apply pair_eq; cbn [fst snd]; field. }
    rewrite E; clear E; set (k3 := F (rho + 3 / 10 * h) _).
    match goal with |- context [F (rho + Q2R (qsum [_; _; _]) * h) ?u] => assert (E : F (rho + Q2R (qsum [3 # 10; -9 # 10; 6 # 5]%Q) * h) u = F (rho + 6 / 10 * h) (y +v h *v (3 / 10 *v k1' +v - (9 / 10) *v k2 +v 12 / 10 *v k3))) end.
    { apply arg; [qv (3 # 5)%Q|]. cbn [combine]; unfold vadd, vmul, pair_add, pair_mul; cbn [fst snd]; q2r; apply pair_eq; cbn [fst snd]; field. }
    rewrite E; clear E; set (k4 := F (rho + 6 / 10 * h) _).
    match goal with |- context [F (rho + Q2R (qsum [_; _; _; _]) * h) ?u] => assert (E : F (rho + Q2R (qsum [-11 # 54; 5 # 2; -70 # 27; 35 # 27]%Q) * h) u = F (rho + 1 * h) (y +v h *v (- (11) / 54 *v k1' +v 25 / 10 *v k2 +v - (70) / 27 *v k3 +v 35 / 27 *v k4))) end.
    { apply arg; [qv (1 # 1)%Q|]. cbn [combine]; unfold vadd, vmul, pair_add, pair_mul; cbn [fst snd]; q2r; apply pair_eq; cbn [fst snd]; field. }
    rewrite E; clear E; set (k5 := F (rho + 1 * h) _).
    match goal with |- context [F (rho + Q2R (qsum [_; _; _; _; _]) * h) ?u] => assert (E : F (rho + Q2R (qsum [1631 # 55296; 175 # 512; 575 # 13824; 44275 # 110592; 253 # 4096]%Q) * h) u = F (rho + 875 / 1000 * h) (y +v h *v (1631 / 55296 *v k1' +v 175 / 512 *v k2 +v 575 / 13824 *v k3 +v 44275 / 110592 *v k4 +v 253 / 4096 *v k5))) end.
    { apply arg; [qv (7 # 8)%Q|]. cbn [combine]; unfold vadd, vmul, pair_add, pair_mul; cbn [fst snd]; q2r; apply pair_eq; cbn [fst snd]; field. }
    rewrite E; reflexivity.
  Qed.
  Lemma step_out : fst (RK5_step F y (F rho y) rho h) = rk_step CK5 F y rho h.
  Proof.
    unfold CK5; rewrite rk_unfold; unfold RK5_step; cbv zeta; cbn [fst].
    set (q1 := F rho y). set (q2 := F (rho + 2 / 10 * h) _). set (q3 := F (rho + 3 / 10 * h) _). set (q4 := F (rho + 6 / 10 * h) _).
    set (q5 := F (rho + 1 * h) _). set (q6 := F (rho + 875 / 1000 * h) _).
    cbn [combine]; unfold vadd, vmul, pair_add, pair_mul; cbn [fst snd]; q2r; apply pair_eq; cbn [fst snd]; field.
  Qed.
  Lemma step_err : snd (RK5_step F y (F rho y) rho h) = pair_add (rk_step CK5 F y rho h) (pair_mul (-1) (rk_step CK4 F y rho h)).
  Proof.
    unfold CK5, CK4; rewrite !rk_unfold; unfold RK5_step; cbv zeta; cbn [snd].
    set (q1 := F rho y). set (q2 := F (rho + 2 / 10 * h) _). set (q3 := F (rho + 3 / 10 * h) _). set (q4 := F (rho + 6 / 10 * h) _).
    set (q5 := F (rho + 1 * h) _). set (q6 := F (rho + 875 / 1000 * h) _).
    cbn [combine]; unfold vadd, vmul, pair_add, pair_mul; cbn [fst snd]; q2r; apply pair_eq; cbn [fst snd]; field.
  Qed.
End Same.

(** ** The order conditions *)
Fixpoint trees (p d : nat) : list tree :=
  match d with
  | O => [Vertex]
  | S d => Vertex :: filter (fun t => Nat.leb (vertices t) p) (map (fun q => Graft (fst q) (snd q)) (list_prod (trees p d) (trees p d)))
  end.
Lemma vertices_pos : forall t, (1 <= vertices t)%nat.
Proof. induction t; cbn; lia. Qed.
Lemma trees_all : forall p d t, (vertices t <= p)%nat -> (vertices t <= S d)%nat -> In t (trees p d).
Proof.
  induction d as [|d IH]; intros t Hp Hd.
  - destruct t as [|t u]; [left; reflexivity|]. cbn in Hd; pose proof (vertices_pos t); pose proof (vertices_pos u); lia.
  - destruct t as [|t u]; cbn [trees]; [left; reflexivity|right].
    apply filter_In; split; [|apply Nat.leb_le; exact Hp].
    cbn [vertices] in *; pose proof (vertices_pos t); pose proof (vertices_pos u).
    apply in_map_iff; exists (t, u); split; [reflexivity|]. apply in_prod; apply IH; lia.
Qed.
Definition checks (p : nat) (T : tableau) : bool :=
  forallb (fun t => Qeq_bool (qdot (weights T) (phi T t) * density t) 1) (trees p (Nat.pred p)).
Lemma checks_ok : forall p T, checks p T = true -> has_order p T.
Proof.
  intros p T H t Ht; unfold checks in H; rewrite forallb_forall in H.
  apply Qeq_bool_iff, H, trees_all; [exact Ht|lia].
Qed.
Lemma order5 : has_order 5 CK5.
Proof. apply checks_ok; vm_compute; reflexivity. Qed.
Lemma order4 : has_order 4 CK4.
Proof. apply checks_ok; vm_compute; reflexivity. Qed.
Lemma not_order6 : ~ has_order 6 CK5.
Proof.
  intros H; specialize (H (Graft (Graft (Graft (Graft (Graft Vertex Vertex) Vertex) Vertex) Vertex) Vertex) ltac:(cbn; lia)); vm_compute in H; discriminate.
Qed.

(** ** What the order means *)
Lemma exact_polynomial : forall a0 a1 a2 a3 a4 b0 b1 b2 b3 b4 y rho h,
  let P x := a0 * x + a1 * x ^ 2 / 2 + a2 * x ^ 3 / 3 + a3 * x ^ 4 / 4 + a4 * x ^ 5 / 5 in
  let W x := b0 * x + b1 * x ^ 2 / 2 + b2 * x ^ 3 / 3 + b3 * x ^ 4 / 4 + b4 * x ^ 5 / 5 in
  let F := fun (x : R) (_ : vec) => (a0 + a1 * x + a2 * x ^ 2 + a3 * x ^ 3 + a4 * x ^ 4, b0 + b1 * x + b2 * x ^ 2 + b3 * x ^ 3 + b4 * x ^ 4) in
  fst (RK5_step F y (F rho y) rho h) = (fst y + (P (rho + h) - P rho), snd y + (W (rho + h) - W rho)).
Proof.
  intros; unfold RK5_step, F, P, W, vadd, vmul; cbn [fst snd]; apply pair_eq; field.
Qed.
Lemma exact_linear : forall a b c d y rho h,
  let A := lin a b c d in let F := fun (_ : R) y => A y in
  fst (RK5_step F y (F rho y) rho h) =
    y +v h *v A y +v (h ^ 2 / 2) *v A (A y) +v (h ^ 3 / 6) *v A (A (A y)) +v (h ^ 4 / 24) *v A (A (A (A y)))
      +v (h ^ 5 / 120) *v A (A (A (A (A y)))) +v (h ^ 6 / 800) *v A (A (A (A (A (A y))))).
Proof.
  intros; unfold RK5_step, F.
  assert (LA : forall u v, A (u +v v) = A u +v A v) by (intros; unfold A, lin, vadd; cbn [fst snd]; apply pair_eq; ring).
  assert (LM : forall k u, A (k *v u) = k *v A u) by (intros; unfold A, lin, vmul; cbn [fst snd]; apply pair_eq; ring).
  clearbody A; clear F. set (y1 := A y); set (y2 := A y1); set (y3 := A y2); set (y4 := A y3); set (y5 := A y4); set (y6 := A y5).
  assert (D1 : A y = y1) by reflexivity; assert (D2 : A y1 = y2) by reflexivity; assert (D3 : A y2 = y3) by reflexivity.
  assert (D4 : A y3 = y4) by reflexivity; assert (D5 : A y4 = y5) by reflexivity; assert (D6 : A y5 = y6) by reflexivity.
  cbv zeta; cbn [fst]. clearbody y1 y2 y3 y4 y5 y6.
  set (k2 := A (y +v (2 / 10 * h) *v y1)).
  assert (K2 : k2 = y1 +v ((1) / 5 * h ^ 1) *v y2).
  { unfold k2; repeat rewrite ?LA, ?LM, ?D1, ?D2, ?D3, ?D4, ?D5, ?D6. unfold vadd, vmul; cbn [fst snd]; apply pair_eq; field. }
  clearbody k2.
  set (k3 := A (y +v h *v (3 / 40 *v y1 +v 9 / 40 *v k2))).
  assert (K3 : k3 = y1 +v ((3) / 10 * h ^ 1) *v y2 +v ((9) / 200 * h ^ 2) *v y3).
  { unfold k3; repeat rewrite ?LA, ?LM, ?K2, ?D1, ?D2, ?D3, ?D4, ?D5, ?D6. unfold vadd, vmul; cbn [fst snd]; apply pair_eq; field. }
  clearbody k3.
  set (k4 := A (y +v h *v (3 / 10 *v y1 +v - (9 / 10) *v k2 +v 12 / 10 *v k3))).
  assert (K4 : k4 = y1 +v ((3) / 5 * h ^ 1) *v y2 +v ((9) / 50 * h ^ 2) *v y3 +v ((27) / 500 * h ^ 3) *v y4).
  { unfold k4; repeat rewrite ?LA, ?LM, ?K2, ?K3, ?D1, ?D2, ?D3, ?D4, ?D5, ?D6. unfold vadd, vmul; cbn [fst snd]; apply pair_eq; field. }
  clearbody k4.
  set (k5 := A (y +v h *v (- (11) / 54 *v y1 +v 25 / 10 *v k2 +v - (70) / 27 *v k3 +v 35 / 27 *v k4))).
  assert (K5 : k5 = y1 +v ((1) / 1 * h ^ 1) *v y2 +v ((1) / 2 * h ^ 2) *v y3 +v ((7) / 60 * h ^ 3) *v y4 +v ((7) / 100 * h ^ 4) *v y5).
  { unfold k5; repeat rewrite ?LA, ?LM, ?K2, ?K3, ?K4, ?D1, ?D2, ?D3, ?D4, ?D5, ?D6. unfold vadd, vmul; cbn [fst snd]; apply pair_eq; field. }
  clearbody k5.
  set (k6 := A (y +v h *v (1631 / 55296 *v y1 +v 175 / 512 *v k2 +v 575 / 13824 *v k3 +v 44275 / 110592 *v k4 +v 253 / 4096 *v k5))).
  assert (K6 : k6 = y1 +v ((7) / 8 * h ^ 1) *v y2 +v ((49) / 128 * h ^ 2) *v y3 +v ((161) / 1536 * h ^ 3) *v y4 +v ((1771) / 61440 * h ^ 4) *v y5 +v ((1771) / 409600 * h ^ 5) *v y6).
  { unfold k6; repeat rewrite ?LA, ?LM, ?K2, ?K3, ?K4, ?K5, ?D1, ?D2, ?D3, ?D4, ?D5, ?D6. unfold vadd, vmul; cbn [fst snd]; apply pair_eq; field. }
  clearbody k6.
  rewrite K3, K4, K6; clear. unfold vadd, vmul; cbn [fst snd]; apply pair_eq; field.
Qed.

(** ** Steps as floats *)
#[local] Instance valid24 : Valid_exp (FLT_exp (-149) 24).
Proof. apply FLT_exp_valid; red; lia. Qed.
Lemma float_close : forall x, / 2 ^ 126 <= Rabs x -> Rabs (to_float x - x) <= / 2 ^ 24 * Rabs x.
Proof.
  intros x Hx; unfold to_float.
  assert (P : Prec_gt_0 24) by (red; lia).
  pose proof (relative_error_N_FLT radix2 (-149) 24 P (fun z => negb (Z.even z)) x) as H.
  replace (bpow radix2 (-149 + 24 - 1)) with (/ 2 ^ 126) in H by (rewrite <- bpow_powerRZ || idtac; cbn -[pow]; f_equal; lra).
  replace (/ 2 * bpow radix2 (- (24) + 1)) with (/ 2 ^ 24) in H by (cbn; lra).
  apply H, Hx.
Qed.
Definition odd_step : R := 1 + / 2 ^ 30.
Lemma odd_not_float : to_float odd_step <> odd_step.
Proof.
  intros E.
  assert (G : generic_format radix2 (FLT_exp (-149) 24) odd_step) by (rewrite <- E; unfold to_float; apply generic_format_round; [apply valid24|apply valid_rnd_N]).
  assert (M : mag radix2 odd_step = 1%Z :> Z).
  { apply mag_unique. unfold odd_step. assert (0 < / 2 ^ 30 < 1) by (split; [apply Rinv_0_lt_compat, pow_lt; lra|rewrite <- Rinv_1; apply Rinv_lt_contravar; [rewrite Rmult_1_l; apply pow_lt; lra|apply Rlt_pow_R1; [lra|lia]]]).
    rewrite Rabs_pos_eq by lra. cbn; lra. }
  unfold generic_format, F2R, scaled_mantissa, cexp in G; rewrite M in G; cbn [Fnum Fexp] in G.
  change (FLT_exp (-149) 24 1) with (-23)%Z in G.
  set (z := Ztrunc _) in G.
  assert (Q : IZR z * 2 ^ 7 = 2 ^ 30 + 1).
  { unfold odd_step in G. change (bpow radix2 (-23)) with (/ 8388608) in G.
    assert (X : (1 + / 2 ^ 30) * 2 ^ 30 = IZR z * / 8388608 * 2 ^ 30) by (rewrite <- G; reflexivity). lra. }
  assert (Z : (z * 128 = 1073741825)%Z).
  { apply eq_IZR; rewrite mult_IZR. lra. }
  lia.
Qed.
Lemma float_one : to_float 1 = 1.
Proof.
  unfold to_float; apply round_generic; [apply valid_rnd_N|].
  replace 1 with (bpow radix2 0) by reflexivity. apply generic_format_bpow; cbn; lia.
Qed.
Lemma float_nonneg : forall x, 0 <= x -> 0 <= to_float x.
Proof.
  intros x X; unfold to_float; apply round_ge_generic; [apply valid24|apply valid_rnd_N|apply generic_format_0|exact X].
Qed.

(** the motion l = rho with speed 1 in the force alpha / l *)
Lemma uniform_at : forall alpha x h, 0 < x -> 0 <= h ->
  RK5_step (AuxFunctionDev (fun l => INR alpha / l) alpha) (x, 1) (1, 0) x h = ((x + h, 1), (0, 0)).
Proof.
  intros alpha x h X H; set (F := AuxFunctionDev (fun l => INR alpha / l) alpha).
  assert (FE : forall r d, 0 < r -> d = (r, 1) -> F r d = (1, 0)).
  { intros r d R ->; unfold F, AuxFunctionDev, d2ldrho2; cbn [fst snd]; destruct (Req_EM_T 1 0); [lra|]; f_equal; field; lra. }
  unfold RK5_step; cbv zeta.
  assert (E2 : F (x + 2 / 10 * h) ((x, 1) +v (2 / 10 * h) *v (1, 0)) = (1, 0)) by (apply FE; [lra|unfold vadd, vmul; cbn [fst snd]; apply pair_eq; ring]).
  rewrite E2.
  assert (E3 : F (x + 3 / 10 * h) ((x, 1) +v h *v (3 / 40 *v (1, 0) +v 9 / 40 *v (1, 0))) = (1, 0)) by (apply FE; [lra|unfold vadd, vmul; cbn [fst snd]; apply pair_eq; field]).
  rewrite E3.
  assert (E4 : F (x + 6 / 10 * h) ((x, 1) +v h *v (3 / 10 *v (1, 0) +v - (9 / 10) *v (1, 0) +v 12 / 10 *v (1, 0))) = (1, 0)) by (apply FE; [lra|unfold vadd, vmul; cbn [fst snd]; apply pair_eq; field]).
  rewrite E4.
  assert (E5 : F (x + 1 * h) ((x, 1) +v h *v (- (11) / 54 *v (1, 0) +v 25 / 10 *v (1, 0) +v - (70) / 27 *v (1, 0) +v 35 / 27 *v (1, 0))) = (1, 0)) by (apply FE; [lra|unfold vadd, vmul; cbn [fst snd]; apply pair_eq; field]).
  rewrite E5.
  assert (E6 : F (x + 875 / 1000 * h) ((x, 1) +v h *v (1631 / 55296 *v (1, 0) +v 175 / 512 *v (1, 0) +v 575 / 13824 *v (1, 0) +v 44275 / 110592 *v (1, 0) +v 253 / 4096 *v (1, 0))) = (1, 0)) by (apply FE; [lra|unfold vadd, vmul; cbn [fst snd]; apply pair_eq; field]).
  rewrite E6.
  unfold vadd, vmul; cbn [fst snd]; apply (f_equal2 pair); apply pair_eq; field.
Qed.
Lemma uniform : forall alpha h, 0 <= h ->
  RK5_step (AuxFunctionDev (fun l => INR alpha / l) alpha) (1, 1) (1, 0) 1 h = ((1 + h, 1), (0, 0)).
Proof. intros; apply uniform_at; lra. Qed.
Lemma float_step : forall alpha eps m root, exists dV p step q next,
  advance dV alpha eps m root p step = (q, next) /\ 0 < p_rho p /\ 0 < step /\
  (forall r, 0 < r -> dV r - INR alpha / r = 0) /\
  p_l p = p_rho p /\ p_dl p = 1 /\ p_d2l p = d2ldrho2 dV alpha (p_l p) (p_rho p) (p_dl p) /\
  fst (RK5_step (AuxFunctionDev dV alpha) (p_l p, p_dl p) (p_dl p, p_d2l p) (p_rho p) step) = (p_rho p + step, 1) /\
  p_rho q = p_rho p + step /\ p_l q <> p_rho q.
Proof.
  intros alpha eps m root.
  assert (S0 : 0 < odd_step) by (unfold odd_step; pose proof (Rinv_0_lt_compat _ (pow_lt 2 30 ltac:(lra))); lra).
  exists (fun l => INR alpha / l), (mkPoint 1 1 1 0), odd_step.
  unfold advance; cbn [p_rho p_l p_dl p_d2l].
  rewrite float_one, uniform by (apply float_nonneg; lra). do 2 eexists; split; [reflexivity|].
  cbn [p_rho p_l p_dl p_d2l fst snd].
  repeat split; try lra.
  - intros r R; lra.
  - unfold d2ldrho2; destruct (Req_EM_T 1 0); [lra|]; field.
  - rewrite uniform by lra; reflexivity.
  - pose proof odd_not_float; lra.
Qed.

Lemma order_5_4 : exists T5 T4 : tableau,
  (forall F y rho h, RK5_step F y (F rho y) rho h =
     (rk_step T5 F y rho h, pair_add (rk_step T5 F y rho h) (pair_mul (-1) (rk_step T4 F y rho h)))) /\
  has_order 5 T5 /\ ~ has_order 6 T5 /\ has_order 4 T4 /\ rows T5 = rows T4.
Proof.
  exists CK5, CK4; split; [|split; [exact order5|split; [exact not_order6|split; [exact order4|reflexivity]]]].
  intros F y rho h. rewrite <- step_err. rewrite <- step_out. apply surjective_pairing.
Qed.

Lemma slopes_equation : forall dV alpha (l l1 : R -> R) rho l2, 0 < rho ->
  derivable_pt_lim l rho (l1 rho) -> derivable_pt_lim l1 rho l2 ->
  (exists w, AuxFunctionDev dV alpha rho (l rho, l1 rho) = w /\ derivable_pt_lim l rho (fst w) /\ derivable_pt_lim l1 rho (snd w)) <->
  l2 + INR alpha / rho * l1 rho = dV (l rho).
Proof.
  intros dV alpha l l1 rho l2 R D1 D2.
  assert (E : d2ldrho2 dV alpha (l rho) rho (l1 rho) = dV (l rho) - INR alpha / rho * l1 rho).
  { unfold d2ldrho2. destruct (Req_EM_T (l1 rho) 0) as [Z|Z]; [rewrite Z; ring|field; lra]. }
  split.
  - intros (w & <- & _ & W). unfold AuxFunctionDev in W. cbn [fst snd] in W. rewrite E in W.
    rewrite (uniqueness_limite _ _ _ _ D2 W). ring.
  - intros H. eexists. split; [reflexivity|]. unfold AuxFunctionDev. cbn [fst snd]. split; [exact D1|]. rewrite E, <- H.
    replace (l2 + INR alpha / rho * l1 rho - INR alpha / rho * l1 rho) with l2 by ring. exact D2.
Qed.
