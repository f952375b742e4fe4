(** Control flow of Solve1DBounce and CalculateAction. *)
From Coq Require Import ZArith Reals Lra Lia List Arith Bool.
From Verif.Model Require Import Action.
From Verif.Spec Require Import ActionSpec.
From Verif.Proofs Require Import ActionProofs.
Import ListNotations.
Local Open Scope R_scope.

Definition over_at (env : path_env) (error p d : R) : Prop := exists dl l n, e_run env p d = Ended dl l n /\ error < dl.

Lemma classify_spec error L dl l u o s u' o' : classify error L dl l u o = (s, u', o') ->
  (s = Converged -> reaches_false_vacuum error L dl l) /\ (s = Overshoot -> error < dl) /\ (s = Undershoot -> dl <= error) /\ (o' = true -> o = true \/ s = Overshoot) /\
  (u' = true -> u = true \/ s = Undershoot).
Proof.
  unfold classify. destruct (Rleb (Rabs dl) error && Rleb (Rabs (l - L) / L) error) eqn:E.
  - apply andb_true_iff in E. destruct E as (A & B). apply Rleb_true in A, B. intro H. injection H as <- <- <-. unfold reaches_false_vacuum. repeat split; (congruence || tauto || lra).
  - destruct (Rleb dl error) eqn:D; [apply Rleb_true in D; intro H; injection H as <- <- <-; repeat split; (congruence || tauto)|].
    apply Rleb_false in D. destruct (Rleb error ((l - L) / L)); intro H; injection H as <- <- <-; repeat split; (congruence || tauto).
Qed.

Lemma shoot_stop env error l0 d u o p r : shoot env error l0 d u o p = Stop r -> v_conv r = true -> has_bounce env error /\ v_status r = NotCalculated.
Proof.
  unfold shoot. destruct (e_run env l0 d) as [why|dl l n] eqn:E; [intro H; injection H as <-; discriminate|].
  destruct (classify error (e_L env) dl l u o) as ((s & u') & o') eqn:Ec. apply classify_spec in Ec. destruct Ec as (C & _).
  destruct (points_left s n <=? 7)%nat; [intro H; injection H as <-; discriminate|].
  destruct s; intro H; try discriminate H. injection H as <-. intros _. split; [|reflexivity]. exists l0, d, dl, l, n. auto.
Qed.
Lemma shoot_shot env error l0 d u o p s u' o' p' : shoot env error l0 d u o p = Shot s u' o' p' ->
  s <> Converged /\ (s = Overshoot -> over_at env error l0 d) /\ (o' = true -> o = true \/ s = Overshoot) /\ (7 < p')%nat.
Proof.
  unfold shoot. destruct (e_run env l0 d) as [why|dl l n] eqn:E; [discriminate|].
  destruct (classify error (e_L env) dl l u o) as ((s0 & u0) & o0) eqn:Ec. apply classify_spec in Ec. destruct Ec as (C & O & U & F & _).
  destruct (points_left s0 n <=? 7)%nat eqn:Ep; [discriminate|]. apply Nat.leb_gt in Ep.
  destruct s0; intro H; try discriminate H; injection H as <- <- <- <-; (split; [discriminate|]); (split; [|auto]); intro Q; try discriminate Q.
  exists dl, l, n. auto.
Qed.
Lemma in_left a b : Rmin a b <= a <= Rmax a b. Proof. unfold Rmin, Rmax. destruct (Rle_dec a b); lra. Qed.
Lemma in_mid a b : Rmin a b <= (a + b) / 2 <= Rmax a b. Proof. unfold Rmin, Rmax. destruct (Rle_dec a b); lra. Qed.

Lemma search_log env error : forall f lmin lmax mu_min mu_max u o p,
  (o = true -> over_at env error (e_lmin env + exp mu_min) (exp mu_min)) ->
  let r := search env error f true lmin lmax mu_min mu_max u o p in
  v_conv r = true -> v_over r = true -> has_bounce env error \/ narrow_log env error.
Proof.
  induction f as [|f IH]; intros lmin lmax mu_min mu_max u o p I; cbn [search]; [cbn; discriminate|].
  destruct (shoot env error (e_lmin env + exp ((mu_min + mu_max) / 2)) (exp ((mu_min + mu_max) / 2)) u o p) as [r|s u' o' p'] eqn:E.
  - intros C _. left. eapply shoot_stop; eassumption.
  - apply shoot_shot in E. destruct E as (N & O & F & _). destruct (Rltb (Rabs (mu_max - mu_min)) (1 / 10000000)) eqn:W.
    + apply Rltb_true in W. cbn. intros _ Q. right. destruct (F Q) as [G|G].
      * destruct (I G) as (dl & l & n & R1 & R2). exists mu_min, mu_max, mu_min, dl, l, n. split; [apply in_left|]. auto.
      * destruct (O G) as (dl & l & n & R1 & R2). exists mu_min, mu_max, ((mu_min + mu_max) / 2), dl, l, n. split; [apply in_mid|]. auto.
    + destruct s; [congruence| |].
      * apply IH. intro Q. destruct (F Q) as [G|G]; [auto|discriminate].
      * apply IH. auto.
Qed.

Lemma search_lin env error : forall f lmin lmax mu_min mu_max u o p,
  (o = true -> exists d, over_at env error lmin d) ->
  let r := search env error f false lmin lmax mu_min mu_max u o p in
  v_conv r = true -> v_over r = true -> has_bounce env error \/ narrow_linear env error \/ narrow_log env error.
Proof.
  induction f as [|f IH]; intros lmin lmax mu_min mu_max u o p I; cbn [search]; [cbn; discriminate|].
  destruct (shoot env error ((lmax + lmin) / 2) ((lmax + lmin) / 2 - e_lmin env) u o p) as [r|s u' o' p'] eqn:E.
  - intros C _. left. eapply shoot_stop; eassumption.
  - apply shoot_shot in E. destruct E as (N & O & F & _). destruct (Rltb ((lmax - lmin) / e_L env) (error * (1 / 10000000))) eqn:W.
    + apply Rltb_true in W. destruct o'.
      * cbn. intros _ _. right. left. destruct (F eq_refl) as [G|G].
        -- destruct (I G) as (d & dl & l & n & R1 & R2). exists lmin, lmax, lmin, d, dl, l, n. split; [apply in_left|]. auto.
        -- destruct (O G) as (dl & l & n & R1 & R2). exists lmin, lmax, ((lmax + lmin) / 2), ((lmax + lmin) / 2 - e_lmin env), dl, l, n.
           split; [replace ((lmax + lmin) / 2) with ((lmin + lmax) / 2) by field; apply in_mid|]. auto.
      * cbv zeta. set (mm := ln (lmax - lmin) + 2).
        destruct (shoot env error (e_lmin env + exp ((mu_min + mm) / 2)) (exp ((mu_min + mm) / 2)) u' false p') as [r|s2 u2 o2 p2] eqn:E2.
        -- intros C _. left. eapply shoot_stop; eassumption.
        -- apply shoot_shot in E2. destruct E2 as (N2 & O2 & F2 & _). destruct (Rltb (Rabs (mm - mu_min)) (1 / 10000000)) eqn:W2.
           ++ apply Rltb_true in W2. cbn. intros _ Q. right. right. destruct (F2 Q) as [G|G]; [discriminate|].
              destruct (O2 G) as (dl & l & n & R1 & R2). exists mu_min, mm, ((mu_min + mm) / 2), dl, l, n. split; [apply in_mid|]. auto.
           ++ intros C V. assert (has_bounce env error \/ narrow_log env error) as [B|B]; [|auto|auto].
              destruct s2; [congruence| |].
              ** eapply search_log; [|exact C|exact V]. intro Q. destruct (F2 Q); discriminate.
              ** eapply search_log; [|exact C|exact V]. auto.
    + destruct s; [congruence| |].
      * apply IH. intro Q. destruct (F Q) as [G|G]; [auto|discriminate].
      * apply IH. intros _. eexists. apply O. reflexivity.
Qed.

Lemma solver_converged env error maxiter c u o : e_high env = false ->
  v_conv (Solve1DBounce env error maxiter c u o) = true -> v_over (Solve1DBounce env error maxiter c u o) = true ->
  has_bounce env error \/ narrow_linear env error \/ narrow_log env error.
Proof. intro H. unfold Solve1DBounce. rewrite H. apply search_lin. discriminate. Qed.

(** the status after the solver: still NotCalculated, or a failure; a converged solver leaves NotCalculated *)
Definition settled (r : solver) : Prop := v_conv r = true -> v_status r = NotCalculated.
Lemma search_settled env error : forall f m lmin lmax mu_min mu_max u o p, settled (search env error f m lmin lmax mu_min mu_max u o p).
Proof.
  unfold settled. induction f as [|f IH]; intros m lmin lmax mu_min mu_max u o p; cbn [search]; [discriminate|].
  assert (L : forall lmin lmax mu_max u o p,
    v_conv (match shoot env error (e_lmin env + exp ((mu_min + mu_max) / 2)) (exp ((mu_min + mu_max) / 2)) u o p with
          | Stop r => r
          | Shot s under over points =>
              if Rltb (Rabs (mu_max - mu_min)) (1 / 10000000) then mkSolver NotCalculated true under over points
              else match s with
                   | Undershoot => search env error f true lmin lmax mu_min ((mu_min + mu_max) / 2) under over points
                   | _ => search env error f true lmin lmax ((mu_min + mu_max) / 2) mu_max under over points
                   end
          end) = true ->
    v_status (match shoot env error (e_lmin env + exp ((mu_min + mu_max) / 2)) (exp ((mu_min + mu_max) / 2)) u o p with
          | Stop r => r
          | Shot s under over points =>
              if Rltb (Rabs (mu_max - mu_min)) (1 / 10000000) then mkSolver NotCalculated true under over points
              else match s with
                   | Undershoot => search env error f true lmin lmax mu_min ((mu_min + mu_max) / 2) under over points
                   | _ => search env error f true lmin lmax ((mu_min + mu_max) / 2) mu_max under over points
                   end
          end) = NotCalculated).
  { clear lmin lmax mu_max u o p. intros lmin lmax mu_max u o p. destruct (shoot _ _ _ _ u o p) as [r|s u' o' p'] eqn:E; [eapply shoot_stop; eassumption|].
    destruct (Rltb _ _); [reflexivity|]. destruct s; apply IH. }
  destruct m; [apply L|]. destruct (shoot _ _ _ _ u o p) as [r|s u' o' p'] eqn:E; [eapply shoot_stop; eassumption|].
  destruct (Rltb _ _); [|apply IH]. destruct o'; [reflexivity|]. cbv zeta. apply L.
Qed.
(** whoever refuses to integrate gives a failure as the reason *)
Definition proper_env (env : path_env) : Prop := forall l0 d why, e_run env l0 d = Refused why -> failure why.
Lemma shoot_status env error l0 d u o p r : proper_env env -> shoot env error l0 d u o p = Stop r -> v_status r = NotCalculated \/ failure (v_status r).
Proof.
  intros P. unfold shoot. destruct (e_run env l0 d) as [why|dl l n] eqn:E; [intro H; injection H as <-; right; cbn; eapply P; eassumption|].
  destruct (classify error (e_L env) dl l u o) as ((s & u') & o').
  destruct (points_left s n <=? 7)%nat; [intro H; injection H as <-; right; cbn; split; discriminate|].
  destruct s; intro H; try discriminate H. injection H as <-. left. reflexivity.
Qed.
Lemma search_status env error : proper_env env -> forall f m lmin lmax mu_min mu_max u o p,
  let r := search env error f m lmin lmax mu_min mu_max u o p in v_status r = NotCalculated \/ failure (v_status r).
Proof.
  intro P. induction f as [|f IH]; intros m lmin lmax mu_min mu_max u o p; cbn [search]; [left; reflexivity|].
  assert (L : forall lmin lmax mu_max u o p,
    let r := (match shoot env error (e_lmin env + exp ((mu_min + mu_max) / 2)) (exp ((mu_min + mu_max) / 2)) u o p with
          | Stop r => r
          | Shot s under over points =>
              if Rltb (Rabs (mu_max - mu_min)) (1 / 10000000) then mkSolver NotCalculated true under over points
              else match s with
                   | Undershoot => search env error f true lmin lmax mu_min ((mu_min + mu_max) / 2) under over points
                   | _ => search env error f true lmin lmax ((mu_min + mu_max) / 2) mu_max under over points
                   end
          end) in v_status r = NotCalculated \/ failure (v_status r)).
  { clear lmin lmax mu_max u o p. intros lmin lmax mu_max u o p. destruct (shoot _ _ _ _ u o p) as [r|s u' o' p'] eqn:E; [eapply shoot_status; eassumption|].
    destruct (Rltb _ _); [left; reflexivity|]. destruct s; apply IH. }
  destruct m; [apply L|]. destruct (shoot _ _ _ _ u o p) as [r|s u' o' p'] eqn:E; [eapply shoot_status; eassumption|].
  destruct (Rltb _ _); [|apply IH]. destruct o'; [left; reflexivity|]. cbv zeta. apply L.
Qed.
Lemma solver_status env error maxiter c u o : proper_env env ->
  v_status (Solve1DBounce env error maxiter c u o) = NotCalculated \/ failure (v_status (Solve1DBounce env error maxiter c u o)).
Proof. intro P. unfold Solve1DBounce. destruct (e_high env); [right; split; discriminate|now apply search_status]. Qed.

(** ** CalculateAction *)
Definition unfinished (b : bounce) : Prop := b_status b = NotCalculated \/ failure (b_status b).
Definition solved (P : paths) (error : R) (k : nat) : Prop :=
  exists c u o, let r := Solve1DBounce (p_env P k) error 100 c u o in v_conv r = true /\ v_status r = NotCalculated.
(** what is known about the object after solving on path k *)
Record known (P : paths) (error : R) (k : nat) (a0 : R) (b : bounce) : Prop := {
  k_act : b_action b = a0;
  k_1d : b_1d b = true -> b_status b = NotCalculated -> solved P error k;
  k_un : unfinished b;
  k_path : b_path b = true -> b_without b = true \/ p_check P k = true }.

Lemma is_nc_true s : is_nc s = true <-> s = NotCalculated. Proof. destruct s; cbn; split; congruence. Qed.
Lemma is_nc_false s : is_nc s = false <-> s <> NotCalculated. Proof. destruct s; cbn; split; congruence. Qed.

Lemma solve_on_known P error k b : (forall k, proper_env (p_env P k)) -> unfinished b -> b_path b = false ->
  known P error k (b_action b) (fst (solve_on P error k b)).
Proof.
  intros Hp U Hb. unfold solve_on. destruct (is_nc (b_status b)) eqn:E; cbn [fst].
  - constructor; cbn; [reflexivity| | |].
    + intros C S. exists (b_1d b), (b_under b), (b_over b). cbn. auto.
    + apply solver_status. apply Hp.
    + rewrite Hb. discriminate.
  - apply is_nc_false in E. constructor; cbn; [reflexivity| | |].
    + intros _ S. congruence.
    + exact U.
    + rewrite Hb. discriminate.
Qed.
Lemma shots_same b : b_1d (shots_check b) = b_1d b /\ b_path (shots_check b) = b_path b /\ b_without (shots_check b) = b_without b /\ b_action (shots_check b) = b_action b /\
  (b_status (shots_check b) = b_status b \/ b_status (shots_check b) = NeverUndershootOvershoot) /\ b_under (shots_check b) = b_under b /\ b_over (shots_check b) = b_over b.
Proof. unfold shots_check. destruct (negb (b_under b) && Rleb (-1) (b_action b)); cbn; destruct (negb (b_over b) && Rleb (-1) (b_action b)); cbn; tauto. Qed.
Lemma shots_known P error k a0 b : known P error k a0 b -> known P error k a0 (shots_check b).
Proof.
  intros [A D U H]. destruct (shots_same b) as (E1 & E2 & E3 & E4 & E5 & _). constructor; rewrite ?E1, ?E2, ?E3, ?E4; auto.
  - intros C S. apply D; [exact C|]. destruct E5 as [E|E]; congruence.
  - unfold unfinished in *. destruct E5 as [E|E]; rewrite E; [exact U|]. right. split; discriminate.
Qed.
Lemma solve_path P error k b : b_path (fst (solve_on P error k b)) = b_path b /\ b_without (fst (solve_on P error k b)) = b_without b /\
  b_action (fst (solve_on P error k b)) = b_action b.
Proof. unfold solve_on. destruct (is_nc (b_status b)); repeat split; reflexivity. Qed.

Lemma deform_known P error a0 : (forall k, proper_env (p_env P k)) -> forall cnt k b points, known P error k a0 b -> b_status b = NotCalculated ->
  match deform_loop P error cnt k b points with
  | inl b' => failure (b_status b') /\ b_action b' = a0
  | inr (b', k') => known P error k' a0 b' /\ b_status b' = NotCalculated
  end.
Proof.
  intro Hp. induction cnt as [|c IH]; intros k b points K St; cbn [deform_loop]; [auto|].
  destruct (b_path b) eqn:Eb; [auto|].
  pose proof (shots_known _ _ _ _ _ K) as K1. destruct (shots_same b) as (E1 & E2 & E3 & E4 & _). set (b1 := shots_check b) in *.
  destruct (is_nc (b_status b1)) eqn:N1; cbn [negb].
  2:{ apply is_nc_false in N1. split; [|apply (k_act _ _ _ _ _ K1)]. destruct (k_un _ _ _ _ _ K1); [congruence|assumption]. }
  apply is_nc_true in N1. destruct (points <? 4)%nat; [cbn; split; [split; discriminate|apply (k_act _ _ _ _ _ K1)]|].
  set (b2 := mkBounce (b_status b1) (b_1d b1) (b_path b1) (b_under b1) (b_over b1) (b_without b1 || p_deform P k) (b_action b1)).
  assert (K2 : known P error (S k) a0 (fst (solve_on P error (S k) b2))).
  { replace a0 with (b_action b2) by (apply (k_act _ _ _ _ _ K1)). apply solve_on_known; [exact Hp|left; exact N1|cbn; rewrite E2; exact Eb]. }
  destruct (solve_on P error (S k) b2) as (b3, pts) eqn:E3'. cbn [fst] in K2.
  assert (P3 : b_path b3 = false). { pose proof (solve_path P error (S k) b2) as (Q & _). rewrite E3' in Q. cbn in Q. rewrite Q. rewrite E2. exact Eb. }
  apply shots_known in K2. destruct (shots_same b3) as (F1 & F2 & F3 & F4 & _). set (b4 := shots_check b3) in *.
  destruct (is_nc (b_status b4)) eqn:N4; cbn [negb].
  2:{ apply is_nc_false in N4. split; [|apply (k_act _ _ _ _ _ K2)]. destruct (k_un _ _ _ _ _ K2); [congruence|assumption]. }
  apply is_nc_true in N4. destruct K2 as [KA KD KU KP].
  destruct (b_without b4) eqn:W.
  { split; [|exact N4]. constructor; cbn; auto. }
  destruct (p_check P (S k)) eqn:C.
  { split; [|exact N4]. constructor; cbn; auto. }
  destruct (b_1d b4) eqn:D; cbn [negb]; [|cbn; split; [split; discriminate|exact KA]].
  apply IH; [|exact N4]. constructor; auto; rewrite W, C; auto.
Qed.


Lemma action_known P dim fv_bad mx error b b' assigned : (forall k, proper_env (p_env P k)) -> unfinished b ->
  CalculateAction P dim fv_bad mx error b = (b', assigned) ->
  if assigned then
    b_1d b' = true /\ ((1 < dim)%nat -> b_path b' = true) /\
    exists k, b_action b' = p_kin P k + p_pot P k /\ (b_status b' = NotCalculated -> solved P error k) /\
      ((1 < dim)%nat -> b_status b' = NotCalculated /\ (b_without b' = true \/ p_check P k = true)) /\ ((dim <= 1)%nat -> k = 0%nat)
  else failure (b_status b') /\ b_action b' = b_action b.
Proof.
  intros Hp U. unfold CalculateAction. destruct fv_bad; [intro H; injection H as <- <-; cbn; split; [split; discriminate|reflexivity]|].
  set (b0 := mkBounce (b_status b) false false (b_under b) (b_over b) (b_without b) (b_action b)).
  pose proof (solve_on_known P error 0 b0 Hp U eq_refl) as K. cbv zeta.
  destruct (1 <? dim)%nat eqn:Ed.
  - apply Nat.ltb_lt in Ed. destruct (solve_on P error 0 b0) as (b1, pts) eqn:E1. cbn [fst] in K.
    destruct (is_nc (b_status b1)) eqn:N1; cbn [negb].
    2:{ apply is_nc_false in N1. intro H. injection H as <- <-. split; [|apply (k_act _ _ _ _ _ K)]. destruct (k_un _ _ _ _ _ K); [congruence|assumption]. }
    apply is_nc_true in N1. destruct (pts <? 4)%nat; [intro H; injection H as <- <-; cbn; split; [split; discriminate|apply (k_act _ _ _ _ _ K)]|].
    set (b2 := if p_check P 0 then with_path b1 else b1).
    assert (K2 : known P error 0 (b_action b0) b2).
    { unfold b2. destruct (p_check P 0) eqn:C; [|exact K]. destruct K as [KA KD KU KP]. constructor; cbn; auto. }
    assert (N2 : b_status b2 = NotCalculated) by (unfold b2; destruct (p_check P 0); exact N1).
    pose proof (deform_known P error (b_action b0) Hp (mx - 1) 0 b2 pts K2 N2) as D.
    destruct (deform_loop P error (mx - 1) 0 b2 pts) as [b3|(b3, k)]; [intro H; injection H as <- <-; exact D|]. destruct D as ([KA KD KU KP] & N3).
    destruct (b_path b3) eqn:Eb; cbn [negb]; [|intro H; injection H as <- <-; cbn; split; [split; discriminate|exact KA]].
    destruct (b_1d b3) eqn:Eo; cbn [negb]; [|intro H; injection H as <- <-; cbn; split; [split; discriminate|exact KA]].
    intro H; injection H as <- <-. cbn. split; [reflexivity|]. split; [auto|]. exists k. split; [reflexivity|]. split; [auto|]. split; [auto|lia].
  - apply Nat.ltb_ge in Ed. destruct (solve_on P error 0 b0) as (b1, pts) eqn:E1. cbn [fst] in K. destruct K as [KA KD KU KP].
    destruct (b_1d b1) eqn:Eo; cbn [negb]; [|intro H; injection H as <- <-; cbn; split; [split; discriminate|exact KA]].
    intro H; injection H as <- <-. cbn. split; [reflexivity|]. split; [lia|]. exists 0%nat. split; [reflexivity|]. split; [auto|]. split; [lia|auto].
Qed.

(** ** an environment in which every trajectory falls short *)
Definition falls_short : path_env := mkEnv false 0 1 1 (fun _ _ => Ended 0 0 10).
Definition tol : R := 1 / 1000000.
Lemma short_shoot l0 d u o p : shoot falls_short tol l0 d u o p = Shot Undershoot true o 9.
Proof.
  unfold shoot, falls_short, classify. cbn [e_run e_L]. unfold tol.
  rewrite (proj2 (Rleb_false (Rabs (0 - 1) / 1) (1 / 1000000))).
  2:{ replace (Rabs (0 - 1)) with 1; [lra|]. unfold Rabs. destruct (Rcase_abs (0 - 1)); lra. }
  rewrite andb_false_r. rewrite (proj2 (Rleb_true 0 (1 / 1000000))) by lra. reflexivity.
Qed.
Lemma short_log : forall j f lmin lmax a b u o p, Rabs (b - a) < 2 ^ j * (1 / 10000000) -> (j < f)%nat ->
  search falls_short tol f true lmin lmax a b u o p = mkSolver NotCalculated true true o 9.
Proof.
  induction j as [|j IH]; intros f lmin lmax a b u o p W Hf; (destruct f as [|f]; [lia|]); cbn [search]; rewrite short_shoot.
  - cbn [pow] in W. rewrite (proj2 (Rltb_true _ _)) by lra. reflexivity.
  - destruct (Rltb (Rabs (b - a)) (1 / 10000000)); [reflexivity|]. apply IH; [|lia].
    cbn [pow] in W. replace ((a + b) / 2 - a) with ((b - a) / 2) by field. unfold Rdiv. rewrite Rabs_mult, (Rabs_right (/ 2)) by lra. lra.
Qed.
Lemma ln_small m : - INR m <= ln ((1 / 2) ^ m) <= 0.
Proof.
  assert (H : ln ((1 / 2) ^ m) = INR m * ln (1 / 2)).
  { induction m as [|m IH]; [cbn; rewrite ln_1; ring|]. cbn [pow]. rewrite ln_mult by (try apply pow_lt; lra). rewrite IH, S_INR. ring. }
  assert (L : ln (1 / 2) = - ln 2) by (unfold Rdiv; rewrite Rmult_1_l; apply ln_Rinv; lra).
  assert (0 < ln 2) by (rewrite <- ln_1; apply ln_increasing; lra).
  assert (ln 2 < 1).
  { rewrite <- (ln_exp 1). apply ln_increasing; [lra|]. pose proof (exp_ineq1 1 ltac:(lra)). lra. }
  pose proof (pos_INR m). rewrite H, L. split; nra.
Qed.
Lemma short_lin : forall k m f mu u p, (m + k = 44)%nat -> (k + 33 <= f)%nat ->
  search falls_short tol f false 0 ((1 / 2) ^ m) (-200) mu u false p = mkSolver NotCalculated true true false 9.
Proof.
  induction k as [|k IH]; intros m f mu u p Hm Hf; (destruct f as [|f]; [lia|]); cbn [search]; rewrite short_shoot; cbn [e_L e_lmin falls_short].
  - assert (m = 44%nat) by lia. subst m. rewrite (proj2 (Rltb_true (((1 / 2) ^ 44 - 0) / 1) (tol * (1 / 10000000)))).
    2:{ unfold tol. replace ((1 / 2) ^ 44) with (1 / 17592186044416) by field. lra. }
    cbv zeta. rewrite Rminus_0_r. pose proof (ln_small 44) as (A & B). replace (INR 44) with 44 in A by (rewrite INR_IZR_INZ; reflexivity).
    set (mm := ln ((1 / 2) ^ 44) + 2). assert (C : -42 <= mm <= 2) by (unfold mm; lra). clearbody mm. clear A B.
    rewrite short_shoot. destruct (Rltb (Rabs (mm - -200)) (1 / 10000000)); [reflexivity|]. apply short_log with (j := 31%nat); [|lia].
    rewrite Rabs_right by lra. cbn [pow]. lra.
  - rewrite (proj2 (Rltb_false _ _)).
    2:{ unfold tol. assert ((1 / 2) ^ 43 <= (1 / 2) ^ m).
        { replace 43%nat with (m + (43 - m))%nat by lia. rewrite pow_add. assert (0 < (1 / 2) ^ m) by (apply pow_lt; lra).
          assert ((1 / 2) ^ (43 - m) <= 1). { pose proof (pow_incr (1 / 2) 1 (43 - m) ltac:(lra)) as Q. rewrite pow1 in Q. exact Q. } nra. }
        replace ((1 / 2) ^ 43) with (1 / 8796093022208) in H by field. match goal with |- _ <= ?x => replace x with ((1 / 2) ^ m) by field end. lra. }
    replace (((1 / 2) ^ m + 0) / 2) with ((1 / 2) ^ (S m)) by (cbn [pow]; field). apply IH; lia.
Qed.
Lemma short_converges c u o : Solve1DBounce falls_short tol 100 c u o = mkSolver NotCalculated true true false 9.
Proof. unfold Solve1DBounce. cbn [e_high e_lmin e_lmax falls_short]. apply (short_lin 44 0 100); lia. Qed.
Lemma short_nothing : ~ has_bounce falls_short tol /\ ~ overshoots falls_short tol.
Proof.
  split.
  - intros (l0 & d & dl & l & p & E & (A & B)). cbn in E. injection E as <- <- <-. unfold tol in B. cbn [e_L falls_short] in B.
    unfold Rabs in B. destruct (Rcase_abs (0 - 1)); lra.
  - intros (l0 & d & dl & l & p & E & A). cbn in E. injection E as <- <- <-. unfold tol in A. lra.
Qed.

Lemma known_not_success P error k a0 b : known P error k a0 b -> b_status b <> Success.
Proof. intros [_ _ [E|(_ & F)] _]; congruence. Qed.
Lemma never_success P dim fv_bad mx error b b' assigned : (forall k, proper_env (p_env P k)) -> b_status b = NotCalculated ->
  CalculateAction P dim fv_bad mx error b = (b', assigned) -> b_status b' <> Success.
Proof.
  intros Hp Hb H. pose proof (action_known P dim fv_bad mx error b b' assigned Hp (or_introl Hb) H) as K. destruct assigned; [|destruct K as ((_ & F) & _); exact F].
  destruct K as (_ & _ & k & _ & _ & A & _). destruct (Nat.leb dim 1) eqn:Ed; [|apply Nat.leb_gt in Ed; destruct (A Ed) as (Q & _); congruence].
  apply Nat.leb_le in Ed. revert H. unfold CalculateAction. destruct fv_bad; [intro H; apply (f_equal snd) in H; discriminate|].
  rewrite (proj2 (Nat.ltb_ge 1 dim)) by exact Ed. cbv zeta. set (b0 := mkBounce (b_status b) false false (b_under b) (b_over b) (b_without b) (b_action b)).
  pose proof (solve_on_known P error 0 b0 Hp (or_introl Hb) eq_refl) as K. destruct (solve_on P error 0 b0) as (b1, pts). cbn [fst] in K. apply known_not_success in K.
  destruct (negb (b_1d b1)); intro H; apply (f_equal fst) in H; cbn [fst] in H; subst b'; cbn; [discriminate|exact K].
Qed.

(** ** the two flags *)
Section Flags.
Variables (env : path_env) (error : R).
Lemma not_reached L dl l : Rleb (Rabs dl) error && Rleb (Rabs (l - L) / L) error = false -> ~ reaches_false_vacuum error L dl l.
Proof. intros E (A & B). apply Rleb_true in A, B. now rewrite A, B in E. Qed.
Lemma classify_flags dl l u o s u' o' : classify error (e_L env) dl l u o = (s, u', o') ->
  (o' = true <-> o = true \/ (error < dl /\ error <= (l - e_L env) / e_L env)) /\
  (u' = true <-> u = true \/ (dl <= error /\ ~ reaches_false_vacuum error (e_L env) dl l)).
Proof.
  unfold classify. destruct (Rleb (Rabs dl) error && Rleb (Rabs (l - e_L env) / e_L env) error) eqn:E.
  - apply andb_true_iff in E. destruct E as (A & B). apply Rleb_true in A, B. intro H. injection H as <- <- <-.
    assert (dl <= error) by (revert A; unfold Rabs; destruct (Rcase_abs dl); lra).
    split; (split; [auto|]); intros [Q|(Q1 & Q2)]; auto; exfalso; [lra|]. apply Q2. split; assumption.
  - apply not_reached in E. destruct (Rleb dl error) eqn:D.
    + apply Rleb_true in D. intro H. injection H as <- <- <-. split; (split; [auto|]); [|auto]. intros [Q|(Q1 & Q2)]; [exact Q|lra].
    + apply Rleb_false in D. destruct (Rleb error ((l - e_L env) / e_L env)) eqn:F; intro H; injection H as <- <- <-.
      * apply Rleb_true in F. split; (split; [auto|]); [auto|]. intros [Q|(Q1 & Q2)]; [exact Q|lra].
      * apply Rleb_false in F. split; (split; [auto|]); intros [Q|(Q1 & Q2)]; auto; lra.
Qed.
Definition flagged (u o : bool) (l0 d : R) (u' o' : bool) : Prop :=
  (o' = true <-> o = true \/ passes_clearly env error l0 d) /\ (u' = true <-> u = true \/ falls_back env error l0 d).
Lemma shoot_flags l0 d u o p :
  match shoot env error l0 d u o p with
  | Stop r => flagged u o l0 d (v_under r) (v_over r)
  | Shot _ u' o' _ => flagged u o l0 d u' o'
  end.
Proof.
  unfold shoot. destruct (e_run env l0 d) as [why|dl l n] eqn:E.
  { cbn. split; (split; [auto|]); intros [Q|(a & b & c & Q & _)]; auto; congruence. }
  destruct (classify error (e_L env) dl l u o) as ((s & u') & o') eqn:Ec. apply classify_flags in Ec. destruct Ec as (O & U).
  assert (F : flagged u o l0 d u' o').
  { split.
    - rewrite O. split; (intros [Q|Q]; [auto|right]); [exists dl, l, n; tauto|]. destruct Q as (a & b & c & Q & R1 & R2). rewrite E in Q. injection Q as <- <- <-. auto.
    - rewrite U. split; (intros [Q|Q]; [auto|right]); [exists dl, l, n; tauto|]. destruct Q as (a & b & c & Q & R1 & R2). rewrite E in Q. injection Q as <- <- <-. auto. }
  destruct (points_left s n <=? 7)%nat; [exact F|]. destruct s; exact F.
Qed.
Definition carried (u o : bool) (r : solver) : Prop :=
  (o = true -> v_over r = true) /\ (u = true -> v_under r = true) /\
  (v_over r = true -> o = true \/ exists l0 d, passes_clearly env error l0 d) /\
  (v_under r = true -> u = true \/ exists l0 d, falls_back env error l0 d).
Lemma carried_flag u o l0 d u' o' r : flagged u o l0 d u' o' -> carried u' o' r -> carried u o r.
Proof.
  intros (O & U) (A & B & C & D). repeat split; intro Q.
  - apply A, O. auto.
  - apply B, U. auto.
  - destruct (C Q) as [R1|R1]; [|auto]. apply O in R1. destruct R1; eauto.
  - destruct (D Q) as [R1|R1]; [|auto]. apply U in R1. destruct R1; eauto.
Qed.
Lemma carried_refl r : carried (v_under r) (v_over r) r.
Proof. repeat split; auto. Qed.
Lemma carried_mk s c u o p : carried u o (mkSolver s c u o p).
Proof. exact (carried_refl (mkSolver s c u o p)). Qed.
Lemma search_flags : forall f m lmin lmax mu_min mu_max u o p, carried u o (search env error f m lmin lmax mu_min mu_max u o p).
Proof.
  induction f as [|f IH]; intros m lmin lmax mu_min mu_max u o p; cbn [search]; [apply carried_mk|].
  set (lp := fun lmin lmax mu_max u o p => match shoot env error (e_lmin env + exp ((mu_min + mu_max) / 2)) (exp ((mu_min + mu_max) / 2)) u o p with
          | Stop r => r
          | Shot s under over points =>
              if Rltb (Rabs (mu_max - mu_min)) (1 / 10000000) then mkSolver NotCalculated true under over points
              else match s with
                   | Undershoot => search env error f true lmin lmax mu_min ((mu_min + mu_max) / 2) under over points
                   | _ => search env error f true lmin lmax ((mu_min + mu_max) / 2) mu_max under over points
                   end
          end).
  assert (L : forall lmin lmax mu_max u o p, carried u o (lp lmin lmax mu_max u o p)).
  { intros. unfold lp. pose proof (shoot_flags (e_lmin env + exp ((mu_min + mu_max0) / 2)) (exp ((mu_min + mu_max0) / 2)) u0 o0 p0) as F.
    destruct (shoot env error _ _ u0 o0 p0) as [r|s u' o' p']; (eapply carried_flag; [exact F|]); [apply carried_refl|].
    destruct (Rltb _ _); [apply carried_mk|]. destruct s; apply IH. }
  destruct m; [apply L|].
  pose proof (shoot_flags ((lmax + lmin) / 2) ((lmax + lmin) / 2 - e_lmin env) u o p) as F.
  destruct (shoot env error _ _ u o p) as [r|s u' o' p']; (eapply carried_flag; [exact F|]); [apply carried_refl|].
  destruct (Rltb _ _); [|apply IH]. destruct o'; [apply carried_mk|]. apply L.
Qed.
Lemma first_shot f lmin lmax a b u o p :
  let r := search env error (S f) false lmin lmax a b u o p in
  (passes_clearly env error ((lmax + lmin) / 2) ((lmax + lmin) / 2 - e_lmin env) -> v_over r = true) /\
  (falls_back env error ((lmax + lmin) / 2) ((lmax + lmin) / 2 - e_lmin env) -> v_under r = true).
Proof.
  cbn [search]. 
  pose proof (shoot_flags ((lmax + lmin) / 2) ((lmax + lmin) / 2 - e_lmin env) u o p) as F.
  destruct (shoot env error _ _ u o p) as [r|s u' o' p'].
  - cbv zeta. destruct F as (O & U). split; intro Q; [apply O|apply U]; auto.
  - destruct F as (O & U).
    cbv zeta. match goal with |- (_ -> v_over ?t = true) /\ _ => assert (C : carried u' o' t) end.
    2:{ cbv zeta in *. destruct C as (C1 & C2 & _). split; intro Q; [apply C1, O|apply C2, U]; auto. }
    destruct (Rltb _ _); [|apply search_flags]. destruct o'; [apply carried_mk|]. cbv zeta.
    pose proof (search_flags (S f) true (match s with Undershoot => lmin | _ => (lmax + lmin) / 2 end) (match s with Undershoot => (lmax + lmin) / 2 | _ => lmax end) a (ln (lmax - lmin) + 2) u' false p') as G.
    cbn [search] in G. exact G.
Qed.
Lemma solver_flags n c u o : e_high env = false ->
  let r := Solve1DBounce env error n c u o in
  let mid := (e_lmax env + e_lmin env) / 2 in
  (v_over r = true -> exists l0 d, passes_clearly env error l0 d) /\ (v_under r = true -> exists l0 d, falls_back env error l0 d) /\
  ((1 <= n)%nat -> passes_clearly env error mid (mid - e_lmin env) -> v_over r = true) /\
  ((1 <= n)%nat -> falls_back env error mid (mid - e_lmin env) -> v_under r = true).
Proof.
  intro H. unfold Solve1DBounce. rewrite H. cbv zeta.
  destruct (search_flags n false (e_lmin env) (e_lmax env) (-200) (ln (e_lmax env - e_lmin env)) false false 0) as (_ & _ & C & D).
  split; [intro Q; destruct (C Q); [discriminate|assumption]|]. split; [intro Q; destruct (D Q); [discriminate|assumption]|].
  destruct n as [|n]; [split; intro; lia|]. destruct (first_shot n (e_lmin env) (e_lmax env) (-200) (ln (e_lmax env - e_lmin env)) false false 0) as (A & B).
  split; auto.
Qed.
End Flags.

Lemma shots_both b : -1 <= b_action b -> is_nc (b_status (shots_check b)) = true -> b_under b = true /\ b_over b = true.
Proof.
  intros Ha. unfold shots_check. rewrite (proj2 (Rleb_true (-1) (b_action b)) Ha).
  destruct (b_under b) eqn:U; destruct (b_over b) eqn:O; cbn; rewrite ?O, ?Ha; cbn; rewrite ?(proj2 (Rleb_true (-1) (b_action b)) Ha); cbn; auto; discriminate.
Qed.
Lemma deform_both P error : forall cnt k b points b' k', -1 <= b_action b -> b_path b = false ->
  deform_loop P error cnt k b points = inr (b', k') -> b_path b' = true -> b_under b' = true /\ b_over b' = true.
Proof.
  induction cnt as [|c IH]; intros k b points b' k' Ha Hp; cbn [deform_loop]; [intros H; injection H as <- <-; congruence|].
  rewrite Hp. destruct (shots_same b) as (E1 & E2 & E3 & E4 & _). set (b1 := shots_check b) in *.
  destruct (negb (is_nc (b_status b1))); [discriminate|]. destruct (points <? 4)%nat; [discriminate|].
  set (b2 := mkBounce (b_status b1) (b_1d b1) (b_path b1) (b_under b1) (b_over b1) (b_without b1 || p_deform P k) (b_action b1)).
  pose proof (solve_path P error (S k) b2) as SP. destruct (solve_on P error (S k) b2) as (b3, pts).
  cbn [fst] in SP.
  assert (A3 : -1 <= b_action b3) by (destruct SP as (_ & _ & Q); rewrite Q; cbn; lra).
  assert (P3 : b_path b3 = false) by (destruct SP as (Q & _); rewrite Q; cbn; congruence).
  destruct (is_nc (b_status (shots_check b3))) eqn:N; cbn [negb]; [|discriminate].
  destruct (shots_both b3 A3 N) as (U & O). destruct (shots_same b3) as (F1 & F2 & F3 & F4 & _ & F6 & F7).
  destruct (b_without (shots_check b3)); [intros H _; injection H as <- <-; cbn|].
  { now rewrite F6, F7. }
  destruct (p_check P (S k)); [intros H _; injection H as <- <-; cbn|].
  { now rewrite F6, F7. }
  destruct (negb (b_1d (shots_check b3))); [discriminate|]. apply IH; [rewrite F4; exact A3|congruence].
Qed.
Lemma action_both P dim mx error b b' : (1 < dim)%nat -> -1 <= b_action b -> CalculateAction P dim false mx error b = (b', true) ->
  p_check P 0 = true \/ (b_under b' = true /\ b_over b' = true).
Proof.
  intros Hd Ha. unfold CalculateAction. rewrite (proj2 (Nat.ltb_lt 1 dim) Hd). cbv zeta.
  set (b0 := mkBounce (b_status b) false false (b_under b) (b_over b) (b_without b) (b_action b)).
  pose proof (solve_path P error 0 b0) as SP. destruct (solve_on P error 0 b0) as (b1, pts). cbn [fst] in SP. destruct SP as (Q1 & _ & Q2).
  destruct (negb (is_nc (b_status b1))); [discriminate|]. destruct (pts <? 4)%nat; [discriminate|].
  destruct (p_check P 0); [auto|]. intro H. right.
  destruct (deform_loop P error (mx - 1) 0 b1 pts) as [x|(b3, k)] eqn:D; [discriminate|].
  destruct (b_path b3) eqn:Eb; cbn [negb] in H; [|discriminate]. destruct (b_1d b3); cbn [negb] in H; [|discriminate].
  apply (f_equal fst) in H. cbn [fst] in H. subst b'. cbn. eapply deform_both; [| |exact D|exact Eb]; [rewrite Q2; cbn; lra|rewrite Q1; reflexivity].
Qed.

