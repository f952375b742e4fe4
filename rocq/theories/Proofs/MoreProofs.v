(** Further facts about transport equations and mass spectra. *)
From Coq Require Import Reals List Lra Lia ZArith.
From Coquelicot Require Import Coquelicot.
From Verif Require Import Model.Base Model.Fluid Model.Density Model.EigenDeriv Spec.FluidSpec Proofs.FluidProofs.
Import ListNotations.
Open Scope R_scope.

(** * integration of a constant *)
Definition line (x : list R) (a : R) (k : list R) : list R := map (fun p => fst p + a * snd p) (combine x k).
Lemma line_length : forall x a k, length k = length x -> length (line x a k) = length x.
Proof. intros x a k L. unfold line. rewrite map_length, combine_length, L. apply Nat.min_id. Qed.
Lemma line_line : forall x a b k, length k = length x -> line (line x a k) b k = line x (a + b) k.
Proof.
  unfold line. induction x as [|y x IH]; intros a b [|z k] L; try discriminate; [reflexivity|]. cbn. rewrite IH by (cbn in L; lia). f_equal. ring.
Qed.
Lemma line_0 : forall x k, length k = length x -> line x 0 k = x.
Proof. unfold line. induction x as [|y x IH]; intros [|z k] L; try discriminate; [reflexivity|]. cbn. rewrite IH by (cbn in L; lia). f_equal. ring. Qed.
Lemma vplus_vscale : forall x c k, vplus x (vscale c k) = line x c k.
Proof. unfold vplus, vscale, line. induction x as [|y x IH]; intros c [|z k]; try reflexivity. cbn. rewrite IH. reflexivity. Qed.
Lemma advance_constant : forall cs n x h k, length cs = n -> length k = length x -> advance x h cs (repeat k n) = line x (h * fold_right Rplus 0 cs) k.
Proof.
  unfold advance. induction cs as [|c cs IH]; intros n x h k N L; subst n; cbn [length repeat combine fold_left fold_right fst snd].
  - rewrite Rmult_0_r, line_0 by exact L. reflexivity.
  - rewrite vplus_vscale, IH by (try reflexivity; rewrite line_length; assumption). rewrite line_line by exact L. f_equal. ring.
Qed.
Lemma stages_constant : forall rows k t h x ks, stages (fun _ _ => Ok k) t h x rows ks = Ok (ks ++ repeat k (length rows)).
Proof.
  induction rows as [|[c row] rows IH]; intros k t h x ks; cbn [stages bind length repeat]; [rewrite app_nil_r; reflexivity|]. rewrite IH, <- app_assoc. reflexivity.
Qed.
Lemma integrate_constant : forall tb ctl k, length (tb_weights tb) = length (tb_stages tb) -> fold_right Rplus 0 (tb_weights tb) = 1 ->
  forall fuel x t t_end h y, length k = length x -> integrate fuel tb ctl (fun _ _ => Ok k) x t t_end h = Ok y -> y = line x (t_end - t) k.
Proof.
  intros tb ctl k W S. induction fuel as [|fuel IH]; intros x t t_end h y L E; [discriminate|]. cbn [integrate] in E.
  destruct (Req_EM_T t t_end) as [Q|Q]; [injection E as <-; rewrite Q, Rminus_eq_0, line_0 by exact L; reflexivity|].
  set (h' := if Rlt_dec (Rabs (t_end - t)) (Rabs h) then t_end - t else h) in *.
  rewrite stages_constant in E. cbn [app bind] in E. rewrite (advance_constant (tb_weights tb)) in E by assumption. rewrite S, Rmult_1_r in E.
  destruct (ctl t h' _ _ _) as [ok h2]. destruct ok.
  - apply IH in E; [|rewrite line_length; assumption]. rewrite E, line_line by exact L. f_equal. ring.
  - apply IH in E; assumption.
Qed.

(** * strong sphalerons in the network of the top quark *)
Lemma top_sphaleron_equilibrium : forall e p w kb u b, e_Dq e <> 0 ->
  let n := e_kappa e (w_mt p) in
  let rs := quark_reactions (e_relax_t e (w_mt p)) 0 (e_Y e) 0 0 in
  let ss := quark_species (6 * n) (3 * n) kb 4 6 3 (w 0%nat) (w 1%nat) b (w 2%nat) (w 3%nat) u in
  let St := e_source_t e (w_mt p) (w_tht p) in
  diffuses (e_vw e) (e_Dq e) (w 4%nat) (nth 4 (top_rhs e p w) 0) (gain rs ss 0 - St) <->
  (e_SS e = 0 \/ 2 * (w 0%nat / (6 * n)) = w 1%nat / (3 * n) + (- (w 0%nat + w 1%nat)) / 3).
Proof.
  intros e p w kb u b Dq n rs ss St. subst rs ss. rewrite gain_q. unfold diffuses, top_rhs. cbn [nth]. fold n. unfold kappa_QL_0, kappa_QR_0, kappa_H_0.
  set (Q := w 0%nat / (6 * n)). replace (2 * w 0%nat / (6 * n)) with (2 * Q) by (unfold Q, Rdiv; ring). set (T := w 1%nat / (3 * n)). set (B := - (w 1%nat + w 0%nat) / 3).
  replace (- (w 0%nat + w 1%nat) / 3) with B by (unfold B; field).
  match goal with |- ?l - ?d * (?x / ?d') = ?r <-> _ => replace (d * (x / d')) with x by (field; exact Dq) end.
  split.
  - intro H. destruct (Req_EM_T (e_SS e) 0) as [Z|Z]; [left; exact Z|right]. assert (E : e_SS e * (2 * Q - T - B) = 0) by (unfold St in H; lra). apply Rmult_integral in E. destruct E as [E|E]; [contradiction|lra].
  - intros [Z|Z]; [rewrite Z|replace (2 * Q - T - B) with 0 by lra]; unfold St; ring.
Qed.

(** * spectra *)
Lemma masses_values : forall solver zero n M p, (p < n)%nat -> 0 < zero ->
  let x := nth p (fst (solver n M)) 0 in let r := nth p (masses solver zero n M) 0 in
  length (masses solver zero n M) = n /\ ((Rabs x < zero /\ r = 0) \/ (zero <= Rabs x /\ r = x)).
Proof.
  intros solver zero n M p P Z x r. unfold r, masses. rewrite map_length, seq_length. split; [reflexivity|].
  set (f := fun i => let y := nth i (fst (solver n M)) 0 in if Rlt_dec (Rabs y) zero then 0 else y).
  rewrite (nth_indep _ 0 (f 0%nat)) by (rewrite map_length, seq_length; exact P). rewrite (map_nth f), seq_nth by exact P. cbn [Nat.add]. unfold f. cbv zeta. fold x.
  destruct (Rlt_dec (Rabs x) zero); [left; split; [assumption|reflexivity]|right; split; [lra|reflexivity]].
Qed.
