(** Proofs about masses along the wall and the statistical factor. *)
From Coq Require Import Reals List Arith Lra Lia.
From Coquelicot Require Import Coquelicot.
From Verif Require Import Model.WallProfile Model.WallMasses Spec.WallMassesSpec.
Import ListNotations.
Open Scope R_scope.

Lemma kink x : (1 - tanh x) / 2 = / (1 + exp (2 * x)).
Proof.
  unfold tanh, sinh, cosh. replace (2 * x) with (x + x) by ring. rewrite exp_plus, exp_Ropp. pose proof (exp_pos x) as E. revert E. generalize (exp x). intros e E. field.
  assert (0 < e * e) by (apply Rmult_lt_0_compat; exact E). repeat split; try lra.
Qed.
Lemma gen_phi_fields LW vc z : gen_phi LW vc z = fields LW vc z.
Proof.
  apply map_ext. intros v. replace (v / 2 * (1 - tanh (z / LW))) with (v * ((1 - tanh (z / LW)) / 2)) by field. rewrite kink. unfold Rdiv. rewrite Rmult_assoc. reflexivity.
Qed.
Lemma fields_times LW vc z : fields LW vc z = times (/ (1 + exp (2 * z / LW))) vc.
Proof. apply map_ext. intros v. unfold Rdiv. apply Rmult_comm. Qed.
Definition ds (LW z : R) : R := - / (2 * LW) * (1 / cosh (z / LW) ^ 2).
Lemma scale_derive LW z : LW <> 0 -> is_derive (fun z => / (1 + exp (2 * z / LW))) z (ds LW z).
Proof.
  intros N. pose proof (exp_pos (2 * z / LW)) as P. auto_derive; [unfold Rdiv in P; repeat split; try lra; exact N|]. unfold ds, cosh.
  replace (2 * z * / LW) with (z / LW + z / LW) by (field; exact N). rewrite exp_plus, exp_Ropp. generalize (exp_pos (z / LW)). generalize (exp (z / LW)). intros e E. field.
  assert (0 < e * e) by (apply Rmult_lt_0_compat; exact E). repeat split; try lra; exact N.
Qed.
Lemma omega_times LW vc z : LW <> 0 -> omegaprime LW vc z = times (ds LW z) vc.
Proof. intros N. apply map_ext. intros v. unfold ds, Rdiv. field. split; [|exact N]. apply Rgt_not_eq. unfold cosh. pose proof (exp_pos (z / LW)). pose proof (exp_pos (- (z / LW))). unfold Rdiv in *. lra. Qed.
Lemma along_acc a : forall b c, fold_left (fun res '(x, y) => res + x * y) (combine a b) c = c + dot a b.
Proof. induction a as [|x a IH]; intros b c; [cbn; ring|]. destruct b as [|y b]; [cbn; ring|]. cbn [combine fold_left dot]. rewrite IH. ring. Qed.
Lemma along_dot a b : along a b = dot a b.
Proof. unfold along. rewrite along_acc. ring. Qed.
Lemma dot_times a s : forall b, dot a (times s b) = s * dot b a.
Proof. induction a as [|x a IH]; intros b; destruct b as [|y b]; cbn [times map dot]; try ring. fold (times s b). rewrite IH. ring. Qed.
Lemma sequence_some (f : nat -> option R) (g : nat -> R) l : (forall i, In i l -> f i = Some (g i)) -> sequence (map f l) = Some (map g l).
Proof. induction l as [|i l IH]; intros H; [reflexivity|]. cbn. rewrite (H i) by (left; reflexivity). rewrite IH by (intros j J; apply H; right; exact J). reflexivity. Qed.

Section Query.
  Variables (query : list R -> nat -> list R) (nf : nat) (M : list R -> nat -> R) (D : list R -> nat -> nat -> R) (LW : R) (vc : list R).
  Hypothesis N : LW <> 0.
  Hypothesis V : vc <> [].
  Hypothesis Q : mass_query query nf M D vc.
  Lemma nth_mass phi i k : length phi = length vc -> (1 <= i <= length vc)%nat -> (k < nf)%nat -> nth_error (query phi i) k = Some (M phi k).
  Proof.
    intros L I K. rewrite (q_lists _ _ _ _ _ Q phi i L I). rewrite nth_error_app1 by (rewrite map_length, seq_length; exact K).
    apply (map_nth_error (M phi)). rewrite nth_error_nth' with (d := 0%nat) by (rewrite seq_length; exact K). rewrite seq_nth by exact K. reflexivity.
  Qed.
  Lemma nth_diff phi i k : length phi = length vc -> (1 <= i <= length vc)%nat -> (k < nf)%nat -> nth_error (query phi i) (nf + k) = Some (D phi i k).
  Proof.
    intros L I K. rewrite (q_lists _ _ _ _ _ Q phi i L I). rewrite nth_error_app2 by (rewrite map_length, seq_length; lia). rewrite map_length, seq_length.
    replace (nf + k - nf)%nat with k by lia. apply (map_nth_error (D phi i)). rewrite nth_error_nth' with (d := 0%nat) by (rewrite seq_length; exact K). rewrite seq_nth by exact K. reflexivity.
  Qed.
  Lemma fermion_is back z : (1 <= back <= nf)%nat ->
    fermion query nf back LW vc z = Some (sqrt (M (fields LW vc z) (nf - back)),
      ds LW z * dot vc (map (fun i => D (fields LW vc z) i (nf - back)) (seq 1 (length vc)))).
  Proof.
    intros B. unfold fermion. rewrite gen_phi_fields. assert (L : length (fields LW vc z) = length vc) by apply map_length.
    destruct (Nat.ltb_spec nf back); [lia|]. assert (P : (1 <= length vc)%nat) by (destruct vc; [congruence|cbn; lia]). destruct (Nat.eqb_spec (length vc) 0); [lia|].
    rewrite (sequence_some _ (fun i => D (fields LW vc z) i (nf - back))).
    2:{ intros i I. apply in_seq in I. replace (2 * nf - back)%nat with (nf + (nf - back))%nat by lia. apply nth_diff; [exact L|lia|lia]. }
    rewrite nth_mass by (try exact L; lia). rewrite Rabs_pos_eq by (apply (q_positive _ _ _ _ _ Q); lia). rewrite along_dot, omega_times by exact N. rewrite dot_times. reflexivity.
  Qed.
  Lemma on_wall back : (1 <= back <= nf)%nat ->
    mass_on_wall (fun z => M (fields LW vc z) (nf - back)) (fun z => sqrt (M (fields LW vc z) (nf - back)))
      (fun z => ds LW z * dot vc (map (fun i => D (fields LW vc z) i (nf - back)) (seq 1 (length vc)))).
  Proof.
    intros B z. assert (P : forall z, 0 <= M (fields LW vc z) (nf - back)) by (intros; apply (q_positive _ _ _ _ _ Q); lia).
    assert (S : forall z, sqrt (M (fields LW vc z) (nf - back)) ^ 2 = M (fields LW vc z) (nf - back)) by (intros; rewrite <- Rsqr_pow2; apply Rsqr_sqrt, P).
    split; [apply sqrt_pos|]. split; [apply S|].
    apply (is_derive_ext (fun z => (fun s => M (times s vc) (nf - back)) (/ (1 + exp (2 * z / LW))))).
    - intros t. rewrite S, fields_times. reflexivity.
    - rewrite fields_times. apply (is_derive_comp (fun s => M (times s vc) (nf - back)%nat) (fun z => / (1 + exp (2 * z / LW)))); [apply (q_direction _ _ _ _ _ Q); lia|apply scale_derive; exact N].
  Qed.
  Lemma top_ok : (3 <= nf)%nat -> exists mt dt mb db, (forall z, top_func query nf LW vc z = Some ([mt z; mb z], [dt z; db z])) /\
    mass_on_wall (fun z => M (fields LW vc z) (nf - 1)) mt dt /\ mass_on_wall (fun z => M (fields LW vc z) (nf - 3)) mb db.
  Proof.
    intros B. do 4 eexists. split; [|split; apply on_wall; lia]. intros z. unfold top_func. rewrite !fermion_is by lia. reflexivity.
  Qed.
  Lemma tau_ok : (1 <= nf)%nat -> exists m d, (forall z, tau_func query nf LW vc z = Some ([m z], [d z])) /\
    mass_on_wall (fun z => M (fields LW vc z) (nf - 1)) m d.
  Proof.
    intros B. do 2 eexists. split; [|apply on_wall; lia]. intros z. unfold tau_func. rewrite !fermion_is by lia. reflexivity.
  Qed.
  (** masses proportional to the fields *)
  Lemma tau_kink : (1 <= nf)%nat -> (forall s, M (times s vc) (nf - 1) = s ^ 2 * M vc (nf - 1)) ->
    forall z, exists d, tau_func query nf LW vc z = Some ([sqrt (M vc (nf - 1)) / (1 + exp (2 * z / LW))], [d]).
  Proof.
    intros B H z. eexists. unfold tau_func. rewrite fermion_is by lia. rewrite fields_times, H. f_equal. f_equal. f_equal.
    pose proof (exp_pos (2 * z / LW)). assert (0 < / (1 + exp (2 * z / LW))) by (apply Rinv_0_lt_compat; lra).
    rewrite sqrt_mult_alt by (apply pow2_ge_0). rewrite sqrt_pow2 by lra. unfold Rdiv. apply Rmult_comm.
  Qed.
End Query.
