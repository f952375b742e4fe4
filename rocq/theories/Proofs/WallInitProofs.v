(** Proofs for the setup of the wall. *)
From Coq Require Import Reals List Lra Lia.
From Coquelicot Require Import Coquelicot.
From Verif Require Import Model.Base Model.WallInit Spec.WallInitSpec.
Import ListNotations.
Open Scope R_scope.

Lemma fold_dist : forall l acc, fold_left (fun acc p => acc + (fst p - snd p) ^ 2) l acc = acc + fold_left (fun acc (p : R * R) => acc + (fst p - snd p) ^ 2) l 0.
Proof.
  induction l as [|p l IH]; intro acc; cbn [fold_left]; [ring|]. rewrite IH, (IH (0 + (fst p - snd p) ^ 2)). ring.
Qed.
Lemma distance2_ok : forall a b, distance2 a b = dist2 a b.
Proof.
  induction a as [|x a IH]; intros [|y b]; try reflexivity. unfold distance2 in *. cbn [combine fold_left fst snd dist2]. rewrite fold_dist, IH. ring.
Qed.
Lemma norm2_ok : forall a, norm2 a = dist2 a (origin a).
Proof.
  assert (F : forall l acc, fold_left (fun acc x : R => acc + x ^ 2) l acc = acc + fold_left (fun acc x : R => acc + x ^ 2) l 0).
  { induction l as [|p l IH]; intro acc; cbn [fold_left]; [ring|]. rewrite IH, (IH (0 + p ^ 2)). ring. }
  induction a as [|x a IH]; [reflexivity|]. unfold norm2 in *. cbn [fold_left origin map dist2]. rewrite F, IH. unfold origin. ring.
Qed.
Lemma flip_ok : forall s v, flip s v = image s v.
Proof. induction s as [|a s IH]; intros [|x v]; try reflexivity. unfold flip in *. cbn [combine map fst snd image]. rewrite IH. reflexivity. Qed.

Lemma first_nearer_cases : forall tree syms v,
  (exists pre s post, syms = pre ++ s :: post /\ first_nearer tree syms v = image s v /\ dist2 tree (image s v) < dist2 tree (origin tree) /\
     forall s', In s' pre -> dist2 tree (origin tree) <= dist2 tree (image s' v)) \/
  (first_nearer tree syms v = v /\ forall s, In s syms -> dist2 tree (origin tree) <= dist2 tree (image s v)).
Proof.
  intros tree syms v. induction syms as [|s syms IH]; [right; split; [reflexivity|intros ? []]|]. cbn [first_nearer].
  rewrite distance2_ok, norm2_ok, flip_ok. destruct (Rlt_dec (dist2 tree (image s v)) (dist2 tree (origin tree))) as [H|H].
  - left. exists [], s, syms. repeat split; [exact H|intros ? []].
  - destruct IH as [[pre [s0 [post [E [F [D P]]]]]]|[F P]].
    + left. exists (s :: pre), s0, post. rewrite E. repeat split; [rewrite <- E; exact F|exact D|]. intros s' [<-|I]; [lra|apply P; exact I].
    + right. split; [exact F|]. intros s' [<-|I]; [lra|apply P; exact I].
Qed.
Lemma choose_cases : forall tree syms v,
  (dist2 tree v <= dist2 tree (origin tree) /\ choose_signs tree syms v = v) \/
  (dist2 tree (origin tree) < dist2 tree v /\
   ((exists pre s post, syms = pre ++ s :: post /\ choose_signs tree syms v = image s v /\ dist2 tree (image s v) < dist2 tree (origin tree) /\
     forall s', In s' pre -> dist2 tree (origin tree) <= dist2 tree (image s' v)) \/
    (choose_signs tree syms v = v /\ forall s, In s syms -> dist2 tree (origin tree) <= dist2 tree (image s v)))).
Proof.
  intros tree syms v. unfold choose_signs. rewrite distance2_ok, norm2_ok. destruct (Rlt_dec (dist2 tree (origin tree)) (dist2 tree v)) as [H|H].
  - right. split; [exact H|]. apply first_nearer_cases.
  - left. split; [lra|reflexivity].
Qed.
Lemma choose_idempotent : forall tree syms v, choose_signs tree syms (choose_signs tree syms v) = choose_signs tree syms v.
Proof.
  intros tree syms v. destruct (choose_cases tree syms v) as [[H E]|[H [[pre [s [post [E [F [D P]]]]]]|[F P]]]].
  - rewrite E. exact E.
  - rewrite F. unfold choose_signs. rewrite distance2_ok, norm2_ok. destruct (Rlt_dec (dist2 tree (origin tree)) (dist2 tree (image s v))); [lra|reflexivity].
  - rewrite F. exact F.
Qed.
Lemma choose_potential : forall (V : list R -> R) tree syms v, (forall s w, In s syms -> V (image s w) = V w) -> V (choose_signs tree syms v) = V v.
Proof.
  intros V tree syms v H. destruct (choose_cases tree syms v) as [[_ E]|[_ [[pre [s [post [E [F _]]]]]|[F _]]]].
  - rewrite E. reflexivity.
  - rewrite F. apply H. rewrite E. apply in_or_app. right. left. reflexivity.
  - rewrite F. reflexivity.
Qed.

(** * phases *)
Lemma cos_atan_pos : forall x, 0 < cos (atan x).
Proof. intro x. destruct (atan_bound x). apply cos_gt_0; lra. Qed.
Lemma polar_atan : forall x y, x <> 0 -> exists r, x = r * cos (atan (y / x)) /\ y = r * sin (atan (y / x)).
Proof.
  intros x y H. pose proof (cos_atan_pos (y / x)) as P. exists (x / cos (atan (y / x))). split; [field; lra|].
  pose proof (tan_atan (y / x)) as T. unfold tan in T. replace (x / cos (atan (y / x)) * sin (atan (y / x))) with (x * (sin (atan (y / x)) / cos (atan (y / x)))) by (field; lra).
  rewrite T. field. exact H.
Qed.
Lemma arg_right : forall x y, 0 < x -> arg (x, y) = atan (y / x).
Proof. intros x y H. unfold arg. destruct (Rlt_dec 0 x); [reflexivity|contradiction]. Qed.
Lemma arg_left : forall x y, x < 0 -> PI / 2 < Rabs (arg (x, y)).
Proof.
  intros x y H. unfold arg. destruct (Rlt_dec 0 x); [lra|]. destruct (Rlt_dec x 0); [|lra]. pose proof PI_RGT_0 as PP. destruct (atan_bound (y / x)) as [A B].
  destruct (Rle_dec 0 y).
  - rewrite Rabs_pos_eq; lra.
  - rewrite Rabs_left; lra.
Qed.
Lemma arg_right_bound : forall x y, 0 < x -> Rabs (arg (x, y)) < PI / 2.
Proof. intros x y H. rewrite arg_right by exact H. destruct (atan_bound (y / x)). apply Rabs_def1; lra. Qed.
Lemma arg_zero_re : forall y, Rabs (arg (0, y)) <= PI / 2 /\ arg (0, y) = (if Rlt_dec 0 y then PI / 2 else if Rlt_dec y 0 then - (PI / 2) else 0).
Proof.
  intro y. unfold arg. destruct (Rlt_dec 0 0); [lra|]. pose proof PI_RGT_0. split; [|reflexivity].
  destruct (Rlt_dec 0 y); [rewrite Rabs_pos_eq; lra|]. destruct (Rlt_dec y 0); [rewrite Rabs_Ropp, Rabs_pos_eq; lra|rewrite Rabs_R0; lra].
Qed.

Lemma phase_cases : forall x y, phase_of (x, y) (- x, - y) =
  if Rlt_dec x 0 then atan (- y / - x) else if Rlt_dec 0 x then atan (y / x) else arg (0, y).
Proof.
  intros x y. unfold phase_of. replace (1 / 2 * PI) with (PI / 2) by field. destruct (Rlt_dec x 0) as [N|N].
  - pose proof (arg_left x y N). destruct (Rlt_dec (PI / 2) (Rabs (arg (x, y)))); [|lra]. apply arg_right. lra.
  - destruct (Rlt_dec 0 x) as [P|P].
    + pose proof (arg_right_bound x y P). destruct (Rlt_dec (PI / 2) (Rabs (arg (x, y)))); [lra|]. apply arg_right. exact P.
    + assert (x = 0) by lra. subst x. destruct (arg_zero_re y) as [B _]. destruct (Rlt_dec (PI / 2) (Rabs (arg (0, y)))); [lra|reflexivity].
Qed.
Lemma phase_right : forall x y, (x, y) <> (0, 0) -> let p := phase_of (x, y) (- x, - y) in Rabs p <= PI / 2 /\ phase_up_to_sign (x, y) p.
Proof.
  intros x y NZ. rewrite phase_cases. cbv zeta. pose proof PI_RGT_0 as PP. destruct (Rlt_dec x 0) as [N|N].
  - replace (- y / - x) with (y / x) by (field; lra). destruct (atan_bound (y / x)). split; [apply Rabs_le; lra|].
    destruct (polar_atan x y ltac:(lra)) as [r [A B]]. exists r. congruence.
  - destruct (Rlt_dec 0 x) as [P|P].
    + destruct (atan_bound (y / x)). split; [apply Rabs_le; lra|]. destruct (polar_atan x y ltac:(lra)) as [r [A B]]. exists r. congruence.
    + assert (x = 0) by lra. subst x. destruct (arg_zero_re y) as [B E]. split; [exact B|]. rewrite E.
      destruct (Rlt_dec 0 y); [exists y; rewrite cos_PI2, sin_PI2; f_equal; ring|].
      destruct (Rlt_dec y 0); [exists (- y); rewrite cos_neg, sin_neg, cos_PI2, sin_PI2; f_equal; ring|]. exfalso. apply NZ. f_equal. lra.
Qed.
Lemma phase_order : forall x y, x <> 0 -> phase_of (x, y) (- x, - y) = phase_of (- x, - y) (x, y).
Proof.
  intros x y H. replace (phase_of (- x, - y) (x, y)) with (phase_of (- x, - y) (- - x, - - y)) by (rewrite !Ropp_involutive; reflexivity).
  rewrite !phase_cases. destruct (Rlt_dec x 0), (Rlt_dec (- x) 0), (Rlt_dec 0 x), (Rlt_dec 0 (- x)); try lra; f_equal; rewrite ?Ropp_involutive; field; lra.
Qed.
Lemma phase_polar : forall r p, 0 < r -> - (PI / 2) < p < PI / 2 -> phase_of (r * cos p, r * sin p) (- (r * cos p), - (r * sin p)) = p.
Proof.
  intros r p R P. assert (C : 0 < cos p) by (apply cos_gt_0; lra). assert (RC : 0 < r * cos p) by (apply Rmult_lt_0_compat; assumption). rewrite phase_cases. destruct (Rlt_dec (r * cos p) 0); [lra|]. destruct (Rlt_dec 0 (r * cos p)); [|contradiction].
  replace (r * sin p / (r * cos p)) with (tan p) by (unfold tan; field; lra). apply atan_tan. lra.
Qed.
Lemma phase_jump : forall r e, 0 < r -> 0 < e < PI ->
  let z p := (r * cos p, r * sin p) in let ph p := phase_of (z p) (- fst (z p), - snd (z p)) in
  ph (PI / 2 + e / 2) - ph (PI / 2 - e / 2) = e - PI.
Proof.
  intros r e R E z ph. unfold ph, z. cbn [fst snd]. rewrite (phase_polar r (PI / 2 - e / 2) R ltac:(lra)).
  assert (S : cos (PI / 2 + e / 2) = - cos (- (PI / 2) + e / 2) /\ sin (PI / 2 + e / 2) = - sin (- (PI / 2) + e / 2)).
  { replace (PI / 2 + e / 2) with (- (PI / 2) + e / 2 + PI) by field. rewrite neg_cos, neg_sin. split; reflexivity. }
  destruct S as [SC SS]. rewrite SC, SS.
  assert (NZ : r * - cos (- (PI / 2) + e / 2) <> 0).
  { assert (0 < cos (- (PI / 2) + e / 2)) by (apply cos_gt_0; lra). apply Rmult_integral_contrapositive_currified; lra. }
  rewrite phase_order by exact NZ.
  replace (- (r * - cos (- (PI / 2) + e / 2))) with (r * cos (- (PI / 2) + e / 2)) by ring. replace (- (r * - sin (- (PI / 2) + e / 2))) with (r * sin (- (PI / 2) + e / 2)) by ring.
  replace (r * - cos (- (PI / 2) + e / 2)) with (- (r * cos (- (PI / 2) + e / 2))) by ring. replace (r * - sin (- (PI / 2) + e / 2)) with (- (r * sin (- (PI / 2) + e / 2))) by ring.
  rewrite (phase_polar r (- (PI / 2) + e / 2) R ltac:(lra)). field.
Qed.

Lemma from_end_app : forall pre post z k, length post = k -> from_end (pre ++ z :: post) (S k) = Ok z.
Proof.
  intros pre post z k L. unfold from_end. rewrite app_length. cbn [length]. rewrite L. destruct (Nat.ltb_spec (length pre + S k) (S k)); [lia|].
  replace (length pre + S k - S k)%nat with (length pre) by lia. rewrite nth_error_app2 by lia. rewrite Nat.sub_diag. reflexivity.
Qed.
Lemma phase_at_ok : forall pre post before last k, length post = k -> phase_at (pre ++ before :: last :: post) (S k) = Ok (cut (phase_of last before)).
Proof.
  intros pre post before last k L. unfold phase_at, phase_of.
  replace (pre ++ before :: last :: post) with ((pre ++ [before]) ++ last :: post) at 1 by (rewrite <- app_assoc; reflexivity).
  rewrite (from_end_app _ post last k L). cbn [bind]. rewrite (from_end_app pre (last :: post) before (S k)) by (cbn [length]; lia). cbn [bind].
  destruct (Rlt_dec (1 / 2 * PI) (Rabs (arg last))); reflexivity.
Qed.
Lemma phase_at_short : forall m k, (length m < k)%nat -> phase_at m k = Throw OutOfRange.
Proof. intros m k L. unfold phase_at, from_end. destruct (Nat.ltb_spec (length m) k); [reflexivity|lia]. Qed.
Lemma cut_close : forall p, Rabs (cut p - p) < / 10 ^ 14 \/ cut p = p.
Proof. intro p. unfold cut. destruct (Rlt_dec (Rabs p) (/ 10 ^ 14)); [left; rewrite Rminus_0_l, Rabs_Ropp; assumption|right; reflexivity]. Qed.
