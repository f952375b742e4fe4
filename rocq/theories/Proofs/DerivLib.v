(** Rules for [derivable_pt_lim] on functions written with [fun]. *)
From Coq Require Import Reals Lra List.
Import ListNotations.
Open Scope R_scope.

Notation dl := derivable_pt_lim.
Lemma dl_eq f x d d' : dl f x d -> d = d' -> dl f x d'.
Proof. now intros H <-. Qed.
Lemma dl_ext f g x d : (forall y, f y = g y) -> dl f x d -> dl g x d.
Proof.
  intros E H eps He. destruct (H eps He) as (delta & D). exists delta. intros h H0 Hh. rewrite <- !E. now apply D.
Qed.
Lemma dl_ext_loc f g x d eps0 : 0 < eps0 -> (forall y, Rabs (y - x) < eps0 -> f y = g y) -> dl f x d -> dl g x d.
Proof.
  intros P E H eps He. destruct (H eps He) as (delta & D).
  assert (M : 0 < Rmin delta eps0) by (apply Rmin_pos; [apply cond_pos|exact P]).
  exists (mkposreal _ M). intros h H0 Hh. cbn in Hh.
  rewrite <- !E.
  - apply D; [exact H0|]. eapply Rlt_le_trans; [exact Hh|apply Rmin_l].
  - replace (x - x) with 0 by ring. rewrite Rabs_R0. exact P.
  - replace (x + h - x) with h by ring. eapply Rlt_le_trans; [exact Hh|apply Rmin_r].
Qed.
Lemma dl_const c x : dl (fun _ => c) x 0.
Proof. exact (derivable_pt_lim_const c x). Qed.
Lemma dl_id x : dl (fun y => y) x 1.
Proof. exact (derivable_pt_lim_id x). Qed.
Lemma dl_plus f g x a b : dl f x a -> dl g x b -> dl (fun y => f y + g y) x (a + b).
Proof. exact (derivable_pt_lim_plus f g x a b). Qed.
Lemma dl_minus f g x a b : dl f x a -> dl g x b -> dl (fun y => f y - g y) x (a - b).
Proof. exact (derivable_pt_lim_minus f g x a b). Qed.
Lemma dl_opp f x a : dl f x a -> dl (fun y => - f y) x (- a).
Proof. exact (derivable_pt_lim_opp f x a). Qed.
Lemma dl_mult f g x a b : dl f x a -> dl g x b -> dl (fun y => f y * g y) x (a * g x + f x * b).
Proof. exact (derivable_pt_lim_mult f g x a b). Qed.
Lemma dl_comp f g x a b : dl f x a -> dl g (f x) b -> dl (fun y => g (f y)) x (b * a).
Proof. exact (derivable_pt_lim_comp f g x a b). Qed.
Lemma dl_div f g x a b : dl f x a -> dl g x b -> g x <> 0 -> dl (fun y => f y / g y) x ((a * g x - b * f x) / (g x) ^ 2).
Proof.
  intros F G Z. eapply dl_eq; [exact (derivable_pt_lim_div f g x a b F G Z)|]. unfold Rsqr. field. exact Z.
Qed.
Lemma dl_pow f n x a : dl f x a -> dl (fun y => f y ^ n) x (INR n * f x ^ pred n * a).
Proof. intro F. exact (dl_comp f (fun y => y ^ n) x a _ F (derivable_pt_lim_pow (f x) n)). Qed.
Lemma dl_ln f x a : dl f x a -> 0 < f x -> dl (fun y => ln (f y)) x (/ f x * a).
Proof. intros F P. exact (dl_comp f ln x a _ F (derivable_pt_lim_ln (f x) P)). Qed.
Lemma dl_exp f x a : dl f x a -> dl (fun y => exp (f y)) x (exp (f x) * a).
Proof. intro F. exact (dl_comp f exp x a _ F (derivable_pt_lim_exp (f x))). Qed.
Lemma dl_sin f x a : dl f x a -> dl (fun y => sin (f y)) x (cos (f x) * a).
Proof. intro F. exact (dl_comp f sin x a _ F (derivable_pt_lim_sin (f x))). Qed.
Lemma dl_cos f x a : dl f x a -> dl (fun y => cos (f y)) x (- sin (f x) * a).
Proof. intro F. exact (dl_comp f cos x a _ F (derivable_pt_lim_cos (f x))). Qed.
Lemma dl_sqrt f x a : dl f x a -> 0 < f x -> dl (fun y => sqrt (f y)) x (/ (2 * sqrt (f x)) * a).
Proof. intros F P. exact (dl_comp f sqrt x a _ F (derivable_pt_lim_sqrt (f x) P)). Qed.
Lemma dl_Rpower f b x a : dl f x a -> 0 < f x -> dl (fun y => Rpower (f y) b) x (b * Rpower (f x) (b - 1) * a).
Proof. intros F P. exact (dl_comp f (fun y => Rpower y b) x a _ F (derivable_pt_lim_power (f x) b P)). Qed.
Lemma dl_fold {A} (F : A -> R -> R) (D : A -> R) (l : list A) x : (forall i, In i l -> dl (F i) x (D i)) ->
  dl (fun y => fold_right (fun i s => F i y + s) 0 l) x (fold_right (fun i s => D i + s) 0 l).
Proof.
  induction l as [|i l IH]; intro H; cbn [fold_right]; [apply dl_const|].
  apply dl_plus; [apply H; now left|apply IH; intros j J; apply H; now right].
Qed.

(** decompose a derivative goal; side conditions are left over *)
Ltac dlstep :=
  lazymatch goal with
  | |- dl (fun _ => ?c) _ _ => apply dl_const
  | |- dl (fun y => y) _ _ => apply dl_id
  | |- dl (fun y => @?f y + @?g y) _ _ => apply (dl_plus f g)
  | |- dl (fun y => @?f y - @?g y) _ _ => apply (dl_minus f g)
  | |- dl (fun y => @?f y * @?g y) _ _ => apply (dl_mult f g)
  | |- dl (fun y => @?f y / @?g y) _ _ => apply (dl_div f g)
  | |- dl (fun y => - @?f y) _ _ => apply (dl_opp f)
  | |- dl (fun y => @?f y ^ ?n) _ _ => apply (dl_pow f n)
  | |- dl (fun y => ln (@?f y)) _ _ => apply (dl_ln f)
  | |- dl (fun y => exp (@?f y)) _ _ => apply (dl_exp f)
  | |- dl (fun y => sqrt (@?f y)) _ _ => apply (dl_sqrt f)
  | |- dl (fun y => sin (@?f y)) _ _ => apply (dl_sin f)
  | |- dl (fun y => cos (@?f y)) _ _ => apply (dl_cos f)
  | |- dl (fun y => Rpower (@?f y) ?b) _ _ => apply (dl_Rpower f b)
  end.
Ltac dlauto := repeat dlstep.
