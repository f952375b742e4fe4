(** When the derivatives of the one-loop potential throw. *)
From Coq Require Import Reals List Lia Bool.
From Verif Require Import Model.Base Model.Loop Model.LoopFour Model.Weinberg Model.WeinbergHigher.
Import ListNotations.
Open Scope R_scope.

Lemma in_range n a : (a < n)%nat -> In a (seq 0 n).
Proof. intros H. apply in_seq. lia. Qed.
Lemma tri_throws scale sectors s a b c : In s sectors -> (a < size s)%nat -> (b < size s)%nat -> (c < size s)%nat ->
  (forall r, fbaseTri scale (mass2 s a) (mass2 s b) (mass2 s c) <> Ok r) -> throws3 scale sectors = true.
Proof.
  intros I A B C F. unfold throws3. apply existsb_exists. exists s. split; [exact I|]. apply existsb_exists. exists a. split; [apply in_range, A|].
  apply existsb_exists. exists b. split; [apply in_range, B|]. apply existsb_exists. exists c. split; [apply in_range, C|].
  revert F. unfold tri. generalize (fbaseTri scale (mass2 s a) (mass2 s b) (mass2 s c)). intros o F. destruct o; [exfalso; eapply F; reflexivity|reflexivity..].
Qed.
Lemma four_throws scale sectors s a b c d : In s sectors -> (a < size s)%nat -> (b < size s)%nat -> (c < size s)%nat -> (d < size s)%nat ->
  (forall r, fbaseFour scale (mass2 s a) (mass2 s b) (mass2 s c) (mass2 s d) <> Ok r) -> throws4 scale sectors = true.
Proof.
  intros I A B C D F. unfold throws4. apply existsb_exists. exists s. split; [exact I|]. apply existsb_exists. exists a. split; [apply in_range, A|].
  apply existsb_exists. exists b. split; [apply in_range, B|]. apply existsb_exists. exists c. split; [apply in_range, C|]. apply existsb_exists. exists d. split; [apply in_range, D|].
  revert F. unfold four. generalize (fbaseFour scale (mass2 s a) (mass2 s b) (mass2 s c) (mass2 s d)). intros o F. destruct o; [exfalso; eapply F; reflexivity|reflexivity..].
Qed.
Theorem three_states N O scale sectors s a b c : In s sectors -> (a < size s)%nat -> (b < size s)%nat -> (c < size s)%nat ->
  (forall r, fbaseTri scale (mass2 s a) (mass2 s b) (mass2 s c) <> Ok r) ->
  WeinbergThirdDerivative N O scale sectors true = Throw RuntimeError /\ WeinbergForthDerivative N O scale sectors true = Throw RuntimeError.
Proof.
  intros I A B C F. pose proof (tri_throws scale sectors s a b c I A B C F) as T. unfold WeinbergThirdDerivative, WeinbergForthDerivative. rewrite T. split; reflexivity.
Qed.
Theorem four_states N O scale sectors s a b c d : In s sectors -> (a < size s)%nat -> (b < size s)%nat -> (c < size s)%nat -> (d < size s)%nat ->
  (forall r, fbaseFour scale (mass2 s a) (mass2 s b) (mass2 s c) (mass2 s d) <> Ok r) ->
  WeinbergForthDerivative N O scale sectors true = Throw RuntimeError.
Proof.
  intros I A B C D F. pose proof (four_throws scale sectors s a b c d I A B C D F) as T. unfold WeinbergForthDerivative. rewrite T, orb_true_r. reflexivity.
Qed.
