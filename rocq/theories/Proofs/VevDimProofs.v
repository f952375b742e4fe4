(** Proofs about the conversion to vacuum expectation values. *)
From Coq Require Import List Arith Lia Sorted.
From Verif Require Import Model.Base Model.Potential Model.VevDim Spec.PotentialSpec Proofs.VevProofs.
Import ListNotations.

Section Convert.
  Context {A : Type}.
  Lemma convert_ok (point : list A) : forall order v, length v = length order ->
    (forall k o, nth_error order k = Some o -> nth_error point o = nth_error v k) -> ConvertToVEVDim order point = Ok v.
  Proof.
    induction order as [|i order IH]; intros v L H; destruct v as [|x v]; try discriminate; [reflexivity|]. cbn [ConvertToVEVDim].
    rewrite (H 0 i eq_refl). cbn [nth_error]. rewrite (IH v); [reflexivity|cbn in L; lia|]. intros k o E. apply (H (S k) o E).
  Qed.
  Lemma convert_inv (point : list A) : forall order v, ConvertToVEVDim order point = Ok v ->
    length v = length order /\ forall k o, nth_error order k = Some o -> nth_error point o = nth_error v k.
  Proof.
    induction order as [|i order IH]; intros v E.
    - injection E as <-. split; [reflexivity|]. intros [|k] o F; discriminate.
    - cbn [ConvertToVEVDim] in E. destruct (nth_error point i) as [x|] eqn:N; [|discriminate]. destruct (ConvertToVEVDim order point) as [r| | |]; try discriminate.
      injection E as <-. destruct (IH r eq_refl) as [L H]. split; [cbn; lia|]. intros [|k] o F; cbn [nth_error] in F; [injection F as <-; exact N|apply H, F].
  Qed.
  Lemma convert_total (point : list A) : forall order, Forall (fun o => o < length point) order -> exists v, ConvertToVEVDim order point = Ok v.
  Proof.
    induction order as [|i order IH]; intros F; [exists []; reflexivity|]. inversion F as [|? ? I R]; subst. destruct (IH R) as [v E]. cbn [ConvertToVEVDim].
    destruct (nth_error point i) as [x|] eqn:N; [rewrite E; exists (x :: v); reflexivity|]. apply nth_error_None in N. lia.
  Qed.
  Lemma convert_throws (point : list A) : forall order, Exists (fun o => length point <= o) order -> ConvertToVEVDim order point = Throw OutOfRange.
  Proof.
    induction order as [|i order IH]; intros E; [inversion E|]. cbn [ConvertToVEVDim]. destruct (nth_error point i) as [x|] eqn:N; [|reflexivity].
    inversion E as [? ? H|? ? H]; subst; [apply nth_error_None in H; congruence|]. rewrite (IH H). reflexivity.
  Qed.
  Variable zero : A.
  Lemma there_and_back n order (v w : list A) : length v = length order -> StronglySorted lt order -> Forall (fun o => o < n) order -> 0 < n ->
    MinimizeOrderVEV zero order v n = Ok w -> ConvertToVEVDim order w = Ok v.
  Proof.
    intros L S F N E. destruct (order_spec zero n order v L S F N) as [I O]. destruct (in_dec Nat.eq_dec (n - 1) order) as [X|X]; [|rewrite (O X) in E; discriminate].
    destruct (I X) as [w' [E' [_ [P _]]]]. rewrite E in E'. injection E' as <-. apply convert_ok; assumption.
  Qed.
  Lemma back_and_there n order (p : list A) : length p = n -> StronglySorted lt order -> Forall (fun o => o < n) order -> 0 < n -> In (n - 1) order ->
    exists v w, ConvertToVEVDim order p = Ok v /\ MinimizeOrderVEV zero order v n = Ok w /\
      (w = p <-> forall i, i < n -> ~ In i order -> nth_error p i = Some zero).
  Proof.
    intros L S F N X. destruct (convert_total p order) as [v E]; [rewrite L; exact F|]. destruct (convert_inv _ _ _ E) as [Lv H].
    destruct (order_spec zero n order v Lv S F N) as [I _]. destruct (I X) as [w [W [Lw [P Z]]]]. exists v, w. split; [exact E|]. split; [exact W|]. split.
    - intros <-. exact Z.
    - intros Q. assert (K : forall i, nth_error w i = nth_error p i).
      { intros i. destruct (Nat.lt_ge_cases i n) as [G|G]; [|transitivity (@None A); [|symmetry]; apply nth_error_None; lia].
        destruct (in_dec Nat.eq_dec i order) as [J|J]; [|rewrite (Z i G J), (Q i G J); reflexivity].
        apply In_nth_error in J. destruct J as [k J]. rewrite (P k i J), (H k i J). reflexivity. }
      clear - K. revert p K. induction w as [|x w IH]; intros [|y p] K; [reflexivity|discriminate (K 0)|discriminate (K 0)|].
      f_equal; [specialize (K 0); cbn in K; congruence|]. apply IH. intros i. exact (K (S i)).
  Qed.
End Convert.
