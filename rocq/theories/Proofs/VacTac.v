(** Gradient and Hessian of a potential given by tables, evaluated at a field vector with few non-zero components. *)
From Coq Require Import Reals Lra Lia ZArith List Permutation Bool.
From Verif.Model Require Import Base Potential Tables.
From Verif.Spec Require Import NumDerivSpec PotentialSpec.
From Verif.Proofs Require VevProofs.
From Verif.Proofs Require Import NumDerivProofs PotentialProofs Contract Contract2 TabTac.
Import ListNotations.
Local Open Scope R_scope.

Definition inb (S : list nat) (k : nat) : bool := existsb (Nat.eqb k) S.
Definition sel1 (i : nat) (S : list nat) (t : table) : list (R * list nat) :=
  flat_map (fun e => match fst e with a :: q => if Nat.eqb a i then if forallb (inb S) q then [(snd e, q)] else [] else [] | [] => [] end) t.
Definition sel2 (i j : nat) (S : list nat) (t : table) : list (R * list nat) :=
  flat_map (fun e => match fst e with a :: b :: q => if Nat.eqb a i then if Nat.eqb b j then if forallb (inb S) q then [(snd e, q)] else [] else [] else [] | _ => [] end) t.
Definition psum (v : nat -> R) (l : list (R * list nat)) : R := fold_right (fun e a => fst e * mon v (snd e) + a) 0 l.

Section Sel.
  Variable v : nat -> R.
  Variable S : list nat.
  Hypothesis HS : forall k, inb S k = false -> v k = 0.
  Lemma mon_out q : forallb (inb S) q = false -> mon v q = 0.
  Proof.
    unfold mon. induction q as [|k q IH]; [discriminate|]. cbn [forallb fold_right]. destruct (inb S k) eqn:E.
    - intro F. rewrite IH by exact F. ring.
    - intros _. rewrite HS by exact E. ring.
  Qed.
  Lemma psum_app a b : psum v (a ++ b) = psum v a + psum v b.
  Proof. unfold psum. induction a as [|e a IH]; cbn [app fold_right]; [ring|rewrite IH; ring]. Qed.
  Lemma tsum_sel1 i t : tsum t (head i (mon v)) = psum v (sel1 i S t).
  Proof.
    unfold tsum. induction t as [|[k x] t IH]; [reflexivity|]. cbn [fold_right sel1 flat_map]. rewrite psum_app. rewrite IH. f_equal. cbn [fst snd].
    destruct k as [|a q]; [cbn; ring|]. unfold head. destruct (Nat.eqb a i); [|cbn; ring].
    destruct (forallb (inb S) q) eqn:F; [unfold psum; cbn [fold_right fst snd]; ring|]. rewrite mon_out by exact F. cbn. ring.
  Qed.
  Lemma tsum_sel2 i j t : tsum t (head i (head j (mon v))) = psum v (sel2 i j S t).
  Proof.
    unfold tsum. induction t as [|[k x] t IH]; [reflexivity|]. cbn [fold_right sel2 flat_map]. rewrite psum_app. rewrite IH. f_equal. cbn [fst snd].
    destruct k as [|a [|b q]]; [cbn; ring|unfold head; destruct (Nat.eqb a i); cbn; ring|]. unfold head.
    destruct (Nat.eqb a i); [|cbn; ring]. destruct (Nat.eqb b j); [|cbn; ring].
    destruct (forallb (inb S) q) eqn:F; [unfold psum; cbn [fold_right fst snd]; ring|]. rewrite mon_out by exact F. cbn. ring.
  Qed.
End Sel.

Section At.
  Variable n : nat.
  Variable c : tensors.
  Variables t1 t2 t3 t4 : table.
  Hypothesis G : good n c t1 t2 t3 t4.
  Variable v : list R.
  Hypothesis L : length v = n.
  Variable S : list nat.
  Hypothesis HS : forall k, inb S k = false -> nth k v 0 = 0.
  Notation W := (fun k => nth k v 0).
  Definition gradval i : R := psum W (sel1 i S t1) + psum W (sel1 i S t2) + / 2 * psum W (sel1 i S t3) + / 6 * psum W (sel1 i S t4).
  Definition hessval i j : R := psum W (sel2 i j S t2) + psum W (sel2 i j S t3) + / 2 * psum W (sel2 i j S t4).
  Lemma grad_at i : (i < n)%nat -> grad n (at1 (tL1 c)) (at2 (tL2 c)) (at3 (tL3 c)) (at4 (tL4 c)) W i = gradval i.
  Proof. intro I. destruct G. rewrite (rep_grad n _ _ _ _ t1 t2 t3 t4) by assumption. unfold gradval. rewrite !(tsum_sel1 W S HS). reflexivity. Qed.
  Lemma hess_at i j : (i < n)%nat -> (j < n)%nat -> hess n (at2 (tL2 c)) (at3 (tL3 c)) (at4 (tL4 c)) W i j = hessval i j.
  Proof. intros I J. destruct G. rewrite (rep_hess n _ _ _ t2 t3 t4) by assumption. unfold hessval. rewrite !(tsum_sel2 W S HS). reflexivity. Qed.
  Lemma tree_grad i : (i < n)%nat -> tree n c v (Z.of_nat (Datatypes.S i)) = Ok (gradval i).
  Proof. intro I. unfold tree. rewrite VevProofs.VTree1 by assumption. f_equal. now apply grad_at. Qed.
  Lemma ct_nabla : exists g, nabla_ct n c v = Ok g /\ forall i, (i < n)%nat -> g i = gradval i.
  Proof.
    eexists. split; [unfold nabla_ct, NablaVCT; rewrite VevProofs.ltb_len by exact L; reflexivity|]. intros i I.
    rewrite gradient_sum. now apply grad_at.
  Qed.
  Lemma ct_hessian : exists g, hessian_ct n c v = Ok g /\ forall i j, (i < n)%nat -> (j < n)%nat -> g i j = hessval i j.
  Proof.
    eexists. split; [unfold hessian_ct, HessianCT; rewrite VevProofs.ltb_len by exact L; reflexivity|]. intros i j I J.
    rewrite hessian_sum. now apply hess_at.
  Qed.
  Lemma tree_hessian : exists m, mass_matrix n c v = Ok m /\ forall i j, (i < n)%nat -> (j < n)%nat -> m i j = hessval (Nat.min i j) (Nat.max i j).
  Proof.
    eexists. split; [unfold mass_matrix; now apply VevProofs.HM0|]. intros i j I J. cbv beta zeta.
    destruct (Req_EM_T 0 0) as [_|NE]; [|contradiction]. rewrite !Rplus_0_r.
    destruct (Nat.leb_spec i j).
    - rewrite Nat.min_l, Nat.max_r by lia. now apply hess_at.
    - rewrite Nat.min_r, Nat.max_l by lia. now apply hess_at.
  Qed.
End At.

Definition grad_row (n : nat) (t1 t2 t3 t4 : table) (v : list R) (S : list nat) : list R :=
  map (fun i => gradval t1 t2 t3 t4 v S i) (seq 0 n).
Definition hess_rows (n : nat) (t2 t3 t4 : table) (v : list R) (S : list nat) : list (list R) :=
  map (fun i => map (fun j => hessval t2 t3 t4 v S i j) (seq 0 n)) (seq 0 n).
Lemma nth_map_seq {A} (f : nat -> A) d n i : (i < n)%nat -> nth i (map f (seq 0 n)) d = f i.
Proof.
  intro I. rewrite (nth_indep _ d (f 0%nat)) by (rewrite map_length, seq_length; exact I). rewrite map_nth, seq_nth by exact I. reflexivity.
Qed.
Definition entry2 (rows : list (list R)) (i j : nat) : R := nth j (nth i rows []) 0.
Lemma grad_row_at n t1 t2 t3 t4 v S i : (i < n)%nat -> gradval t1 t2 t3 t4 v S i = nth i (grad_row n t1 t2 t3 t4 v S) 0.
Proof. intro I. unfold grad_row. now rewrite nth_map_seq. Qed.
Lemma hess_rows_at n t2 t3 t4 v S i j : (i < n)%nat -> (j < n)%nat -> hessval t2 t3 t4 v S i j = entry2 (hess_rows n t2 t3 t4 v S) i j.
Proof. intros I J. unfold entry2, hess_rows. now rewrite !nth_map_seq. Qed.

Section Rows.
  Variable n : nat.
  Variable c : tensors.
  Variables t1 t2 t3 t4 : table.
  Hypothesis G : good n c t1 t2 t3 t4.
  Variable v : list R.
  Hypothesis L : length v = n.
  Variable S : list nat.
  Hypothesis HS : forall k, inb S k = false -> nth k v 0 = 0.
  Variable g : list R.
  Variable h : list (list R).
  Lemma tree_grad_row : grad_row n t1 t2 t3 t4 v S = g -> forall i, (i < n)%nat -> tree n c v (Z.of_nat (Datatypes.S i)) = Ok (nth i g 0).
  Proof. intros <- i I. rewrite (tree_grad n c t1 t2 t3 t4 G v L S HS i I). f_equal. now apply grad_row_at. Qed.
  Lemma ct_nabla_row : grad_row n t1 t2 t3 t4 v S = g -> exists d, nabla_ct n c v = Ok d /\ forall i, (i < n)%nat -> d i = nth i g 0.
  Proof.
    intros <-. destruct (ct_nabla n c t1 t2 t3 t4 G v L S HS) as (d & E & A). exists d. split; [exact E|]. intros i I. rewrite A by exact I. now apply grad_row_at.
  Qed.
  Lemma ct_hess_rows : hess_rows n t2 t3 t4 v S = h -> exists d, hessian_ct n c v = Ok d /\ forall i j, (i < n)%nat -> (j < n)%nat -> d i j = entry2 h i j.
  Proof.
    intros <-. destruct (ct_hessian n c t1 t2 t3 t4 G v L S HS) as (d & E & A). exists d. split; [exact E|]. intros i j I J. rewrite A by assumption. now apply hess_rows_at.
  Qed.
  Lemma tree_hess_rows : hess_rows n t2 t3 t4 v S = h -> exists d, mass_matrix n c v = Ok d /\
    forall i j, (i < n)%nat -> (j < n)%nat -> d i j = entry2 h (Nat.min i j) (Nat.max i j).
  Proof.
    intros <-. destruct (tree_hessian n c t1 t2 t3 t4 G v L S HS) as (d & E & A). exists d. split; [exact E|]. intros i j I J. rewrite A by assumption.
    apply hess_rows_at; lia.
  Qed.
End Rows.
Ltac evalat := cbv -[Rplus Rminus Rmult Rdiv Ropp Rinv IZR sqrt pow].
(** name the value of a closed computation *)
Ltac compute_as K T := let x := eval cbv -[Rplus Rminus Rmult Rdiv Ropp Rinv IZR sqrt pow] in T in
  assert (K : T = x) by (vm_compute; reflexivity).

(** case distinction over indices below a numeral *)
Ltac cases_lt i H := repeat (destruct i as [|i]; [|apply (proj2 (Nat.succ_lt_mono _ _)) in H]); [..|exfalso; inversion H].
