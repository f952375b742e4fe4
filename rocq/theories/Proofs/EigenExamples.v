(** Concrete solvers and branches. *)
From Coq Require Import Reals List Lra Lia ZArith.
From Coquelicot Require Import Coquelicot.
From Verif Require Import Model.Base Model.EigenDeriv Spec.EigenSpec Proofs.DerivLib Proofs.EigenProofs Proofs.EigenBranch.
Import ListNotations.
Open Scope R_scope.

(** one dimension *)
Definition solver1 (n : nat) (A : cmat) : list R * cmat := ([fst (A 0%nat 0%nat)], fun _ _ => RtoC 1).
Lemma diag1 : forall A, A 0%nat 0%nat = RtoC (fst (A 0%nat 0%nat)) -> diagonalises 1 A (solver1 1 A).
Proof.
  intros A E. unfold diagonalises, solver1. cbn [fst snd]. repeat split.
  - intros i j H. assert (i = 0%nat) by lia. assert (j = 0%nat) by lia. subst. lra.
  - intros a p Ha Hp. assert (a = 0%nat) by lia. assert (p = 0%nat) by lia. subst. unfold totalC. cbn [seq map fold_right nth]. rewrite <- E. ring.
  - intros p q Hp Hq. assert (p = 0%nat) by lia. assert (q = 0%nat) by lia. subst. unfold totalC, delta. cbn [seq map fold_right Nat.eqb]. rewrite Cconj_R. ring.
  - intros p q Hp Hq. assert (p = 0%nat) by lia. assert (q = 0%nat) by lia. subst. unfold totalC, delta. cbn [seq map fold_right Nat.eqb]. rewrite Cconj_R. ring.
Qed.
Lemma branch1 : forall (Mf : R -> cmat) lam t lam', (forall s, Mf s 0%nat 0%nat = RtoC (lam s)) -> dl lam t lam' ->
  branch 1 Mf lam (fun _ _ => RtoC 1) t lam' (fun _ => RtoC 0).
Proof.
  intros Mf lam t lam' E D. split; [exact D|]. split; [intros; apply hd_const|]. split.
  - intros s a Ha. assert (a = 0%nat) by lia. subst. unfold totalC. cbn [seq map fold_right]. rewrite E. ring.
  - intro s. unfold totalC. cbn [seq map fold_right]. rewrite Cconj_R. ring.
Qed.

(** two nearly degenerate eigenvalues *)
Definition diag2 (a b : R) : cmat := fun i j => if Nat.eqb i j then RtoC (if Nat.eqb i 0 then a else b) else RtoC 0.
Definition solver2 (n : nat) (A : cmat) : list R * cmat :=
  if Req_EM_T (fst (A 1%nat 1%nat)) 0 then ([0; 1], fun i j => if Nat.eqb i j then RtoC 0 else RtoC 1)
  else ([1; 1 + / 10 ^ 7], fun i j => if Nat.eqb i j then RtoC 1 else RtoC 0).
Lemma small : 0 < / 10 ^ 7 < / 10 ^ 6.
Proof. split; [apply Rinv_0_lt_compat, pow_lt; lra|apply Rinv_lt_contravar; lra]. Qed.
Ltac two i := let H := fresh in assert (H : i = 0%nat \/ i = 1%nat) by lia; destruct H as [-> | ->].
Lemma diag2_first : diagonalises 2 (diag2 1 (1 + / 10 ^ 7)) (solver2 2 (diag2 1 (1 + / 10 ^ 7))).
Proof.
  pose proof small as S. unfold solver2. cbn [diag2 Nat.eqb fst RtoC]. destruct (Req_EM_T (1 + / 10 ^ 7) 0); [lra|]. unfold diagonalises. cbn [fst snd length].
  split; [reflexivity|]. split; [|split; [|split]].
  - intros i j H. two j; [assert (i = 0%nat) by lia; subst; lra|]. two i; cbn [nth]; lra.
  - intros a p Ha Hp. two a; two p; unfold totalC, diag2; cbn [seq map fold_right Nat.eqb nth]; ring.
  - intros p q Hp Hq. two p; two q; unfold totalC, delta; cbn [seq map fold_right Nat.eqb]; rewrite ?Cconj_R; ring.
  - intros p q Hp Hq. two p; two q; unfold totalC, delta; cbn [seq map fold_right Nat.eqb]; rewrite ?Cconj_R; ring.
Qed.
Lemma diag2_second : forall A, (forall a b, (a < 2)%nat -> (b < 2)%nat -> A a b = diag2 1 0 a b) -> diagonalises 2 A (solver2 2 A).
Proof.
  intros A E. unfold solver2. rewrite (E 1%nat 1%nat) by lia. cbn [diag2 Nat.eqb fst RtoC]. destruct (Req_EM_T 0 0); [|lra]. unfold diagonalises. cbn [fst snd length].
  split; [reflexivity|]. split; [|split; [|split]].
  - intros i j H. two j; [assert (i = 0%nat) by lia; subst; lra|]. two i; cbn [nth]; lra.
  - intros a p Ha Hp. two a; two p; unfold totalC; cbn [seq map fold_right Nat.eqb nth]; rewrite ?E by lia; unfold diag2; cbn [Nat.eqb]; ring.
  - intros p q Hp Hq. two p; two q; unfold totalC, delta; cbn [seq map fold_right Nat.eqb]; rewrite ?Cconj_R; ring.
  - intros p q Hp Hq. two p; two q; unfold totalC, delta; cbn [seq map fold_right Nat.eqb]; rewrite ?Cconj_R; ring.
Qed.
Lemma solver2_columns : forall i j, snd (solver2 2 (diag2 1 (1 + / 10 ^ 7))) i j = if Nat.eqb i j then RtoC 1 else RtoC 0.
Proof. pose proof small as S. intros. unfold solver2. cbn [diag2 Nat.eqb fst RtoC]. destruct (Req_EM_T (1 + / 10 ^ 7) 0); [lra|]. reflexivity. Qed.
Lemma solver2_blocks : forall p k A, (p + k <= 2)%nat -> (1 < k)%nat ->
  (forall a b, (a < k)%nat -> (b < k)%nat -> A a b = totalC 2 (fun c => totalC 2 (fun d => Cmult (Cmult (Cconj (snd (solver2 2 (diag2 1 (1 + / 10 ^ 7))) c (p + a)%nat)) (diag2 1 0 c d)) (snd (solver2 2 (diag2 1 (1 + / 10 ^ 7))) d (p + b)%nat)))) ->
  diagonalises k A (solver2 k A).
Proof.
  intros p k A H K E. assert (k = 2%nat) by lia. assert (p = 0%nat) by lia. subst. apply diag2_second. intros a b Ha Hb. rewrite (E a b Ha Hb).
  two a; two b; unfold totalC, diag2; cbn [seq map fold_right Nat.eqb Nat.add]; rewrite !solver2_columns; cbn [Nat.eqb]; rewrite ?Cconj_R; ring.
Qed.
Lemma branch2 : branch 2 (fun s => diag2 (1 + s) (1 + / 10 ^ 7)) (fun s => 1 + s) (fun _ a => if Nat.eqb a 0 then RtoC 1 else RtoC 0) 0 1 (fun _ => RtoC 0).
Proof.
  split; [eapply dl_eq; [apply dl_plus; [apply dl_const|apply dl_id]|ring]|]. split; [intros; apply hd_const|]. split.
  - intros s a Ha. two a; unfold totalC, diag2; cbn [seq map fold_right Nat.eqb]; ring.
  - intro s. unfold totalC. cbn [seq map fold_right Nat.eqb]. rewrite !Cconj_R. ring.
Qed.
Lemma solver2_zero : forall n A, fst (A 1%nat 1%nat) = 0 -> fst (solver2 n A) = [0; 1].
Proof. intros n A H. unfold solver2. rewrite H. destruct (Req_EM_T 0 0); [reflexivity|lra]. Qed.
Lemma swapped : nth 2 (eigen_derivatives solver2 2 (diag2 1 (1 + / 10 ^ 7)) (diag2 1 0)) 0 = 0.
Proof.
  pose proof small as S. pose proof threshold_pos as TP. change 2%nat with (2 + 0)%nat at 1. rewrite returned_derivative by lia.
  set (M := diag2 1 (1 + / 10 ^ 7)). assert (SV : fst (solver2 2 M) = [1; 1 + / 10 ^ 7]).
  { unfold solver2, M. cbn [diag2 Nat.eqb fst RtoC]. destruct (Req_EM_T (1 + / 10 ^ 7) 0); [lra|reflexivity]. }
  assert (E0 : eigenvalue solver2 2 M 0 = 1). { unfold eigenvalue. rewrite SV. cbn [nth]. unfold clipped. rewrite Rabs_R1. unfold threshold. destruct (Rlt_dec 1 (/ 10 ^ 6)); [|reflexivity]. exfalso. assert (/ 10 ^ 6 < / 1) by (apply Rinv_lt_contravar; lra). lra. }
  assert (E1 : eigenvalue solver2 2 M 1 = 1 + / 10 ^ 7). { unfold eigenvalue. rewrite SV. cbn [nth]. unfold clipped. rewrite Rabs_pos_eq by lra. unfold threshold. destruct (Rlt_dec (1 + / 10 ^ 7) (/ 10 ^ 6)); [|reflexivity]. exfalso. assert (/ 10 ^ 6 < / 1) by (apply Rinv_lt_contravar; lra). lra. }
  assert (S01 : same solver2 2 M 0 1 = true). { unfold same. rewrite E0, E1. replace (1 - (1 + / 10 ^ 7)) with (- / 10 ^ 7) by ring. rewrite Rabs_Ropp, Rabs_pos_eq by lra. unfold threshold. destruct (Rlt_dec (/ 10 ^ 6) (/ 10 ^ 7)); [lra|reflexivity]. }
  assert (MB : members solver2 2 M 0 = [0%nat; 1%nat]). { unfold members. cbn [Nat.sub seq filter]. rewrite same_refl, S01. reflexivity. }
  assert (W : fst (solver2 2 (work solver2 2 M (diag2 1 0) 0)) = [0; 1]).
  { assert (X : work solver2 2 M (diag2 1 0) 0 1%nat 1%nat = RtoC 0).
    { unfold work. rewrite MB. cbn [nth]. unfold sandwich, column, M. cbn [csum]. rewrite !solver2_columns. cbn [Nat.eqb diag2]. rewrite !Cconj_R. ring. }
    apply solver2_zero. rewrite X. reflexivity. }
  unfold derivative, derivatives. cbn [seq fold_left].
  assert (ST : step solver2 2 M (diag2 1 0) (fun _ => None) 0 = fold_left (fun s q => update s (fst q) (RtoC (snd q))) (combine [0%nat; 1%nat] [0; 1]) (fun _ => None)).
  { unfold step. cbn [Nat.sub seq existsb]. rewrite S01. cbn [orb]. rewrite MB. cbn [length]. rewrite W. reflexivity. }
  rewrite ST. cbn [combine fold_left fst snd]. set (st := update _ _ _).
  assert (X : step solver2 2 M (diag2 1 0) st 1 = st) by (unfold step; reflexivity). rewrite X. unfold st, update. cbn [Nat.eqb]. rewrite Cmod_R, Rabs_R0. destruct (Rlt_dec 0 threshold); [reflexivity|reflexivity].
Qed.
