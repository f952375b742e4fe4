(** Contractions of the quartic and gauge couplings of the models with two doublets. *)
From Coq Require Import Reals Lra Lia ZArith List Arith.
From Verif.Model Require Import Base Potential Tables Gauge.
From Verif.Model Require PotR2HDM PotC2HDM PotN2HDM.
From Verif.Spec Require Import NumDerivSpec PotentialSpec DebyeSpec.
From Verif.Proofs Require Import DerivLib NumDerivProofs PotentialProofs TensorProofs Contract Contract2 TabTac YukawaProofs.
From Verif.Proofs Require PotR2HDMProofs PotC2HDMProofs PotN2HDMProofs.
Import ListNotations.
Open Scope R_scope.
Notation diag := on_diagonal.

(** reading a table *)
Fixpoint eqk (a b : list nat) : bool := match a, b with [], [] => true | x :: a, y :: b => if Nat.eqb x y then eqk a b else false | _, _ => false end.
Lemma eqk_ok a : forall b, eqk a b = true <-> a = b.
Proof.
  induction a as [|x a IH]; intros [|y b]; cbn [eqk]; try (split; discriminate); [tauto|].
  destruct (Nat.eqb_spec x y) as [->|N]; [rewrite IH; split; congruence|split; [discriminate|congruence]].
Qed.
Fixpoint look (s : list nat) (t : table) : R := match t with [] => 0 | (k, x) :: t => if eqk k s then x else look s t end.
Lemma look_ok s t : nodupb (map fst t) = true -> assign t zero_tensor s = look s t.
Proof.
  intro D. apply nodupb_ok in D. destruct (in_dec (list_eq_dec Nat.eq_dec) s (map fst t)) as [I|I].
  - apply in_map_iff in I as ((k & x) & <- & I). cbn [fst]. rewrite (assign_in t _ k x D I). clear - D I.
    induction t as [|[k' x'] t IH]; [destruct I|]. cbn [look]. inversion D; subst. destruct I as [[= -> ->]|I].
    + now rewrite (proj2 (eqk_ok k k) eq_refl).
    + destruct (eqk k' k) eqn:E; [|now apply IH]. apply eqk_ok in E. subst k'. exfalso. apply H1. apply (in_map fst) in I. exact I.
  - rewrite assign_notin by exact I. unfold zero_tensor. clear D. induction t as [|[k x] t IH]; [reflexivity|]. cbn [look].
    destruct (eqk k s) eqn:E; [apply eqk_ok in E; subst; elim I; now left|]. apply IH. intro H. apply I. now right.
Qed.
Lemma doublet_entry n t i j k : nodupb (map fst t) = true -> (i < n)%nat -> (j < n)%nat -> (k < n)%nat ->
  doublet_sym4 n (assign t zero_tensor) [i; j; k; k] = look (isort [i; j; k; k]) t.
Proof.
  intros D Hi Hj Hk. rewrite <- look_ok by exact D. apply (Sy_isort n 4 (doublet_sym4 n)); [|reflexivity|bel].
  intro T. destruct (doublet_ok n T) as (A & B & _). auto.
Qed.
Ltac contract_table n p i j Hi Hj :=
  match goal with |- sumR _ ?f = _ => rewrite (sumR_ext _ f (fun k => look (isort [i; j; k; k]) (ltac:(match type of p with PotR2HDM.params => exact (PotR2HDM.tree_L4 p) | PotC2HDM.params => exact (PotC2HDM.tree_L4 p) | _ => exact (PotN2HDM.tree_L4 p) end)))) end;
  [|intros k Hk; apply (doublet_entry n); [destruct p; vm_compute; reflexivity|assumption..]];
  destruct p; cases_of i Hi; cases_of j Hj; tabcbv; field.
Lemma R2HDM_contract p i j : (i < 8)%nat -> (j < 8)%nat -> sumR 8 (fun k => at4 (tL4 (PotR2HDM.SetCurvatureArrays p)) i j k k) =
  diag [0; 1; 4; 5]%nat (6 * PotR2HDM.p_L1 p + 4 * PotR2HDM.p_L3 p + 2 * PotR2HDM.p_L4 p) i j
  + diag [2; 3; 6; 7]%nat (6 * PotR2HDM.p_L2 p + 4 * PotR2HDM.p_L3 p + 2 * PotR2HDM.p_L4 p) i j.
Proof. intros Hi Hj. contract_table 8%nat p i j Hi Hj. Qed.
Lemma C2HDM_contract p i j : (i < 8)%nat -> (j < 8)%nat -> sumR 8 (fun k => at4 (tL4 (PotC2HDM.SetCurvatureArrays p)) i j k k) =
  diag [0; 1; 4; 5]%nat (6 * PotC2HDM.p_L1 p + 4 * PotC2HDM.p_L3 p + 2 * PotC2HDM.p_L4 p) i j
  + diag [2; 3; 6; 7]%nat (6 * PotC2HDM.p_L2 p + 4 * PotC2HDM.p_L3 p + 2 * PotC2HDM.p_L4 p) i j.
Proof. intros Hi Hj. contract_table 8%nat p i j Hi Hj. Qed.
Lemma N2HDM_contract p i j : (i < 9)%nat -> (j < 9)%nat -> sumR 9 (fun k => at4 (tL4 (PotN2HDM.SetCurvatureArrays p)) i j k k) =
  diag [0; 2; 4; 6]%nat (6 * PotN2HDM.p_L1 p + 4 * PotN2HDM.p_L3 p + 2 * PotN2HDM.p_L4 p + PotN2HDM.p_NL7 p) i j
  + diag [1; 3; 5; 7]%nat (6 * PotN2HDM.p_L2 p + 4 * PotN2HDM.p_L3 p + 2 * PotN2HDM.p_L4 p + PotN2HDM.p_NL8 p) i j
  + diag [8]%nat (4 * PotN2HDM.p_NL7 p + 4 * PotN2HDM.p_NL8 p + 3 * PotN2HDM.p_NL6 p) i j.
Proof. intros Hi Hj. contract_table 9%nat p i j Hi Hj. Qed.
Ltac gauge_diag i j Hi Hj := cases_of i Hi; cases_of j Hj; tabcbv; field.
Lemma R2HDM_gdiag g gs i j : (i < 8)%nat -> (j < 8)%nat -> sumR 4 (fun k => assign (R2HDM_G2H2 g gs) zero_tensor [k; k; i; j]) = diag [0; 1; 2; 3; 4; 5; 6; 7]%nat ((3 * g * g + gs * gs) / 2) i j.
Proof. intros Hi Hj. gauge_diag i j Hi Hj. Qed.
Lemma C2HDM_gdiag g gs i j : (i < 8)%nat -> (j < 8)%nat -> sumR 4 (fun k => assign (C2HDM_G2H2 g gs) zero_tensor [k; k; i; j]) = diag [0; 1; 2; 3; 4; 5; 6; 7]%nat ((3 * g * g + gs * gs) / 2) i j.
Proof. intros Hi Hj. gauge_diag i j Hi Hj. Qed.
Lemma N2HDM_gdiag g gs i j : (i < 9)%nat -> (j < 9)%nat -> sumR 4 (fun k => assign (N2HDM_G2H2 g gs) zero_tensor [k; k; i; j]) = diag [0; 1; 2; 3; 4; 5; 6; 7]%nat ((3 * g * g + gs * gs) / 2) i j.
Proof. intros Hi Hj. gauge_diag i j Hi Hj. Qed.
