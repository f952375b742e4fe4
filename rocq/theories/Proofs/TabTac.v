(** Evaluating tables. *)
From Coq Require Import Reals Lra Lia ZArith List Permutation Arith.
From Verif.Model Require Import Base Potential Tables.
From Verif.Spec Require Import NumDerivSpec PotentialSpec.
From Verif.Proofs Require Import DerivLib NumDerivProofs PotentialProofs TensorProofs Contract Contract2.
Import ListNotations.
Open Scope R_scope.

Lemma tree_eq n c v : length v = n -> tree n c v 0 = Ok (quartic n (at1 (tL1 c)) (at2 (tL2 c)) (at3 (tL3 c)) (at4 (tL4 c)) (fun i => nth i v 0)).
Proof. intro L. unfold tree, VTree. cbn [Z.eqb]. rewrite L, Nat.ltb_irrefl. now rewrite VTree_quartic. Qed.
Lemma counterterm_eq n c v : length v = n -> counterterm n c v 0 = Ok (quartic n (at1 (tL1 c)) (at2 (tL2 c)) (at3 (tL3 c)) (at4 (tL4 c)) (fun i => nth i v 0)).
Proof. intro L. unfold counterterm, CounterTerm. cbn [Z.eqb]. rewrite L, Nat.ltb_irrefl. now rewrite CT_quartic. Qed.
(** what is known about the tensors of a model *)
Record good (n : nat) (c : tensors) (t1 t2 t3 t4 : table) : Prop := {
  g1 : rep n 1 (tL1 c) t1; g2 : rep n 2 (tL2 c) t2; g3 : rep n 3 (tL3 c) t3; g4 : rep n 4 (tL4 c) t4;
  s2 : symmetric_tensor n 2 (tL2 c); s3 : symmetric_tensor n 3 (tL3 c); s4 : symmetric_tensor n 4 (tL4 c) }.
Lemma tree_good n c t1 t2 t3 t4 v : good n c t1 t2 t3 t4 -> length v = n ->
  tree n c v 0 = Ok (tsum t1 (mon (fun i => nth i v 0)) + / 2 * tsum t2 (mon (fun i => nth i v 0)) + / 6 * tsum t3 (mon (fun i => nth i v 0)) + / 24 * tsum t4 (mon (fun i => nth i v 0))).
Proof. intros [G1 G2 G3 G4 _ _ _] L. rewrite tree_eq by exact L. f_equal. now apply rep_quartic. Qed.
Lemma counterterm_good n c t1 t2 t3 t4 v : good n c t1 t2 t3 t4 -> length v = n ->
  counterterm n c v 0 = Ok (tsum t1 (mon (fun i => nth i v 0)) + / 2 * tsum t2 (mon (fun i => nth i v 0)) + / 6 * tsum t3 (mon (fun i => nth i v 0)) + / 24 * tsum t4 (mon (fun i => nth i v 0))).
Proof. intros [G1 G2 G3 G4 _ _ _] L. rewrite counterterm_eq by exact L. f_equal. now apply rep_quartic. Qed.

Lemma tsum_writes4 n t v : keys_okb n 4 (map fst t) = true -> tsum (expand writes4 t) (mon v) = msum writes4 t v.
Proof. intro K. apply tsum_expand. intros s I. apply cov4. now apply (keys_okb_ok _ _ _ K). Qed.
Lemma tsum_doublet n t v : keys_okb n 4 (map fst t) = true -> tsum (expand doublet_writes t) (mon v) = msum doublet_writes t v.
Proof. intro K. apply tsum_expand. intros s I. apply covd. now apply (keys_okb_ok _ _ _ K). Qed.
Lemma tsum_writes3 n t v : keys_okb n 3 (map fst t) = true -> tsum (expand writes3 t) (mon v) = msum writes3 t v.
Proof. intro K. apply tsum_expand. intros s I. apply cov3. now apply (keys_okb_ok _ _ _ K). Qed.
Lemma tsum_writes2 n t v : keys_okb n 2 (map fst t) = true -> tsum (expand writes2 t) (mon v) = msum writes2 t v.
Proof. intro K. apply tsum_expand. intros s I. apply cov2. now apply (keys_okb_ok _ _ _ K). Qed.

Definition leqb (a b : list nat) : bool := (fix go a b := match a, b with [], [] => true | x :: a, y :: b => Nat.eqb x y && go a b | _, _ => false end) a b.
Lemma cons_eq (k k' : list nat) (x x' : R) l l' : k = k' -> x = x' -> l = l' -> (k, x) :: l = (k', x') :: l'.
Proof. congruence. Qed.
Ltac tabs_eq := repeat (apply cons_eq; [reflexivity|first [reflexivity|ring|field]|]); reflexivity.
Ltac destruct_list v L := repeat (destruct v as [|? v]; [discriminate L|cbn [length] in L; apply eq_add_S in L]); destruct v; [clear L|discriminate L].
Ltac tabcbv := cbv -[Rplus Rminus Rmult Rdiv Ropp Rinv IZR sqrt pow].
Ltac explicit_rep w cv := apply (rep_explicit w); [vm_compute; reflexivity|vm_compute; reflexivity].
Ltac explicit_sym w cv := apply (symmetric_explicit w _ _ cv); [vm_compute; reflexivity|vm_compute; reflexivity].
Ltac by_sym lem := apply lem; vm_compute; reflexivity.

Lemma Ok_inj {A} (x y : A) : Ok x = Ok y -> x = y.
Proof. now injection 1. Qed.
Lemma bind_Ok {A B} (o : outcome A) (f : A -> B) y : bind o (fun x => Ok (f x)) = Ok y -> exists x, o = Ok x /\ y = f x.
Proof. destruct o; cbn [bind]; try discriminate. intro E. eexists. split; [reflexivity|]. symmetry. exact (Ok_inj _ _ E). Qed.
