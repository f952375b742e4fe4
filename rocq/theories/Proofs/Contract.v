(** Contractions of tensors given by tables. *)
From Coq Require Import Reals Lra Lia ZArith List Permutation Sorted Arith.
From Verif.Model Require Import Base Potential Tables.
From Verif.Spec Require Import NumDerivSpec PotentialSpec.
From Verif.Proofs Require Import DerivLib NumDerivProofs PotentialProofs TensorProofs.
Import ListNotations.
Open Scope R_scope.

Notation leq := (list_eq_dec Nat.eq_dec).

Fixpoint csum (n r : nat) (f : list nat -> R) : R :=
  match r with O => f [] | S r => sumR n (fun i => csum n r (fun q => f (i :: q))) end.
Lemma csum_ext n r : forall f g, (forall s, length s = r -> below n s -> f s = g s) -> csum n r f = csum n r g.
Proof.
  induction r as [|r IH]; intros f g H; cbn [csum]; [apply H; [reflexivity|constructor]|].
  apply sumR_ext. intros i Hi. apply IH. intros s L B. apply H; [cbn; lia|]. now constructor.
Qed.
Lemma csum_plus n r : forall f g, csum n r (fun s => f s + g s) = csum n r f + csum n r g.
Proof.
  induction r as [|r IH]; intros f g; cbn [csum]; [reflexivity|]. rewrite <- sumR_plus. apply sumR_ext. intros i _. apply IH.
Qed.
Lemma csum_zero n r : forall f, (forall s, length s = r -> below n s -> f s = 0) -> csum n r f = 0.
Proof.
  induction r as [|r IH]; intros f H; cbn [csum]; [apply H; [reflexivity|constructor]|].
  apply sumR_zero. intros i Hi. apply IH. intros s L B. apply H; [cbn; lia|]. now constructor.
Qed.
Lemma sumR_at n f m : (m < n)%nat -> (forall k, (k < n)%nat -> k <> m -> f k = 0) -> sumR n f = f m.
Proof.
  induction n as [|n IH]; intros Hm H; [lia|]. cbn [sumR]. destruct (Nat.eq_dec m n) as [->|N].
  - rewrite sumR_zero; [lra|]. intros. apply H; lia.
  - rewrite IH; [|lia|intros; apply H; lia]. rewrite (H n) by lia. lra.
Qed.
Lemma csum_at n r : forall f k, length k = r -> below n k -> (forall s, length s = r -> below n s -> s <> k -> f s = 0) -> csum n r f = f k.
Proof.
  induction r as [|r IH]; intros f k L B H; cbn [csum].
  - destruct k; [reflexivity|discriminate].
  - destruct k as [|a k]; [discriminate|]. inversion B; subst. cbn in L.
    rewrite (sumR_at n _ a); [|assumption|].
    + apply (IH (fun q => f (a :: q))); [lia|assumption|]. intros s Ls Bs N. apply H; [cbn; lia|now constructor|congruence].
    + intros i Hi N. apply csum_zero. intros s Ls Bs. apply H; [cbn; lia|now constructor|congruence].
Qed.
(** fixing the first index *)
Lemma csum_head n r i f g : (i < n)%nat ->
  csum n (S r) (fun s => f s * match s with a :: q => if Nat.eqb a i then g q else 0 | [] => 0 end) = csum n r (fun q => f (i :: q) * g q).
Proof.
  intro Hi. cbn [csum]. rewrite (sumR_at n _ i); [|assumption|].
  - now rewrite Nat.eqb_refl.
  - intros k _ N. apply csum_zero. intros s _ _. apply Nat.eqb_neq in N. rewrite N. ring.
Qed.

Definition tsum (tab : table) (g : list nat -> R) : R := fold_right (fun e a => snd e * g (fst e) + a) 0 tab.
Definition keys_ok (n r : nat) (ks : list (list nat)) : Prop := NoDup ks /\ forall k, In k ks -> length k = r /\ below n k.

Lemma assign_app t1 t2 T : assign (t1 ++ t2) T = assign t2 (assign t1 T).
Proof. unfold assign. apply fold_left_app. Qed.
Lemma assign_notin tab : forall T k, ~ In k (map fst tab) -> assign tab T k = T k.
Proof.
  induction tab as [|[a x] tab IH]; intros T k N; [reflexivity|]. cbn in N. change (assign ((a, x) :: tab) T) with (assign tab (upd T a x)).
  rewrite IH by tauto. apply upd_other. intros ->. tauto.
Qed.
Lemma assign_in tab : forall T k x, NoDup (map fst tab) -> In (k, x) tab -> assign tab T k = x.
Proof.
  induction tab as [|[a y] tab IH]; intros T k x ND I; [contradiction|]. cbn in ND. inversion ND; subst.
  change (assign ((a, y) :: tab) T) with (assign tab (upd T a y)). destruct I as [E|I].
  - injection E as -> ->. rewrite assign_notin by assumption. apply upd_same.
  - now apply IH.
Qed.
Lemma csum_upd n r T k x g : length k = r -> below n k -> T k = 0 ->
  csum n r (fun s => upd T k x s * g s) = x * g k + csum n r (fun s => T s * g s).
Proof.
  intros L B Z.
  rewrite (csum_ext n r _ (fun s => (if leq s k then x * g s else 0) + T s * g s)).
  - rewrite csum_plus, (csum_at n r _ k L B); [destruct (leq k k); [reflexivity|congruence]|].
    intros s _ _ N. destruct (leq s k); [congruence|reflexivity].
  - intros s _ _. unfold upd. destruct (leq s k); [subst; rewrite Z; ring|ring].
Qed.
Lemma csum_assign n r g : forall tab, keys_ok n r (map fst tab) -> csum n r (fun s => assign tab zero_tensor s * g s) = tsum tab g.
Proof.
  intros tab [ND K].
  assert (G : forall T, (forall k, In k (map fst tab) -> T k = 0) -> csum n r (fun s => assign tab T s * g s) = tsum tab g + csum n r (fun s => T s * g s)).
  { induction tab as [|[a x] tab IH]; intros T Z; [cbn; lra|]. cbn in ND, K. inversion ND as [|? ? NI ND']; subst.
    change (assign ((a, x) :: tab) T) with (assign tab (upd T a x)). cbn [tsum fold_right fst snd].
    destruct (K a) as [La Ba]; [now left|].
    rewrite IH; [rewrite csum_upd; [fold (tsum tab g); ring|assumption|assumption|apply Z; now left]|assumption|intros; apply K; now right|].
    intros k I. rewrite upd_other; [apply Z; now right|]. intros ->. contradiction. }
  rewrite G by reflexivity. rewrite (csum_zero n r); [lra|]. intros. unfold zero_tensor. ring.
Qed.

(** ** decidable checks on keys *)
Definition sortedb (k : list nat) : bool := (fix go p k := match k with [] => true | a :: k => Nat.leb p a && go a k end) O k.
Definition key_okb (n r : nat) (k : list nat) : bool := Nat.eqb (length k) r && forallb (fun i => Nat.ltb i n) k.
Fixpoint memb (k : list nat) (l : list (list nat)) : bool := match l with [] => false | a :: l => if leq k a then true else memb k l end.
Fixpoint nodupb (l : list (list nat)) : bool := match l with [] => true | a :: l => negb (memb a l) && nodupb l end.
Definition keys_okb n r ks := nodupb ks && forallb (key_okb n r) ks.
Lemma memb_in k l : memb k l = true <-> In k l.
Proof. induction l as [|a l IH]; cbn; [split; [discriminate|contradiction]|]. destruct (leq k a); [split; [subst; auto|reflexivity]|]. rewrite IH. split; [auto|intros [E|E]; congruence]. Qed.
Lemma nodupb_ok l : nodupb l = true -> NoDup l.
Proof.
  induction l as [|a l IH]; cbn; [constructor|]. intro H. apply andb_prop in H as [H1 H2]. constructor; [|auto].
  intro I. apply memb_in in I. rewrite I in H1. discriminate.
Qed.
Lemma keys_okb_ok n r ks : keys_okb n r ks = true -> keys_ok n r ks.
Proof.
  intro H. apply andb_prop in H as [H1 H2]. split; [now apply nodupb_ok|]. intros k I. rewrite forallb_forall in H2.
  apply H2, andb_prop in I as [I1 I2]. split; [now apply Nat.eqb_eq|]. apply Forall_forall. intros i Hi.
  rewrite forallb_forall in I2. apply Nat.ltb_lt. now apply I2.
Qed.
Lemma sortedb_ok k : sortedb k = true -> canonical k.
Proof.
  unfold sortedb, canonical. cut (forall p, (fix go p k := match k with [] => true | a :: k => Nat.leb p a && go a k end) p k = true -> Sorted le k /\ HdRel le p k).
  { intros C H. now apply C in H. }
  induction k as [|a k IH]; intros p H; [split; constructor|]. apply andb_prop in H as [H1 H2]. apply IH in H2 as [H2 H3].
  apply Nat.leb_le in H1. split; constructor; assumption.
Qed.

(** ** symmetrised tables *)
Definition dperms (writes : list nat -> list (list nat)) (s : list nat) : list (list nat) := nodup leq (s :: writes s).
Definition expand (writes : list nat -> list (list nat)) (tab : table) : table :=
  flat_map (fun e => map (fun p => (p, snd e)) (dperms writes (fst e))) tab.
Definition expand_keys (writes : list nat -> list (list nat)) (ks : list (list nat)) := flat_map (dperms writes) ks.
Lemma keys_expand w tab : map fst (expand w tab) = expand_keys w (map fst tab).
Proof.
  induction tab as [|e tab IH]; [reflexivity|]. cbn [expand expand_keys flat_map map]. rewrite map_app. f_equal; [|exact IH].
  rewrite map_map. cbn. apply map_id.
Qed.
Section Sym.
  Variable writes : list nat -> list (list nat).
  Variables n r : nat.
  Hypothesis HC : forall s, length s = r -> covers writes s.
  Variable Sy : tensor R -> tensor R.
  Hypothesis Sy_ok : forall T, symmetric_tensor n r (Sy T) /\ (forall i, length i = r -> below n i -> canonical i -> Sy T i = T i).
  Lemma Sy_isort T i : length i = r -> below n i -> Sy T i = T (isort i).
  Proof.
    intros L B. destruct (Sy_ok T) as [S C]. assert (P := isort_perm i).
    rewrite (S i (isort i) L B (Permutation_sym P)). apply C; [|eapply Permutation_Forall; [symmetry; exact P|exact B]|apply isort_sorted].
    rewrite <- L. now apply Permutation_length.
  Qed.
  Lemma expand_ok ks : forallb sortedb ks = true -> keys_ok n r ks -> keys_ok n r (expand_keys writes ks).
  Proof.
    intros Hs [ND K]. unfold expand_keys.
    assert (D : forall s p, In s ks -> In p (dperms writes s) -> Permutation p s).
    { intros s p I J. apply HC; [now apply K|]. apply nodup_In in J as [<-|J]; auto. }
    split.
    - induction ks as [|s ks IH]; [constructor|]. cbn [flat_map]. inversion ND; subst. cbn in Hs. apply andb_prop in Hs as [Hs1 Hs2].
      assert (NDs : NoDup (dperms writes s)) by apply NoDup_nodup.
      assert (X : NoDup (flat_map (dperms writes) ks)) by (apply IH; [assumption|assumption|intros; apply K; now right|intros s0 p I J; apply (D s0); [now right|exact J]]).
      assert (Y : forall p, In p (dperms writes s) -> ~ In p (flat_map (dperms writes) ks)).
      { intros p I J. apply in_flat_map in J as (s' & I' & J'). apply (D s p (or_introl eq_refl)) in I. apply (D s' p (or_intror I')) in J'.
        assert (s = s'); [|subst; contradiction]. rewrite forallb_forall in Hs2.
        apply sorted_perm_eq; [now apply sortedb_ok|now apply sortedb_ok, Hs2|]. transitivity p; [now symmetry|assumption]. }
      revert NDs Y. clear - X. generalize (dperms writes s). intros l NDs Y. induction NDs as [|p l N NDs IH]; [exact X|]. cbn. constructor.
      + rewrite in_app_iff. intros [I|I]; [contradiction|]. apply (Y p); [now left|exact I].
      + apply IH. intros q I. apply Y. now right.
    - intros k I. apply in_flat_map in I as (s & I & J). pose proof (D s k I J) as Q. destruct (K s I) as [L B]. split.
      + rewrite <- L. now apply Permutation_length.
      + eapply Permutation_Forall; [symmetry; exact Q|exact B].
  Qed.
  Lemma csum_sym tab g : forallb sortedb (map fst tab) = true -> keys_okb n r (map fst tab) = true ->
    csum n r (fun s => Sy (assign tab zero_tensor) s * g s) = tsum (expand writes tab) g.
  Proof.
    intros Hs Hk. apply keys_okb_ok in Hk. assert (He := expand_ok _ Hs Hk). rewrite <- keys_expand in He.
    rewrite <- (csum_assign n r g (expand writes tab) He). apply csum_ext. intros s Ls Bs. f_equal.
    rewrite Sy_isort by assumption.
    assert (D : forall e p, In e tab -> In p (dperms writes (fst e)) -> isort p = fst e).
    { intros e p Ie Ip. assert (C : canonical (fst e)).
      { apply sortedb_ok. rewrite forallb_forall in Hs. apply Hs, in_map, Ie. }
      apply sorted_perm_eq; [apply isort_sorted|exact C|]. rewrite isort_perm. apply HC.
      - apply (proj2 Hk). now apply in_map.
      - apply nodup_In in Ip as [<-|Ip]; auto. }
    destruct (in_dec leq s (map fst (expand writes tab))) as [I|I].
    - apply in_map_iff in I as ([p x] & <- & I). cbn [fst]. rewrite (assign_in _ _ p x (proj1 He) I).
      apply in_flat_map in I as (e & Ie & I). apply in_map_iff in I as (q & Eq & Iq). injection Eq as <- <-.
      apply assign_in; [apply Hk|]. rewrite (D e q Ie Iq). now destruct e.
    - rewrite (assign_notin (expand writes tab)) by exact I. rewrite assign_notin; [reflexivity|]. intro J. apply I.
      rewrite keys_expand. unfold expand_keys. apply in_flat_map. exists (isort s). split; [exact J|].
      apply nodup_In. assert (L : length (isort s) = r) by (rewrite <- Ls; apply Permutation_length, isort_perm).
      destruct (proj1 (HC _ L s)) as [E|E]; [symmetry; apply isort_perm|left; congruence|now right].
  Qed.
End Sym.
