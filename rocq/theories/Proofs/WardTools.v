(** The Ward identities entry by entry for the field contents of the models. *)
From Coq Require Import Reals Lra Lia ZArith List Bool.
From Coquelicot Require Import Complex.
From Verif.Spec Require Import NumDerivSpec PotentialSpec ScalarSpec WardSpec.
From Verif.Proofs Require Import NumDerivProofs PotentialProofs ScalarProofs WardProofs.
Import ListNotations.
Local Open Scope R_scope.

(** rotated is a linear map *)
Definition lin (L : list (nat * nat * R)) (x : nat -> R) (i : nat) : R :=
  fold_right (fun e acc => let '(r, c, t) := e in if Nat.eqb r i then t * x c + acc else acc) 0 L.
Lemma lin_lin L x y c i : lin L (fun k => x k + c * y k) i = lin L x i + c * lin L y i.
Proof.
  unfold lin. induction L as [|[[r k] t] L IH]; cbn [fold_right]; [ring|]. destruct (Nat.eqb r i); rewrite IH; ring.
Qed.
Lemma lin_ext n L x y i : Forall (fun e => (snd (fst e) < n)%nat) L -> (forall k, (k < n)%nat -> x k = y k) -> lin L x i = lin L y i.
Proof.
  intros F A. unfold lin. induction F as [|[[r k] t] L Hk F IH]; cbn [fold_right]; [reflexivity|]. cbn in Hk.
  destruct (Nat.eqb r i); rewrite IH; [rewrite (A k Hk)|]; reflexivity.
Qed.
Lemma lin_zero L i : lin L (fun _ => 0) i = 0.
Proof. unfold lin. induction L as [|[[r k] t] L IH]; cbn [fold_right]; [ring|]. destruct (Nat.eqb r i); rewrite IH; ring. Qed.
Lemma rotated_lin g ds : rotated g ds = lin (flat_map (entries g) ds).
Proof. reflexivity. Qed.

(** the finite transformation generated by g *)
Definition finite (g : generator) (c s : R) : matrix22 :=
  match g with
  | Hypercharge => (((c, s), (0, 0)), ((0, 0), (c, s)))
  | Isospin3 => (((c, s), (0, 0)), ((0, 0), (c, - s)))
  | Isospin1 => (((c, 0), (0, s)), ((0, s), (c, 0)))
  | Isospin2 => (((c, 0), (s, 0)), ((- s, 0), (c, 0)))
  | Charge => (((c, s), (0, 0)), ((0, 0), (1, 0)))
  end.
Lemma finite_unitary g c s : c * c + s * s = 1 -> unitary (finite g c s).
Proof.
  intro E. destruct g; unfold unitary, finite; repeat split; apply injective_projections; cbn; ring_simplify; try lra.
Qed.
Lemma nth_vec n x i : (i < n)%nat -> nth i (vec n x) 0 = x i.
Proof. intro I. unfold vec. rewrite (nth_indep _ 0 (x 0%nat)) by (rewrite map_length, seq_length; exact I). rewrite map_nth, seq_nth by exact I. reflexivity. Qed.
Definition rotate g ds c s (x : nat -> R) (i : nat) : R := x i + s * rotated g ds x i + (1 - c) * rotated g ds (rotated g ds x) i.
Definition known (n : nat) (ds : list slot) : Prop :=
  (n = 4%nat /\ ds = slots_SM) \/ (n = 6%nat /\ ds = slots_CxSM) \/ (n = 8%nat /\ ds = slots_2HDM) \/ (n = 9%nat /\ ds = slots_2HDM) \/ (n = 9%nat /\ ds = slots_N2HDM).
Ltac lower := repeat (rewrite nth_vec by lia).
Lemma rotate_transformed n ds g c s x : known n ds -> c * c + s * s = 1 -> transformed n ds (finite g c s) (vec n x) (vec n (rotate g ds c s x)).
Proof.
  intros K E. split; [unfold vec; now rewrite map_length, seq_length|]. split; [unfold vec; now rewrite map_length, seq_length|].
  destruct K as [[-> ->]|[[-> ->]|[[-> ->]|[[-> ->]|[-> ->]]]]]; (split;
  [ intros q Q; repeat (destruct Q as [<-|Q]); [..|contradiction];
    unfold doublet_at; lower; destruct g;
    unfold rotate, rotated; cbn [flat_map entries app slots_SM slots_CxSM slots_2HDM slots_N2HDM fold_right Nat.eqb];
    unfold mkdoublet, cfield, apply22, finite, Cmult, Cplus; cbn [fst snd]; apply f_equal2; apply f_equal2; unfold Rdiv; ring
  | intros i I NI; lower; unfold rotate, rotated;
    cbn [flat_map slot_members app slots_SM slots_CxSM slots_2HDM slots_N2HDM] in NI;
    do 9 (try (destruct i as [|i]; [try (exfalso; apply NI; cbn; tauto); destruct g; cbn [flat_map entries app slots_SM slots_CxSM slots_2HDM slots_N2HDM fold_right Nat.eqb]; ring|])); lia ]).
Qed.

Section Identities.
  Variable n : nat.
  Variable ds : list slot.
  Hypothesis K : known n ds.
  Variable f : list R -> R.
  Hypothesis GI : gauge_invariant n ds f.
  Variable v N : nat -> R.
  Variable H : nat -> nat -> R.
  Hypothesis T : taylor2 n f v N H.
  Lemma H_sym i j : (i < n)%nat -> (j < n)%nat -> H i j = H j i.
  Proof. apply (proj1 T). Qed.
  Lemma rot_ext g x y i : (forall k, (k < n)%nat -> x k = y k) -> rotated g ds x i = rotated g ds y i.
  Proof.
    apply lin_ext. destruct K as [[-> ->]|[[-> ->]|[[-> ->]|[[-> ->]|[-> ->]]]]]; destruct g; cbn; repeat constructor.
  Qed.
  Lemma rot_inv g c s x : c * c + s * s = 1 -> f (vec n (rotate g ds c s x)) = f (vec n x).
  Proof. intro E. apply (GI (finite g c s)); [now apply finite_unitary|]. now apply rotate_transformed. Qed.
  Definition basis (k i : nat) : R := if Nat.eqb i k then 1 else 0.
  Lemma quad_basis k y : (k < n)%nat -> quad n H (basis k) y = sumR n (fun j => H k j * y j).
  Proof.
    intro Kn. unfold quad. transitivity (sumR n (fun i => sumR n (fun j => H i j * y j) * (if Nat.eq_dec i k then 1 else 0))).
    - apply sumR_ext. intros i I. rewrite Rmult_comm, <- sumR_scal. apply sumR_ext. intros j J. unfold basis.
      destruct (Nat.eq_dec i k) as [->|NE]; [rewrite Nat.eqb_refl; ring|]. apply Nat.eqb_neq in NE. rewrite NE. ring.
    - rewrite sumR_single by exact Kn. ring.
  Qed.
  Lemma ward_entry g k : (k < n)%nat -> sumR n (fun j => N j * rotated g ds (basis k) j) + sumR n (fun j => H k j * rotated g ds v j) = 0.
  Proof.
    intro Kn. rewrite <- quad_basis by exact Kn. apply (ward n f v N H T (rotated g ds)).
    - intros. apply lin_lin.
    - intros. now apply rot_ext.
    - intros c s x E. now apply rot_inv.
    - intro i. apply lin_zero.
  Qed.
  Lemma unbroken_entry g i j : (forall k, rotated g ds v k = 0) -> (i < n)%nat -> (j < n)%nat ->
    sumR n (fun k => H i k * rotated g ds (basis j) k) + sumR n (fun k => H j k * rotated g ds (basis i) k) = 0.
  Proof.
    intros V I J. rewrite <- !quad_basis by assumption. set (E := rotated g ds).
    assert (U : forall a, quad n H a (E a) = 0).
    { intro a. apply (unbroken n f v N H T (rotated g ds)); [intros; apply lin_lin|intros; now apply rot_ext|intros c s x X; now apply rot_inv|intro; apply lin_zero|exact V]. }
    pose proof (U (basis i)) as A. pose proof (U (basis j)) as B. pose proof (U (fun k => basis i k + 1 * basis j k)) as D.
    rewrite quad_lin1 in D.
    rewrite (quad_ext n H (basis i) (E (fun k => basis i k + 1 * basis j k)) (basis i) (fun k => E (basis i) k + 1 * E (basis j) k)) in D by (intros; try apply lin_lin; reflexivity).
    rewrite (quad_ext n H (basis j) (E (fun k => basis i k + 1 * basis j k)) (basis j) (fun k => E (basis i) k + 1 * E (basis j) k)) in D by (intros; try apply lin_lin; reflexivity).
    rewrite !quad_lin2 in D. lra.
  Qed.
End Identities.

(** parities *)
Section Parity.
  Variable n : nat.
  Variable neg : list nat.
  Variable f : list R -> R.
  Hypothesis EV : even_under n neg f.
  Variable v N : nat -> R.
  Variable H : nat -> nat -> R.
  Hypothesis T : taylor2 n f v N H.
  Hypothesis V : forall i, (i < n)%nat -> In i neg -> v i = 0.
  Let sg i : R := if existsb (Nat.eqb i) neg then -1 else 1.
  Lemma flip_path u a : f (vec n (fun i => v i + u * (sg i * a i))) = f (vec n (fun i => v i + u * a i)).
  Proof.
    rewrite <- (EV (fun i => v i + u * a i)). f_equal. apply vec_ext. intros i I. unfold flipped, sg.
    destruct (existsb (Nat.eqb i) neg) eqn:E; [|ring]. apply existsb_exists in E as (x & X & Y). apply Nat.eqb_eq in Y. subst x. rewrite V by assumption. ring.
  Qed.
  Lemma parity_N i : (i < n)%nat -> In i neg -> N i = 0.
  Proof.
    intros I IN. destruct (linear_symmetry n f v N H T (fun k => sg k * basis i k) (basis i)) as [A _]; [intros; apply flip_path|].
    assert (X : forall y, dot n N (fun k => y k * basis i k) = N i * y i).
    { intro y. unfold dot. transitivity (sumR n (fun k => (N k * y k) * (if Nat.eq_dec k i then 1 else 0))).
      - apply sumR_ext. intros k _. unfold basis. destruct (Nat.eq_dec k i) as [->|NE]; [rewrite Nat.eqb_refl; ring|]. apply Nat.eqb_neq in NE. rewrite NE. ring.
      - rewrite sumR_single by exact I. ring. }
    rewrite X in A. rewrite (dot_ext n N (basis i) (fun k => 1 * basis i k)), (X (fun _ => 1)) in A by (intros; ring).
    assert (E : sg i = -1). { unfold sg. replace (existsb (Nat.eqb i) neg) with true; [reflexivity|]. symmetry. apply existsb_exists. exists i. split; [exact IN|apply Nat.eqb_refl]. }
    rewrite E in A. lra.
  Qed.
  Lemma parity_H i j : (i < n)%nat -> (j < n)%nat -> In i neg -> ~ In j neg -> H i j = 0.
  Proof.
    intros I J IN NJ. set (a := fun k => basis i k + 1 * basis j k).
    destruct (linear_symmetry n f v N H T (fun k => sg k * a k) a) as [_ A]; [intros; apply flip_path|].
    assert (Si : sg i = -1). { unfold sg. replace (existsb (Nat.eqb i) neg) with true; [reflexivity|]. symmetry. apply existsb_exists. exists i. split; [exact IN|apply Nat.eqb_refl]. }
    assert (Sj : sg j = 1). { unfold sg. destruct (existsb (Nat.eqb j) neg) eqn:E; [|reflexivity]. apply existsb_exists in E as (x & X & Y). apply Nat.eqb_eq in Y. subst x. contradiction. }
    rewrite (quad_ext n H (fun k => sg k * a k) (fun k => sg k * a k) (fun k => basis j k + -1 * basis i k) (fun k => basis j k + -1 * basis i k)) in A.
    2, 3: (intros k _; unfold a, basis; destruct (Nat.eqb_spec k i) as [->|]; [destruct (Nat.eqb_spec i j) as [->|]; [contradiction|rewrite Si; ring]|];
           destruct (Nat.eqb_spec k j) as [->|]; [rewrite Sj; ring|ring]).
    unfold a in A. rewrite !quad_lin2, !quad_lin1 in A. rewrite (quad_sym n H (basis j) (basis i) (proj1 T)) in A.
    assert (X : quad n H (basis i) (basis j) = H i j).
    { rewrite quad_basis by exact I. transitivity (sumR n (fun k => H i k * (if Nat.eq_dec k j then 1 else 0))).
      - apply sumR_ext. intros k _. unfold basis. destruct (Nat.eq_dec k j) as [->|NE]; [rewrite Nat.eqb_refl; ring|]. apply Nat.eqb_neq in NE. rewrite NE. ring.
      - rewrite sumR_single by exact J. ring. }
    rewrite X in A. lra.
  Qed.
End Parity.
