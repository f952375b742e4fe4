(** The equation system of the classical cubic spline is solvable for every choice of boundary conditions. *)
From Coq Require Import Reals Lra Lia List Arith Bool.
From Verif.Model Require Import Spline.
From Verif.Spec Require Import NumDerivSpec.
From Verif.Proofs Require Import NumDerivProofs PotentialProofs BandProofs.
Import ListNotations.
Local Open Scope R_scope.

(** entries of the three kinds of rows; the number of points is m + 3 *)
Definition left_entry (x : nat -> R) (left : bd_type) (j : nat) : R :=
  match left with
  | second_deriv => match j with O => 2 | _ => 0 end
  | first_deriv => match j with O => 2 * (x 1%nat - x 0%nat) | 1%nat => x 1%nat - x 0%nat | _ => 0 end
  | not_a_knot => match j with O => - (x 2%nat - x 1%nat) | 1%nat => x 2%nat - x 0%nat | 2%nat => - (x 1%nat - x 0%nat) | _ => 0 end
  end.
Definition right_entry (m : nat) (x : nat -> R) (right : bd_type) (j : nat) : R :=
  let h1 := x (S (S m)) - x (S m) in let h0 := x (S m) - x m in
  if Nat.eqb j m then match right with not_a_knot => - h1 | _ => 0 end
  else if Nat.eqb j (S m) then match right with second_deriv => 0 | first_deriv => h1 | not_a_knot => h0 + h1 end
  else if Nat.eqb j (S (S m)) then match right with second_deriv => 2 | first_deriv => 2 * h1 | not_a_knot => - h0 end
  else 0.
Definition inner_entry (x : nat -> R) (i j : nat) : R :=
  if Nat.eqb (S j) i then 1 / 3 * (x i - x j) else if Nat.eqb j i then 2 / 3 * (x (S i) - x (i - 1)%nat)
  else if Nat.eqb j (S i) then 1 / 3 * (x (S i) - x i) else 0.
Definition sysM (m : nat) (x : nat -> R) (left right : bd_type) (i j : nat) : R :=
  if Nat.eqb i 0 then left_entry x left j else if Nat.eqb i (S (S m)) then right_entry m x right j else inner_entry x i j.

Definition inner_rhs (x y : nat -> R) (i : nat) : R := (y (S i) - y i) / (x (S i) - x i) - (y i - y (i - 1)%nat) / (x i - x (i - 1)%nat).
Definition left_rhs (x y : nat -> R) (left : bd_type) (lv : R) : R :=
  match left with second_deriv => lv | first_deriv => 3 * ((y 1%nat - y 0%nat) / (x 1%nat - x 0%nat) - lv) | not_a_knot => 0 end.
Definition right_rhs (m : nat) (x y : nat -> R) (right : bd_type) (rv : R) : R :=
  match right with second_deriv => rv | first_deriv => 3 * (rv - (y (S (S m)) - y (S m)) / (x (S (S m)) - x (S m))) | not_a_knot => 0 end.
Definition sysR (m : nat) (x y : nat -> R) (left : bd_type) (lv : R) (right : bd_type) (rv : R) (i : nat) : R :=
  if Nat.eqb i 0 then (if is_nak right then 0 else left_rhs x y left lv) else if Nat.eqb i (S (S m)) then right_rhs m x y right rv else inner_rhs x y i.

(** ** assembly *)
Lemma full_zero n nu nl i j : full (band_zero n nu nl) i j = 0.
Proof. unfold full. cbn. now destruct (in_band _ _ _). Qed.

Ltac doput :=
  match goal with
  | |- context [put ?A ?i ?j ?a] =>
      let B := fresh "B" in let E := fresh "E" in let SB := fresh "SB" in let DB := fresh "DB" in let FB := fresh "FB" in
      destruct (put_full A i j a) as (B & E & SB & DB & FB);
      [|rewrite E; cbn [bindo]]
  end.
Lemma assemble m x y left lv right rv :
  exists A rhs, bindo (bindo (loop (interior_row x y) 1 (S (S (S m)) - 2) (band_zero (S (S (S m))) (if is_nak left then 2 else 1) (if is_nak right then 2 else 1), fun _ => 0))
                 (left_row x y left lv)) (right_row (S (S (S m))) x y right rv) = Some (A, rhs) /\
    bdim A = S (S (S m)) /\
    (forall i j, (i < S (S (S m)))%nat -> full A i j = sysM m x left right i j) /\
    (forall i, (i < S (S (S m)))%nat -> rhs i = sysR m x y left lv right rv i).
Proof.
  set (Z := band_zero (S (S (S m))) (if is_nak left then 2 else 1) (if is_nak right then 2 else 1)).
  assert (LZ : forall A, same_shape Z A -> bdim A = S (S (S m)) /\ (1 <= num_upper A)%nat /\ (1 <= num_lower A)%nat /\
     (left = not_a_knot -> num_upper A = 2%nat) /\ (right = not_a_knot -> num_lower A = 2%nat)).
  { intros A (a & b & c). rewrite <- a, <- b, <- c. unfold Z. cbn. destruct left, right; cbn; repeat split; try lia; discriminate. }
  destruct (loop_inv (interior_row x y) (fun i st => same_shape Z (fst st) /\
     (forall r c, full (fst st) r c = if Nat.ltb 0 r && Nat.ltb r i then inner_entry x r c else 0) /\
     (forall r, snd st r = if Nat.ltb 0 r && Nat.ltb r i then inner_rhs x y r else 0)) 1 (S (S (S m)) - 2) (Z, fun _ => 0))
    as ((A0 & r0) & E0 & S0 & F0 & R0).
  - split; [apply same_shape_refl|]. split.
    + intros r c. cbn [fst]. unfold Z. rewrite full_zero. destruct (Nat.ltb_spec 0 r), (Nat.ltb_spec r 1); try lia; reflexivity.
    + intros r. cbn. destruct r as [|r]; reflexivity.
  - intros i (A & rhs) Hi (SA & FA & RA). cbn [fst snd] in *. unfold interior_row.
    doput; [apply in_band_true; destruct (LZ A SA) as (-> & ? & ? & _); lia|].
    doput; [apply in_band_true; destruct (LZ B (same_shape_trans _ _ _ SA SB)) as (-> & ? & ? & _); lia|].
    pose proof (same_shape_trans _ _ _ (same_shape_trans _ _ _ SA SB) SB0) as S2.
    doput; [apply in_band_true; destruct (LZ B0 S2) as (-> & ? & ? & _); lia|].
    eexists. split; [reflexivity|]. cbn [fst snd]. split; [eapply same_shape_trans; eauto|]. split.
    + intros r c. rewrite FB1, FB0, FB, FA. destruct (Nat.eqb_spec r i) as [->|N]; cbn [andb].
      * destruct (Nat.ltb_spec 0 i); [|lia]. destruct (Nat.ltb_spec i (S i)); [|lia]. destruct (Nat.ltb_spec i i); [lia|]. cbn [andb].
        unfold inner_entry. replace (i + 1)%nat with (S i) by lia.
        destruct (Nat.eqb_spec (S c) i) as [Q|Q].
        -- replace (i - 1)%nat with c by lia. rewrite Nat.eqb_refl. destruct (Nat.eqb_spec c (S i)); [lia|]. destruct (Nat.eqb_spec c i); [lia|]. reflexivity.
        -- destruct (Nat.eqb_spec c (i - 1)); [lia|]. destruct (Nat.eqb_spec c (S i)); destruct (Nat.eqb_spec c i); try lia; reflexivity.
      * destruct (Nat.ltb_spec 0 r); cbn [andb]; [|reflexivity]. destruct (Nat.ltb_spec r i), (Nat.ltb_spec r (S i)); try lia; reflexivity.
    + intros r. unfold updf. destruct (Nat.eqb_spec r i) as [->|N].
      * destruct (Nat.ltb_spec 0 i); [|lia]. destruct (Nat.ltb_spec i (S i)); [|lia]. cbn [andb]. unfold inner_rhs. now replace (i + 1)%nat with (S i) by lia.
      * rewrite RA. destruct (Nat.ltb_spec 0 r); cbn [andb]; [|reflexivity]. destruct (Nat.ltb_spec r i), (Nat.ltb_spec r (S i)); try lia; reflexivity.
  - rewrite E0. cbn [bindo fst snd] in *. replace (1 + (S (S (S m)) - 2))%nat with (S (S m)) in F0, R0 by lia.
    destruct (LZ A0 S0) as (D0 & U0 & L0 & UL & LR).
    assert (HL : exists A1 r1, left_row x y left lv (A0, r0) = Some (A1, r1) /\ same_shape A0 A1 /\
       (forall r c, full A1 r c = if Nat.eqb r 0 then left_entry x left c else full A0 r c) /\
       (forall r, r1 r = if Nat.eqb r 0 then left_rhs x y left lv else r0 r)).
    { assert (F00 : forall c, full A0 0 c = 0) by (intro c; rewrite F0; reflexivity).
      unfold left_row. destruct left.
      - doput; [apply in_band_true; lia|]. pose proof SB as (a & b & c). doput; [apply in_band_true; lia|].
        do 2 eexists. split; [reflexivity|]. split; [eapply same_shape_trans; eauto|]. split; [|reflexivity].
        intros r k. rewrite FB0, FB. destruct (Nat.eqb_spec r 0) as [->|]; cbn [andb]; [|reflexivity]. rewrite F00.
        destruct k as [|[|k]]; cbn; [reflexivity|ring|reflexivity].
      - doput; [apply in_band_true; lia|]. pose proof SB as (a & b & c). doput; [apply in_band_true; lia|].
        do 2 eexists. split; [reflexivity|]. split; [eapply same_shape_trans; eauto|]. split; [|reflexivity].
        intros r k. rewrite FB0, FB. destruct (Nat.eqb_spec r 0) as [->|]; cbn [andb]; [|reflexivity]. rewrite F00.
        destruct k as [|[|k]]; reflexivity.
      - specialize (UL eq_refl). doput; [apply in_band_true; lia|]. pose proof SB as (a & b & c). doput; [apply in_band_true; lia|].
        pose proof SB0 as (a' & b' & c'). doput; [apply in_band_true; lia|].
        do 2 eexists. split; [reflexivity|]. split; [eapply same_shape_trans; [eapply same_shape_trans; eauto|eauto]|]. split; [|reflexivity].
        intros r k. rewrite FB1, FB0, FB. destruct (Nat.eqb_spec r 0) as [->|]; cbn [andb]; [|reflexivity]. rewrite F00.
        destruct k as [|[|[|k]]]; reflexivity. }
    destruct HL as (A1 & r1 & E1 & S1 & F1 & R1). rewrite E1. cbn [bindo].
    assert (Dm : bdim A1 = S (S (S m)) /\ (1 <= num_upper A1)%nat /\ (1 <= num_lower A1)%nat /\ (right = not_a_knot -> num_lower A1 = 2%nat)).
    { destruct S1 as (a & b & c). rewrite <- a, <- b, <- c. repeat split; try lia. exact LR. }
    clear D0 U0 L0 UL LR. destruct Dm as (D0 & U0 & L0 & LR).
    assert (Fe : forall c, full A1 (S (S m)) c = 0). { intro c. rewrite F1. cbn [Nat.eqb]. rewrite F0. destruct (Nat.ltb_spec (S (S m)) (S (S m))); [lia|]. now rewrite andb_false_r. }
    assert (HR : exists A2 r2, right_row (S (S (S m))) x y right rv (A1, r1) = Some (A2, r2) /\ same_shape A1 A2 /\
       (forall r c, full A2 r c = if Nat.eqb r (S (S m)) then right_entry m x right c else full A1 r c) /\
       (forall r, r2 r = if is_nak right then (if Nat.eqb r 0 then 0 else r1 r) else if Nat.eqb r (S (S m)) then right_rhs m x y right rv else r1 r)).
    { unfold right_row. cbn [Nat.sub]. rewrite ?Nat.sub_0_r. destruct right.
      - doput; [apply in_band_true; lia|]. pose proof SB as (a & b & c). doput; [apply in_band_true; lia|].
        do 2 eexists. split; [reflexivity|]. split; [eapply same_shape_trans; eauto|]. split; [|reflexivity].
        intros r k. rewrite FB0, FB. destruct (Nat.eqb_spec r (S (S m))) as [->|]; cbn [andb]; [|reflexivity]. rewrite Fe.
        unfold right_entry. destruct (Nat.eqb_spec k m), (Nat.eqb_spec k (S m)), (Nat.eqb_spec k (S (S m))); try lia; try reflexivity. ring.
      - doput; [apply in_band_true; lia|]. pose proof SB as (a & b & c). doput; [apply in_band_true; lia|].
        do 2 eexists. split; [reflexivity|]. split; [eapply same_shape_trans; eauto|]. split; [|reflexivity].
        intros r k. rewrite FB0, FB. destruct (Nat.eqb_spec r (S (S m))) as [->|]; cbn [andb]; [|reflexivity]. rewrite Fe.
        unfold right_entry. destruct (Nat.eqb_spec k m), (Nat.eqb_spec k (S m)), (Nat.eqb_spec k (S (S m))); try lia; reflexivity.
      - specialize (LR eq_refl). doput; [apply in_band_true; lia|]. pose proof SB as (a & b & c). doput; [apply in_band_true; lia|].
        pose proof SB0 as (a' & b' & c'). doput; [apply in_band_true; lia|].
        do 2 eexists. split; [reflexivity|]. split; [eapply same_shape_trans; [eapply same_shape_trans; eauto|eauto]|]. split; [|reflexivity].
        intros r k. rewrite FB1, FB0, FB. destruct (Nat.eqb_spec r (S (S m))) as [->|]; cbn [andb]; [|reflexivity]. rewrite Fe.
        unfold right_entry. destruct (Nat.eqb_spec k m), (Nat.eqb_spec k (S m)), (Nat.eqb_spec k (S (S m))); try lia; try reflexivity. ring. }
    destruct HR as (A2 & r2 & E2 & S2 & F2 & R2). exists A2, r2. split; [exact E2|]. split; [destruct S2 as (<- & _); exact D0|]. split.
    + intros i j Hi. rewrite F2, F1, F0. unfold sysM. destruct (Nat.eqb_spec i (S (S m))) as [->|N]; [reflexivity|].
      destruct (Nat.eqb_spec i 0) as [->|N0]; [reflexivity|]. destruct (Nat.ltb_spec 0 i), (Nat.ltb_spec i (S (S m))); try lia. reflexivity.
    + intros i Hi. rewrite R2, R1, R0. unfold sysR. destruct (Nat.eqb_spec i 0) as [->|N0]; [now destruct right|].
      destruct (Nat.eqb_spec i (S (S m))) as [->|N].
      * destruct (Nat.ltb_spec (S (S m)) (S (S m))); [lia|]. rewrite andb_false_r. now destruct right.
      * destruct (Nat.ltb_spec 0 i), (Nat.ltb_spec i (S (S m))); try lia. cbn [andb]. now destruct right.
Qed.

(** ** pivots *)
Lemma bd_cases (b : bd_type) : b = first_deriv \/ b = second_deriv \/ b = not_a_knot.
Proof. destruct b; auto. Qed.
Section Pivots.
  Variables (m : nat) (x : nat -> R) (left right : bd_type).
  Hypothesis INC : forall i, (i < S (S m))%nat -> x i < x (S i).
  Hypothesis NAK : left = not_a_knot \/ right = not_a_knot -> (0 < m)%nat.
  Let Sy := sysM m x left right.
  Let M i j := Sy i j / Sy i i.

  Lemma M_in i j : (0 < i)%nat -> (i < S (S m))%nat -> M i j = inner_entry x i j / inner_entry x i i.
  Proof. intros A B. unfold M, Sy, sysM. destruct (Nat.eqb_spec i 0); [lia|]. destruct (Nat.eqb_spec i (S (S m))); [lia|]. reflexivity. Qed.
  Lemma inner_diag i : (0 < i)%nat -> (i < S (S m))%nat -> inner_entry x i i = 2 / 3 * (x (S i) - x (i - 1)%nat) /\ 0 < x (S i) - x (i - 1)%nat.
  Proof.
    intros A B. unfold inner_entry. destruct (Nat.eqb_spec (S i) i); [lia|]. rewrite Nat.eqb_refl. split; [reflexivity|].
    pose proof (INC i ltac:(lia)). pose proof (INC (i - 1) ltac:(lia)) as Q. replace (S (i - 1)) with i in Q by lia. lra.
  Qed.
  Lemma sys_diag i : (i < S (S (S m)))%nat -> Sy i i <> 0.
  Proof.
    intro Hi. unfold Sy, sysM. destruct (Nat.eqb_spec i 0) as [->|N0].
    - pose proof (INC 0%nat ltac:(lia)). pose proof (INC 1%nat ltac:(lia)). destruct left; cbn; lra.
    - destruct (Nat.eqb_spec i (S (S m))) as [->|N].
      + pose proof (INC (S m) ltac:(lia)). pose proof (INC m ltac:(lia)). unfold right_entry.
        destruct (Nat.eqb_spec (S (S m)) m); [lia|]. destruct (Nat.eqb_spec (S (S m)) (S m)); [lia|]. rewrite Nat.eqb_refl. destruct right; lra.
      + destruct (inner_diag i ltac:(lia) ltac:(lia)) as (-> & Q). lra.
  Qed.
  Lemma M_far i j : (0 < i)%nat -> (i < S (S m))%nat -> (S j < i \/ S i < j)%nat -> M i j = 0.
  Proof.
    intros A B C. rewrite M_in by assumption. unfold inner_entry at 1. destruct (Nat.eqb_spec (S j) i); [lia|]. destruct (Nat.eqb_spec j i); [lia|].
    destruct (Nat.eqb_spec j (S i)); [lia|]. unfold Rdiv. ring.
  Qed.
  (** lower and upper neighbour of an inner row *)
  Definition lo k := (x (S k) - x k) / (2 * (x (S (S k)) - x k)).
  Definition up k := (x (S (S k)) - x (S k)) / (2 * (x (S (S k)) - x k)).
  Lemma M_row k : (S k < S (S m))%nat -> M (S k) k = lo k /\ M (S k) (S k) = 1 /\ M (S k) (S (S k)) = up k.
  Proof.
    intro Hk. rewrite !M_in by lia. destruct (inner_diag (S k) ltac:(lia) Hk) as (E & P). rewrite E. cbn [Nat.sub] in *. rewrite Nat.sub_0_r in *.
    unfold inner_entry, lo, up. rewrite Nat.eqb_refl. destruct (Nat.eqb_spec (S (S k)) (S k)); [lia|]. rewrite Nat.eqb_refl.
    destruct (Nat.eqb_spec (S (S (S k))) (S k)); [lia|]. cbn [Nat.sub]. rewrite ?Nat.sub_0_r. repeat split; field; lra.
  Qed.
  Lemma lo_up k : (S k < S (S m))%nat -> 0 < lo k /\ 0 < up k /\ lo k + up k = 1 / 2.
  Proof.
    intro Hk. pose proof (INC k ltac:(lia)). pose proof (INC (S k) ltac:(lia)). unfold lo, up. split; [|split].
    - apply Rdiv_lt_0_compat; lra.
    - apply Rdiv_lt_0_compat; lra.
    - field. lra.
  Qed.

  Lemma rows_kept k : (forall i j, (k < i)%nat -> (i < S (S m))%nat -> (k <= j)%nat -> elim k M i j = M i j).
  Proof.
    induction k as [|k IH]; [reflexivity|]. intros i j Hi Hn Hj. cbn [elim]. unfold estep. destruct (Nat.ltb_spec k i); [|lia].
    destruct (Nat.eqb_spec j k); [lia|]. destruct (Nat.ltb_spec k j); [|lia]. rewrite !(IH i) by lia. rewrite (M_far i k) by lia. unfold Rdiv. ring.
  Qed.
  Lemma last_far j : (j < m)%nat -> M (S (S m)) j = 0.
  Proof.
    intro Hj. unfold M. assert (E : Sy (S (S m)) j = 0); [|rewrite E; unfold Rdiv; ring].
    unfold Sy, sysM. cbn [Nat.eqb]. rewrite Nat.eqb_refl. unfold right_entry.
    destruct (Nat.eqb_spec j m); [lia|]. destruct (Nat.eqb_spec j (S m)); [lia|]. destruct (Nat.eqb_spec j (S (S m))); [lia|]. reflexivity.
  Qed.
  Lemma last_kept k : (k <= m)%nat -> forall j, (k <= j)%nat -> elim k M (S (S m)) j = M (S (S m)) j.
  Proof.
    induction k as [|k IH]; [reflexivity|]. intros Hk j Hj. cbn [elim]. unfold estep. destruct (Nat.ltb_spec k (S (S m))); [|lia].
    destruct (Nat.eqb_spec j k); [lia|]. destruct (Nat.ltb_spec k j); [|lia]. rewrite !IH by lia. rewrite (last_far k) by lia. unfold Rdiv. ring.
  Qed.

  Definition good (k : nat) : Prop :=
    0 < elim k M k k /\ Rabs (elim k M k (S k) / elim k M k k) < 1 /\ forall j, (S k < j)%nat -> elim k M k j = 0.
  Definition ratio k := elim k M k (S k) / elim k M k k.

  Lemma next_row k j : (S k < S (S m))%nat -> (k < j)%nat -> elim (S k) M (S k) j = M (S k) j - lo k / elim k M k k * elim k M k j.
  Proof.
    intros Hk Hj. cbn [elim]. unfold estep. destruct (Nat.ltb_spec k (S k)); [|lia]. destruct (Nat.eqb_spec j k); [lia|].
    destruct (Nat.ltb_spec k j); [|lia]. rewrite !rows_kept by lia. destruct (M_row k Hk) as (-> & _). reflexivity.
  Qed.
  Lemma good_step_values k : (S k < S (S m))%nat -> good k ->
    elim (S k) M (S k) (S k) = 1 - lo k * ratio k /\ elim (S k) M (S k) (S (S k)) = up k /\ forall j, (S (S k) < j)%nat -> elim (S k) M (S k) j = 0.
  Proof.
    intros Hk (P & A & Z). destruct (M_row k Hk) as (_ & M1 & M2). split; [|split].
    - rewrite next_row by lia. rewrite M1. unfold ratio. field. lra.
    - rewrite next_row by lia. rewrite M2, (Z (S (S k))) by lia. ring.
    - intros j Hj. rewrite next_row by lia. rewrite (Z j) by lia. rewrite (M_far (S k) j) by lia. ring.
  Qed.
  Lemma good_step k : (S k < S (S m))%nat -> good k -> good (S k).
  Proof.
    intros Hk G. pose proof G as (P & A & Z). destruct (good_step_values k Hk G) as (E1 & E2 & E3). destruct (lo_up k Hk) as (L & U & LU).
    fold (ratio k) in A. apply Rabs_def2 in A.
    assert (D : 1 / 2 < 1 - lo k * ratio k) by (pose proof (Rmult_lt_compat_l (lo k) (ratio k) 1 L ltac:(lra)); lra).
    split; [rewrite E1; lra|]. split; [|exact E3]. rewrite E1, E2. rewrite Rabs_right.
    - apply Rmult_lt_reg_r with (1 - lo k * ratio k); [lra|]. unfold Rdiv. rewrite Rmult_assoc, Rinv_l by lra. lra.
    - apply Rle_ge. apply Rlt_le. apply Rdiv_lt_0_compat; lra.
  Qed.
  Lemma good_zero : left <> not_a_knot -> good 0.
  Proof.
    intro N. unfold good. cbn [elim]. pose proof (INC 0%nat ltac:(lia)) as I0.
    assert (D : M 0 0 = 1) by (unfold M; field; apply sys_diag; lia). rewrite D.
    split; [lra|]. split.
    - unfold M, Sy, sysM. cbn [Nat.eqb]. destruct left; [| |now destruct N]; cbn [left_entry].
      + rewrite Rabs_right; [|apply Rle_ge; apply Rlt_le; repeat apply Rdiv_lt_0_compat; lra].
        replace ((x 1%nat - x 0%nat) / (2 * (x 1%nat - x 0%nat)) / 1) with (1 / 2) by (field; lra). lra.
      + replace (0 / 2 / 1) with 0 by field. rewrite Rabs_R0. lra.
    - intros j Hj. unfold M, Sy, sysM. cbn [Nat.eqb]. destruct j as [|[|j]]; try lia. destruct left; [| |now destruct N]; cbn [left_entry]; unfold Rdiv; ring.
  Qed.
  Lemma good_one : left = not_a_knot -> good 1.
  Proof.
    intro N. assert (Hm : (0 < m)%nat) by (apply NAK; now left).
    pose proof (INC 0%nat ltac:(lia)) as I0. pose proof (INC 1%nat ltac:(lia)) as I1.
    assert (M0 : forall j, M 0 j = left_entry x not_a_knot j / left_entry x not_a_knot 0) by (intro j; unfold M, Sy, sysM; cbn [Nat.eqb]; now rewrite N).
    destruct (M_row 0 ltac:(lia)) as (_ & M1 & M2).
    assert (E1 : elim 1 M 1 1 = 1 + (x 1%nat - x 0%nat) / (2 * (x 2%nat - x 1%nat))).
    { rewrite next_row by lia. cbn [elim]. rewrite M1, !M0. cbn [left_entry]. unfold lo. field. lra. }
    assert (E2 : elim 1 M 1 2 = ((x 2%nat - x 1%nat) - (x 1%nat - x 0%nat)) / (2 * (x 2%nat - x 1%nat))).
    { rewrite next_row by lia. cbn [elim]. rewrite M2, !M0. cbn [left_entry]. unfold lo, up. field. lra. }
    assert (Pos : 0 < (x 1%nat - x 0%nat) / (2 * (x 2%nat - x 1%nat))) by (apply Rdiv_lt_0_compat; lra).
    split; [rewrite E1; lra|]. split.
    - rewrite E1, E2. set (a := x 1%nat - x 0%nat) in *. set (b := x 2%nat - x 1%nat) in *.
      assert (Pa : 0 < a) by (unfold a; lra). assert (Pb : 0 < b) by (unfold b; lra).
      replace ((b - a) / (2 * b) / (1 + a / (2 * b))) with ((b - a) / (2 * b + a)) by (field; repeat split; lra).
      assert (Q : (b - a) / (2 * b + a) * (2 * b + a) = b - a) by (field; lra).
      apply Rabs_def1; apply Rmult_lt_reg_r with (2 * b + a); lra.
    - intros j Hj. rewrite next_row by lia. cbn [elim]. rewrite (M_far 1 j) by lia. rewrite !M0. destruct j as [|[|[|j]]]; try lia. cbn [left_entry]. unfold Rdiv. ring.
  Qed.
  Lemma good_all k : (k < S (S m))%nat -> (0 < k)%nat \/ left <> not_a_knot -> good k.
  Proof.
    induction k as [|k IH]; intros Hk H; [destruct H; [lia|now apply good_zero]|].
    destruct k as [|k]; [|apply good_step; [lia|apply IH; [lia|left; lia]]].
    destruct (bd_cases left) as [EL|[EL|EL]]; [apply good_step; [lia|apply good_zero; congruence]|apply good_step; [lia|apply good_zero; congruence]|now apply good_one].
  Qed.

  Lemma M_diag i : (i < S (S (S m)))%nat -> M i i = 1.
  Proof. intro Hi. unfold M. field. now apply sys_diag. Qed.
  Lemma last_pivot : 0 < elim (S (S m)) M (S (S m)) (S (S m)).
  Proof.
    pose proof (INC (S m) ltac:(lia)) as I1. pose proof (INC m ltac:(lia)) as I0.
    assert (G1 : good (S m)) by (apply good_all; [lia|left; lia]).
    assert (V : forall j, (m < j)%nat -> elim (S m) M (S (S m)) j = M (S (S m)) j - M (S (S m)) m / elim m M m m * elim m M m j).
    { intros j Hj. cbn [elim]. unfold estep. destruct (Nat.ltb_spec m (S (S m))); [|lia]. destruct (Nat.eqb_spec j m); [lia|]. destruct (Nat.ltb_spec m j); [|lia].
      rewrite !last_kept by lia. reflexivity. }
    assert (E : elim (S (S m)) M (S (S m)) (S (S m)) = elim (S m) M (S (S m)) (S (S m)) - elim (S m) M (S (S m)) (S m) * ratio (S m)).
    { change (elim (S (S m)) M) with (estep (S m) (elim (S m) M)). unfold estep. destruct (Nat.ltb_spec (S m) (S (S m))); [|lia].
      destruct (Nat.eqb_spec (S (S m)) (S m)); [lia|]. unfold ratio. destruct G1 as (P & _). field. lra. }
    rewrite E, !V by lia. rewrite M_diag by lia.
    assert (Row : forall j, M (S (S m)) j = right_entry m x right j / right_entry m x right (S (S m))).
    { intro j. unfold M, Sy, sysM. cbn [Nat.eqb]. now rewrite Nat.eqb_refl. }
    assert (R1 : right_entry m x right (S m) = match right with second_deriv => 0 | first_deriv => x (S (S m)) - x (S m) | not_a_knot => (x (S m) - x m) + (x (S (S m)) - x (S m)) end).
    { unfold right_entry. destruct (Nat.eqb_spec (S m) m); [lia|]. now rewrite Nat.eqb_refl. }
    assert (R2 : right_entry m x right (S (S m)) = match right with second_deriv => 2 | first_deriv => 2 * (x (S (S m)) - x (S m)) | not_a_knot => - (x (S m) - x m) end).
    { unfold right_entry. destruct (Nat.eqb_spec (S (S m)) m); [lia|]. destruct (Nat.eqb_spec (S (S m)) (S m)); [lia|]. now rewrite Nat.eqb_refl. }
    assert (R0 : right_entry m x right m = match right with not_a_knot => - (x (S (S m)) - x (S m)) | _ => 0 end) by (unfold right_entry; now rewrite Nat.eqb_refl).
    destruct G1 as (P1 & A1 & _). fold (ratio (S m)) in A1. apply Rabs_def2 in A1.
    destruct (bd_cases right) as [ER|[ER|ER]].
    - rewrite !Row, R0, R1, R2, ?ER; cbv iota.
      replace ((x (S (S m)) - x (S m)) / (2 * (x (S (S m)) - x (S m)))) with (1 / 2) by (field; lra). unfold Rdiv. rewrite !Rmult_0_l. lra.
    - rewrite !Row, R0, R1, R2, ?ER; cbv iota. unfold Rdiv. rewrite !Rmult_0_l. lra.
    - assert (Hm : (0 < m)%nat) by (apply NAK; now right).
      assert (G0 : good m) by (apply good_all; [lia|now left]).
      destruct (good_step_values m ltac:(lia) G0) as (V1 & V2 & _). destruct G0 as (P0 & A0 & Z0). rewrite (Z0 (S (S m))) by lia.
      replace (M (S (S m)) m / elim m M m m * elim m M m (S m)) with (M (S (S m)) m * ratio m) by (unfold ratio; field; lra).
      fold (ratio m) in A0. apply Rabs_def2 in A0. set (r := ratio m) in *.
      assert (Er : ratio (S m) = up m / (1 - lo m * r)) by (unfold ratio; now rewrite V1, V2). rewrite Er, !Row, R0, R1, R2, ?ER; cbv iota.
      destruct (lo_up m ltac:(lia)) as (L & U & LU).
      set (a := x (S m) - x m) in *. set (b := x (S (S m)) - x (S m)) in *.
      assert (Pa : 0 < a) by (unfold a; lra). assert (Pb : 0 < b) by (unfold b; lra).
      assert (El : lo m = a / (2 * (a + b))) by (unfold lo, a, b; f_equal; ring).
      assert (Eu : up m = b / (2 * (a + b))) by (unfold up, a, b; f_equal; ring).
      assert (Q : 0 < 2 * (a + b) - a * r) by nra.
      rewrite El, Eu.
      match goal with |- 0 < ?e => replace e with ((2 * (a * a) - a * a * r + 3 * a * b + b * b + b * b * r) / (a * (2 * (a + b) - a * r))) end.
      + apply Rdiv_lt_0_compat; nra.
      + field. repeat split; nra.
  Qed.
  Lemma pivots k : (k < S (S (S m)))%nat -> elim k M k k <> 0.
  Proof.
    intro Hk. destruct (Nat.eq_dec k (S (S m))) as [->|N]; [pose proof last_pivot; lra|].
    destruct k as [|k].
    - cbn. rewrite M_diag by lia. lra.
    - destruct (good_all (S k) ltac:(lia) ltac:(left; lia)) as (P & _). lra.
  Qed.
End Pivots.

(** ** the coefficients solve the system *)
Lemma sum3 n f k : (S (S k) < n)%nat -> (forall j, (j < n)%nat -> (j < k \/ S (S k) < j)%nat -> f j = 0) -> sumR n f = f k + f (S k) + f (S (S k)).
Proof.
  intros Hn H. rewrite (sumR_split n (S (S (S k)))) by lia. cbn [sumR]. rewrite (sumR_zero k), (sumR_zero (n - S (S (S k)))).
  - ring.
  - intros j Hj. apply H; lia.
  - intros j Hj. apply H; lia.
Qed.

Lemma cspline_solved m x y left lv right rv :
  (forall i, (i < S (S m))%nat -> x i < x (S i)) -> (left = not_a_knot \/ right = not_a_knot -> (0 < m)%nat) ->
  exists c, 
    (exists A rhs, bindo (bindo (loop (interior_row x y) 1 (S (S (S m)) - 2) (band_zero (S (S (S m))) (if is_nak left then 2 else 1) (if is_nak right then 2 else 1), fun _ => 0))
                 (left_row x y left lv)) (right_row (S (S (S m))) x y right rv) = Some (A, rhs) /\ lu_solve A rhs = Some c) /\
    (forall i, (i < S m)%nat -> 1 / 3 * (x (S i) - x i) * c i + 2 / 3 * (x (S (S i)) - x i) * c (S i) + 1 / 3 * (x (S (S i)) - x (S i)) * c (S (S i)) = inner_rhs x y (S i)) /\
    left_entry x left 0 * c 0%nat + left_entry x left 1 * c 1%nat + left_entry x left 2 * c 2%nat = (if is_nak right then 0 else left_rhs x y left lv) /\
    right_entry m x right m * c m + right_entry m x right (S m) * c (S m) + right_entry m x right (S (S m)) * c (S (S m)) = right_rhs m x y right rv.
Proof.
  intros INC NAK. destruct (assemble m x y left lv right rv) as (A & rhs & E & D & F & R).
  destruct (lu_solve_ok A (fun i j => sysM m x left right i j / sysM m x left right i i) rhs) as (c & Ec & Hc).
  - intros i Hi. rewrite D in Hi. rewrite F by exact Hi. now apply sys_diag.
  - intros i j Hi. rewrite D in Hi. now rewrite !F by exact Hi.
  - intros k Hk. rewrite D in Hk. now apply pivots.
  - exists c. split; [now exists A, rhs|]. rewrite D in Hc.
    assert (H : forall i, (i < S (S (S m)))%nat -> sumR (S (S (S m))) (fun j => sysM m x left right i j * c j) = sysR m x y left lv right rv i).
    { intros i Hi. rewrite <- R by exact Hi. rewrite <- Hc by exact Hi. apply sumR_ext. intros j Hj. now rewrite F by exact Hi. }
    split; [|split].
    + intros i Hi. specialize (H (S i) ltac:(lia)). rewrite (sum3 _ _ i) in H; [|lia|].
      * unfold sysM, sysR in H. cbn [Nat.eqb] in H. destruct (Nat.eqb_spec i (S m)); [lia|]. rewrite <- H.
        unfold inner_entry. rewrite Nat.eqb_refl. destruct (Nat.eqb_spec (S (S i)) (S i)); [lia|]. rewrite Nat.eqb_refl.
        destruct (Nat.eqb_spec (S (S (S i))) (S i)); [lia|]. cbn [Nat.sub]. rewrite ?Nat.sub_0_r. ring.
      * intros j Hj Q. unfold sysM. cbn [Nat.eqb]. destruct (Nat.eqb_spec i (S m)); [lia|]. unfold inner_entry.
        destruct (Nat.eqb_spec (S j) (S i)); [lia|]. destruct (Nat.eqb_spec j (S i)); [lia|]. destruct (Nat.eqb_spec j (S (S i))); [lia|]. ring.
    + specialize (H 0%nat ltac:(lia)). rewrite (sum3 _ _ 0) in H; [exact H|lia|].
      intros j Hj Q. unfold sysM. cbn [Nat.eqb]. destruct j as [|[|[|j]]]; try lia. destruct left; cbn; ring.
    + specialize (H (S (S m)) ltac:(lia)). rewrite (sum3 _ _ m) in H; [|lia|].
      * unfold sysM, sysR in H. cbn [Nat.eqb] in H. rewrite Nat.eqb_refl in H. exact H.
      * intros j Hj Q. unfold sysM. cbn [Nat.eqb]. rewrite Nat.eqb_refl. unfold right_entry.
        destruct (Nat.eqb_spec j m); [lia|]. destruct (Nat.eqb_spec j (S m)); [lia|]. destruct (Nat.eqb_spec j (S (S m))); [lia|]. ring.
Qed.
