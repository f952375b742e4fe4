(** Proofs about the four-point loop function. *)
From Coq Require Import Reals Lra Lia ZArith List Bool Permutation.
From Verif.Model Require Import Base Loop LoopFour.
From Verif.Spec Require Import LoopSpec LoopFourSpec.
From Verif.Proofs Require Import DerivLib ThermalProofs LoopProofs LoopFourBranch.
Import ListNotations.
Open Scope R_scope.

Section Sym.
  Variable scale : R.
  Notation br := (four_branch scale).
  (** identification of close masses *)
  Lemma snap0_4_sep m : m = 0 \/ Thres4 <= Rabs (m - 0) -> snap0_4 m = m.
  Proof. rewrite Rminus_0_r. intros [->|H]; unfold snap0_4; destruct (Rlt_dec _ _) as [l|]; try reflexivity. lra. Qed.
  Lemma snap4_sep x y : x = y \/ Thres4 <= Rabs (x - y) -> snap4 x y = y.
  Proof. intros [->|H]; unfold snap4; destruct (Rlt_dec _ _) as [l|]; try reflexivity. lra. Qed.
  Definition of_branch (o : option R) : outcome R := match o with Some r => Ok r | None => Throw RuntimeError end.
  Lemma four_sep a b c d : masses_apart4 Thres4 a b c d -> fbaseFour scale a b c d = of_branch (br a b c d).
  Proof.
    intros ((A & B & C & D) & (AB & AC & AD) & BC & BD & CD). unfold fbaseFour.
    rewrite !(snap0_4_sep _ A), !(snap0_4_sep _ B), !(snap0_4_sep _ C), !(snap0_4_sep _ D).
    now rewrite !(snap4_sep _ _ AB), !(snap4_sep _ _ AC), !(snap4_sep _ _ AD), !(snap4_sep _ _ BC), !(snap4_sep _ _ BD), !(snap4_sep _ _ CD).
  Qed.
  Lemma snap0_spec m : (snap0_4 m = 0 /\ Rabs m < Thres4) \/ (snap0_4 m = m /\ Thres4 <= Rabs m).
  Proof. unfold snap0_4. destruct (Rlt_dec _ _); [left|right]; split; auto; lra. Qed.
  Lemma snap_spec x y : (snap4 x y = x /\ Rabs (x - y) < Thres4) \/ (snap4 x y = y /\ Thres4 <= Rabs (x - y)).
  Proof. unfold snap4. destruct (Rlt_dec _ _); [left|right]; split; auto; lra. Qed.
  Lemma near_zero m : m = 0 \/ Thres4 <= Rabs m -> Rabs (0 - m) < Thres4 -> m = 0.
  Proof. intros [H|H] K; [exact H|]. rewrite Rminus_0_l, Rabs_Ropp in K. lra. Qed.
  (** moving [y] to [x] *)
  Lemma snap_close x y : (x = 0 \/ Thres4 <= Rabs x) -> (y = 0 \/ Thres4 <= Rabs y) ->
    Rabs (snap4 x y - y) < Thres4 /\ (snap4 x y = 0 \/ Thres4 <= Rabs (snap4 x y)) /\ (y = 0 -> snap4 x y = 0) /\
    (snap4 x y = x \/ (snap4 x y = y /\ Thres4 <= Rabs (x - y))).
  Proof.
    intros X Y. pose proof Thres4_pos. destruct (snap_spec x y) as [[-> H1]|[-> H1]].
    - split; [exact H1|]. split; [exact X|]. split; [|now left]. intros ->. rewrite Rminus_0_r in H1. destruct X; [assumption|lra].
    - split; [rewrite Rminus_diag_eq, Rabs_R0 by reflexivity; lra|]. split; [exact Y|]. split; [auto|]. right; auto.
  Qed.
  Tactic Notation "step" constr(x) constr(y) ident(z) ident(H) ident(K) ident(W) :=
    let Z := fresh "Z" in
    destruct (snap_close x y) as (K & Z & W & H); [assumption|assumption|]; set (z := snap4 x y) in *; clearbody z.
  Lemma four_snapped A B C D : exists a b c d, masses_apart4 Thres4 a b c d /\
    (Rabs (a - A) < Thres4 /\ Rabs (b - B) < Thres4 /\ Rabs (c - C) < Thres4 /\ Rabs (d - D) < Thres4) /\
    fbaseFour scale A B C D = fbaseFour scale a b c d.
  Proof.
    pose proof Thres4_pos as TP.
    assert (Z0 : forall m, (snap0_4 m = 0 \/ Thres4 <= Rabs (snap0_4 m)) /\ Rabs (snap0_4 m - m) < Thres4 /\ (snap0_4 m <> 0 -> snap0_4 m = m)).
    { intro m. destruct (snap0_spec m) as [[-> H]|[-> H]].
      - split; [now left|]. rewrite Rminus_0_l, Rabs_Ropp. split; [exact H|]. intro N. now destruct N.
      - split; [now right|]. rewrite Rminus_diag_eq, Rabs_R0 by reflexivity. split; [lra|reflexivity]. }
    assert (NL : forall x, x < Thres4 -> Thres4 <= x -> False) by (intros x X1 X2; lra).
    unfold fbaseFour at 1.
    destruct (Z0 A) as (A0 & A1 & A2), (Z0 B) as (B0 & B1 & B2), (Z0 C) as (C0 & C1 & C2), (Z0 D) as (D0 & D1 & D2). clear Z0.
    set (a := snap0_4 A) in *. set (b0 := snap0_4 B) in *. set (c0 := snap0_4 C) in *. set (d0 := snap0_4 D) in *.
    clearbody a b0 c0 d0. cbv zeta.
    step a b0 b H1 K1 W1. step a c0 c1 H2 K2 W2. step a d0 d1 H3 K3 W3. step b c1 c2 H4 K4 W4. step b d1 d2 H5 K5 W5. step c2 d2 d3 H6 K6 W6.
    assert (SY : forall x y, Rabs (x - y) = Rabs (y - x)) by (intros; apply Rabs_minus_sym).
    exists a, b, c2, d3.
    assert (E1 : a = b \/ Thres4 <= Rabs (a - b)) by (destruct H1 as [->|[-> H1]]; auto).
    assert (E2 : a = c1 \/ Thres4 <= Rabs (a - c1)) by (destruct H2 as [->|[-> H2]]; auto).
    assert (E3 : a = d1 \/ Thres4 <= Rabs (a - d1)) by (destruct H3 as [->|[-> H3]]; auto).
    assert (E4 : b = c2 \/ Thres4 <= Rabs (b - c2)) by (destruct H4 as [->|[-> H4]]; auto).
    assert (E5 : b = d2 \/ Thres4 <= Rabs (b - d2)) by (destruct H5 as [->|[-> H5]]; auto).
    assert (E6 : c2 = d3 \/ Thres4 <= Rabs (c2 - d3)) by (destruct H6 as [->|[-> H6]]; auto).
    assert (E7 : a = c2 \/ Thres4 <= Rabs (a - c2)) by (destruct H4 as [->|[-> _]]; auto).
    assert (E8 : a = d2 \/ Thres4 <= Rabs (a - d2)) by (destruct H5 as [->|[-> _]]; auto).
    assert (E9 : a = d3 \/ Thres4 <= Rabs (a - d3)) by (destruct H6 as [->|[-> _]]; auto).
    assert (E10 : b = d3 \/ Thres4 <= Rabs (b - d3)) by (destruct H6 as [->|[-> _]]; auto).
    assert (AP : masses_apart4 Thres4 a b c2 d3).
    { unfold masses_apart4. cbv beta zeta. rewrite !Rminus_0_r. repeat split; assumption. }
    split; [exact AP|]. split; [|now rewrite (four_sep _ _ _ _ AP)].
    split; [exact A1|].
    (* each mass moves at most once *)
    assert (MC : Rabs (c2 - c0) < Thres4).
    { destruct H2 as [H2|[-> _]]; [|exact K4]. destruct H4 as [H4|[-> _]]; [|exact K2].
      rewrite H2, H4, SY in K4. destruct E1 as [E1|E1]; [|destruct (NL _ K4 E1)]. rewrite H4, <- E1, <- H2. exact K2. }
    assert (MD : Rabs (d2 - d0) < Thres4).
    { destruct H3 as [H3|[-> _]]; [|exact K5]. destruct H5 as [H5|[-> _]]; [|exact K3].
      rewrite H3, H5, SY in K5. destruct E1 as [E1|E1]; [|destruct (NL _ K5 E1)]. rewrite H5, <- E1, <- H3. exact K3. }
    assert (MD3 : Rabs (d3 - d0) < Thres4).
    { destruct H6 as [H6|[-> _]]; [|exact MD]. rewrite H6 in K6 |- *.
      destruct H5 as [H5|[H5 _]].
      - rewrite H5, SY in K6. destruct E4 as [E4|E4]; [|destruct (NL _ K6 E4)]. now rewrite <- E4, <- H5.
      - rewrite H5 in K6, MD. destruct H3 as [H3|[-> _]]; [|exact K6].
        rewrite H3, SY in K6. destruct E7 as [E7|E7]; [|destruct (NL _ K6 E7)]. now rewrite <- E7, <- H3. }
    assert (FIN : forall x y m, Rabs (x - y) < Thres4 -> (y = 0 -> x = 0) -> Rabs (y - m) < Thres4 -> (y <> 0 -> y = m) -> Rabs (x - m) < Thres4).
    { intros x y m X0 X1 X2 X3. destruct (Req_dec y 0) as [YZ|N]; [rewrite (X1 YZ), <- YZ; exact X2|]. now rewrite <- (X3 N). }
    split; [exact (FIN b b0 B K1 W1 B1 B2)|]. split; [exact (FIN c2 c0 C MC (fun z => W4 (W2 z)) C1 C2)|].
    exact (FIN d3 d0 D MD3 (fun z => W6 (W5 (W3 z))) D1 D2).
  Qed.

  (** symmetry *)
  Definition on_four (l : list R) : outcome R := match l with [a; b; c; d] => fbaseFour scale a b c d | _ => UB end.
  Definition apart_list (l : list R) : Prop := match l with [a; b; c; d] => masses_apart4 Thres4 a b c d | _ => True end.
  Lemma ok_sym x y : x = y \/ Thres4 <= Rabs (x - y) -> y = x \/ Thres4 <= Rabs (y - x).
  Proof. intros [->|H]; [now left|right]. now rewrite Rabs_minus_sym. Qed.
  Lemma apart_ab a b c d : masses_apart4 Thres4 a b c d -> masses_apart4 Thres4 b a c d.
  Proof. intros ((A & B & C & D) & (AB & AC & AD) & BC & BD & CD). repeat split; solve [assumption|apply ok_sym; assumption]. Qed.
  Lemma apart_bc a b c d : masses_apart4 Thres4 a b c d -> masses_apart4 Thres4 a c b d.
  Proof. intros ((A & B & C & D) & (AB & AC & AD) & BC & BD & CD). repeat split; solve [assumption|apply ok_sym; assumption]. Qed.
  Lemma apart_cd a b c d : masses_apart4 Thres4 a b c d -> masses_apart4 Thres4 a b d c.
  Proof. intros ((A & B & C & D) & (AB & AC & AD) & BC & BD & CD). repeat split; solve [assumption|apply ok_sym; assumption]. Qed.
  Lemma four_swaps l l' : Permutation_transp l l' -> apart_list l -> on_four l = on_four l' /\ apart_list l'.
  Proof.
    induction 1 as [l|x y l1 l2|l l1 l' P1 IH1 P2 IH2]; intro H; [auto| |].
    - destruct l1 as [|u [|v [|w l1]]].
      + destruct l2 as [|c [|d [|]]]; try (split; [reflexivity|exact I]). cbn [app on_four apart_list] in *.
        pose proof (apart_ab _ _ _ _ H). rewrite !four_sep by assumption. now rewrite branch_ab.
      + destruct l2 as [|d [|]]; try (split; [reflexivity|exact I]). cbn [app on_four apart_list] in *.
        pose proof (apart_bc _ _ _ _ H). rewrite !four_sep by assumption. now rewrite branch_bc.
      + destruct l2 as [|]; try (split; [reflexivity|exact I]). cbn [app on_four apart_list] in *.
        pose proof (apart_cd _ _ _ _ H). rewrite !four_sep by assumption. now rewrite branch_cd.
      + destruct l1 as [|? [|]]; cbn [app on_four apart_list] in *; auto.
    - destruct (IH1 H) as [-> H1]. exact (IH2 H1).
  Qed.
  Lemma four_perm a b c d a' b' c' d' : masses_apart4 Thres4 a b c d -> Permutation [a; b; c; d] [a'; b'; c'; d'] ->
    fbaseFour scale a b c d = fbaseFour scale a' b' c' d'.
  Proof. intros H P. now destruct (four_swaps _ _ (proj1 (Permutation_Permutation_transp _ _) P) H). Qed.
End Sym.
