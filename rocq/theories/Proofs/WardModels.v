(** The consequences of gauge invariance and parities for the derivatives at the vacua of the models. *)
From Coq Require Import Reals Lra Lia ZArith List Bool.
From Verif.Spec Require Import NumDerivSpec PotentialSpec ScalarSpec WardSpec.
From Verif.Proofs Require Import NumDerivProofs PotentialProofs ScalarProofs WardProofs WardTools.
Import ListNotations.
Local Open Scope R_scope.

Lemma solve_for x v e : v <> 0 -> x * v = e -> x = e / v.
Proof. intros V <-. field. exact V. Qed.
Lemma zero_product x v : v <> 0 -> x * v = 0 -> x = 0.
Proof. intros V E. rewrite (solve_for x v 0 V E). field. exact V. Qed.

Notation at_ w := (fun k => nth k w 0).
Ltac evin W := cbv -[Rplus Rminus Rmult Rdiv Ropp Rinv IZR sqrt pow] in W; ring_simplify in W.
(** rewrite everywhere else *)
Ltac use z := match type of z with ?x = _ => repeat match goal with W : context [x] |- _ => first [constr_eq W z; fail 1|rewrite z in W] end end.
Ltac neutral := let k := fresh "k" in intro k; unfold rotated; cbn [flat_map entries app slots_SM slots_CxSM slots_2HDM slots_N2HDM fold_right nth];
  repeat match goal with |- context [Nat.eqb ?a k] => destruct (Nat.eqb a k) end; ring.

Section SM.
  Variable f : list R -> R.
  Hypothesis GI : gauge_invariant 4 slots_SM f.
  Variable v0 : R.
  Hypothesis V : v0 <> 0.
  Variable N : nat -> R.
  Variable H : nat -> nat -> R.
  Hypothesis T : taylor2 4 f (at_ [0; 0; v0; 0]) N H.
  Let K : known 4 slots_SM. Proof. left. split; reflexivity. Qed.
  Let W := ward_entry 4 slots_SM K f GI (at_ [0; 0; v0; 0]) N H T.
  Let Q : forall k, rotated Charge slots_SM (at_ [0; 0; v0; 0]) k = 0. Proof. neutral. Qed.
  Let U i j := unbroken_entry 4 slots_SM K f GI (at_ [0; 0; v0; 0]) N H T Charge i j Q.
  Let Sy i j : (i < 4)%nat -> (j < 4)%nat -> H i j = H j i. Proof. apply (proj1 T). Qed.
  Lemma SM_identities :
    N 0%nat = 0 /\ N 1%nat = 0 /\ N 3%nat = 0 /\ H 0%nat 0%nat = H 3%nat 3%nat /\ H 1%nat 1%nat = H 3%nat 3%nat /\ N 2%nat = H 3%nat 3%nat * v0 /\ H 0%nat 1%nat = 0 /\ H 0%nat 2%nat = 0 /\ H 0%nat 3%nat = 0 /\ H 1%nat 2%nat = 0 /\ H 1%nat 3%nat = 0 /\ H 2%nat 3%nat = 0.
  Proof.
    pose proof (Sy 1%nat 0%nat ltac:(lia) ltac:(lia)) as S01. pose proof (Sy 2%nat 0%nat ltac:(lia) ltac:(lia)) as S02. pose proof (Sy 3%nat 0%nat ltac:(lia) ltac:(lia)) as S03. pose proof (Sy 2%nat 1%nat ltac:(lia) ltac:(lia)) as S12. pose proof (Sy 3%nat 1%nat ltac:(lia) ltac:(lia)) as S13. pose proof (Sy 3%nat 2%nat ltac:(lia) ltac:(lia)) as S23.
    pose proof (U 0%nat 0%nat ltac:(lia) ltac:(lia)) as U00; evin U00. pose proof (U 0%nat 1%nat ltac:(lia) ltac:(lia)) as U01; evin U01. pose proof (U 0%nat 2%nat ltac:(lia) ltac:(lia)) as U02; evin U02. pose proof (U 0%nat 3%nat ltac:(lia) ltac:(lia)) as U03; evin U03. pose proof (U 1%nat 1%nat ltac:(lia) ltac:(lia)) as U11; evin U11. pose proof (U 1%nat 2%nat ltac:(lia) ltac:(lia)) as U12; evin U12. pose proof (U 1%nat 3%nat ltac:(lia) ltac:(lia)) as U13; evin U13.
    pose proof (W Hypercharge 0%nat ltac:(lia)) as WY0; evin WY0. pose proof (W Hypercharge 1%nat ltac:(lia)) as WY1; evin WY1. pose proof (W Hypercharge 2%nat ltac:(lia)) as WY2; evin WY2. pose proof (W Hypercharge 3%nat ltac:(lia)) as WY3; evin WY3. pose proof (W Isospin1 0%nat ltac:(lia)) as WA0; evin WA0. pose proof (W Isospin1 1%nat ltac:(lia)) as WA1; evin WA1. pose proof (W Isospin1 2%nat ltac:(lia)) as WA2; evin WA2. pose proof (W Isospin1 3%nat ltac:(lia)) as WA3; evin WA3. pose proof (W Isospin2 0%nat ltac:(lia)) as WB0; evin WB0. pose proof (W Isospin2 1%nat ltac:(lia)) as WB1; evin WB1. pose proof (W Isospin2 2%nat ltac:(lia)) as WB2; evin WB2. pose proof (W Isospin2 3%nat ltac:(lia)) as WB3; evin WB3.
    clear W U Sy Q.
    use S01. clear S01. use S02. clear S02. use S03. clear S03. use S12. clear S12. use S13. clear S13. use S23. clear S23.
    assert (Z01 : H 0%nat 1%nat = 0) by lra. use Z01.
    assert (Z02 : H 0%nat 2%nat = 0) by lra. use Z02.
    assert (Z03 : H 0%nat 3%nat = 0) by lra. use Z03.
    assert (Z12 : H 1%nat 2%nat = 0) by lra. use Z12.
    assert (Z13 : H 1%nat 3%nat = 0) by lra. use Z13.
    assert (Z0 : N 0%nat = 0) by lra. use Z0.
    assert (Z1 : N 1%nat = 0) by lra. use Z1.
    assert (Z3 : N 3%nat = 0) by lra. use Z3.
    assert (Z : H 0%nat 0%nat = H 3%nat 3%nat) by (apply (Rmult_eq_reg_r v0); [lra|exact V]).
    assert (Z23 : H 2%nat 3%nat = 0) by (apply (zero_product _ v0); [exact V|lra]).
    repeat split; lra.
  Qed.
End SM.

Section CxSM.
  Variable f : list R -> R.
  Hypothesis GI : gauge_invariant 6 slots_CxSM f.
  Variable vh vs va : R.
  Hypothesis V : vh <> 0.
  Variable N : nat -> R.
  Variable H : nat -> nat -> R.
  Hypothesis T : taylor2 6 f (at_ [0; 0; 0; vh; vs; va]) N H.
  Let K : known 6 slots_CxSM. Proof. right. left. split; reflexivity. Qed.
  Let W := ward_entry 6 slots_CxSM K f GI (at_ [0; 0; 0; vh; vs; va]) N H T.
  Let Q : forall k, rotated Charge slots_CxSM (at_ [0; 0; 0; vh; vs; va]) k = 0. Proof. neutral. Qed.
  Let U i j := unbroken_entry 6 slots_CxSM K f GI (at_ [0; 0; 0; vh; vs; va]) N H T Charge i j Q.
  Let Sy i j : (i < 6)%nat -> (j < 6)%nat -> H i j = H j i. Proof. apply (proj1 T). Qed.
  Lemma CxSM_identities :
    N 0%nat = 0 /\ N 1%nat = 0 /\ N 2%nat = 0 /\ H 0%nat 0%nat = H 2%nat 2%nat /\ H 1%nat 1%nat = H 2%nat 2%nat /\ N 3%nat = H 2%nat 2%nat * vh /\ H 0%nat 1%nat = 0 /\ H 0%nat 2%nat = 0 /\ H 0%nat 3%nat = 0 /\ H 0%nat 4%nat = 0 /\ H 0%nat 5%nat = 0 /\ H 1%nat 2%nat = 0 /\ H 1%nat 3%nat = 0 /\ H 1%nat 4%nat = 0 /\ H 1%nat 5%nat = 0 /\ H 2%nat 3%nat = 0 /\ H 2%nat 4%nat = 0 /\ H 2%nat 5%nat = 0.
  Proof.
    pose proof (Sy 1%nat 0%nat ltac:(lia) ltac:(lia)) as S01. pose proof (Sy 2%nat 0%nat ltac:(lia) ltac:(lia)) as S02. pose proof (Sy 3%nat 0%nat ltac:(lia) ltac:(lia)) as S03. pose proof (Sy 4%nat 0%nat ltac:(lia) ltac:(lia)) as S04. pose proof (Sy 5%nat 0%nat ltac:(lia) ltac:(lia)) as S05. pose proof (Sy 2%nat 1%nat ltac:(lia) ltac:(lia)) as S12. pose proof (Sy 3%nat 1%nat ltac:(lia) ltac:(lia)) as S13. pose proof (Sy 4%nat 1%nat ltac:(lia) ltac:(lia)) as S14. pose proof (Sy 5%nat 1%nat ltac:(lia) ltac:(lia)) as S15. pose proof (Sy 3%nat 2%nat ltac:(lia) ltac:(lia)) as S23. pose proof (Sy 4%nat 2%nat ltac:(lia) ltac:(lia)) as S24. pose proof (Sy 5%nat 2%nat ltac:(lia) ltac:(lia)) as S25. pose proof (Sy 4%nat 3%nat ltac:(lia) ltac:(lia)) as S34. pose proof (Sy 5%nat 3%nat ltac:(lia) ltac:(lia)) as S35. pose proof (Sy 5%nat 4%nat ltac:(lia) ltac:(lia)) as S45.
    pose proof (U 0%nat 0%nat ltac:(lia) ltac:(lia)) as U00; evin U00. pose proof (U 0%nat 1%nat ltac:(lia) ltac:(lia)) as U01; evin U01. pose proof (U 0%nat 2%nat ltac:(lia) ltac:(lia)) as U02; evin U02. pose proof (U 0%nat 3%nat ltac:(lia) ltac:(lia)) as U03; evin U03. pose proof (U 0%nat 4%nat ltac:(lia) ltac:(lia)) as U04; evin U04. pose proof (U 0%nat 5%nat ltac:(lia) ltac:(lia)) as U05; evin U05. pose proof (U 1%nat 1%nat ltac:(lia) ltac:(lia)) as U11; evin U11. pose proof (U 1%nat 2%nat ltac:(lia) ltac:(lia)) as U12; evin U12. pose proof (U 1%nat 3%nat ltac:(lia) ltac:(lia)) as U13; evin U13. pose proof (U 1%nat 4%nat ltac:(lia) ltac:(lia)) as U14; evin U14. pose proof (U 1%nat 5%nat ltac:(lia) ltac:(lia)) as U15; evin U15.
    pose proof (W Hypercharge 0%nat ltac:(lia)) as WY0; evin WY0. pose proof (W Hypercharge 1%nat ltac:(lia)) as WY1; evin WY1. pose proof (W Hypercharge 2%nat ltac:(lia)) as WY2; evin WY2. pose proof (W Hypercharge 3%nat ltac:(lia)) as WY3; evin WY3. pose proof (W Hypercharge 4%nat ltac:(lia)) as WY4; evin WY4. pose proof (W Hypercharge 5%nat ltac:(lia)) as WY5; evin WY5. pose proof (W Isospin1 0%nat ltac:(lia)) as WA0; evin WA0. pose proof (W Isospin1 1%nat ltac:(lia)) as WA1; evin WA1. pose proof (W Isospin1 2%nat ltac:(lia)) as WA2; evin WA2. pose proof (W Isospin1 3%nat ltac:(lia)) as WA3; evin WA3. pose proof (W Isospin1 4%nat ltac:(lia)) as WA4; evin WA4. pose proof (W Isospin1 5%nat ltac:(lia)) as WA5; evin WA5. pose proof (W Isospin2 0%nat ltac:(lia)) as WB0; evin WB0. pose proof (W Isospin2 1%nat ltac:(lia)) as WB1; evin WB1. pose proof (W Isospin2 2%nat ltac:(lia)) as WB2; evin WB2. pose proof (W Isospin2 3%nat ltac:(lia)) as WB3; evin WB3. pose proof (W Isospin2 4%nat ltac:(lia)) as WB4; evin WB4. pose proof (W Isospin2 5%nat ltac:(lia)) as WB5; evin WB5.
    clear W U Sy Q.
    use S01. clear S01. use S02. clear S02. use S03. clear S03. use S04. clear S04. use S05. clear S05. use S12. clear S12. use S13. clear S13. use S14. clear S14. use S15. clear S15. use S23. clear S23. use S24. clear S24. use S25. clear S25. use S34. clear S34. use S35. clear S35. use S45. clear S45.
    assert (Z01 : H 0%nat 1%nat = 0) by lra. use Z01.
    assert (Z02 : H 0%nat 2%nat = 0) by lra. use Z02.
    assert (Z03 : H 0%nat 3%nat = 0) by lra. use Z03.
    assert (Z04 : H 0%nat 4%nat = 0) by lra. use Z04.
    assert (Z05 : H 0%nat 5%nat = 0) by lra. use Z05.
    assert (Z12 : H 1%nat 2%nat = 0) by lra. use Z12.
    assert (Z13 : H 1%nat 3%nat = 0) by lra. use Z13.
    assert (Z14 : H 1%nat 4%nat = 0) by lra. use Z14.
    assert (Z15 : H 1%nat 5%nat = 0) by lra. use Z15.
    assert (Z0 : N 0%nat = 0) by lra. use Z0.
    assert (Z1 : N 1%nat = 0) by lra. use Z1.
    assert (Z2 : N 2%nat = 0) by lra. use Z2.
    assert (Z : H 0%nat 0%nat = H 2%nat 2%nat) by (apply (Rmult_eq_reg_r vh); [lra|exact V]).
    assert (Z23 : H 2%nat 3%nat = 0) by (apply (zero_product _ vh); [exact V|lra]).
    assert (Z24 : H 2%nat 4%nat = 0) by (apply (zero_product _ vh); [exact V|lra]).
    assert (Z25 : H 2%nat 5%nat = 0) by (apply (zero_product _ vh); [exact V|lra]).
    repeat split; lra.
  Qed.
End CxSM.

Section R2HDM.
  Variable f : list R -> R.
  Hypothesis GI : gauge_invariant 8 slots_2HDM f.
  Hypothesis EV : even_under 8 [1; 3; 5; 7]%nat f.
  Variable v1 v2 : R.
  Hypothesis V1 : v1 <> 0.
  Hypothesis V2 : v2 <> 0.
  Variable N : nat -> R.
  Variable H : nat -> nat -> R.
  Hypothesis T : taylor2 8 f (at_ [0; 0; 0; 0; v1; 0; v2; 0]) N H.
  Let K : known 8 slots_2HDM. Proof. right. right. left. split; reflexivity. Qed.
  Let W := ward_entry 8 slots_2HDM K f GI (at_ [0; 0; 0; 0; v1; 0; v2; 0]) N H T.
  Let Q : forall k, rotated Charge slots_2HDM (at_ [0; 0; 0; 0; v1; 0; v2; 0]) k = 0. Proof. neutral. Qed.
  Let U i j := unbroken_entry 8 slots_2HDM K f GI (at_ [0; 0; 0; 0; v1; 0; v2; 0]) N H T Charge i j Q.
  Let Sy i j : (i < 8)%nat -> (j < 8)%nat -> H i j = H j i. Proof. apply (proj1 T). Qed.
  Let Vn i : (i < 8)%nat -> In i [1; 3; 5; 7]%nat -> nth i [0; 0; 0; 0; v1; 0; v2; 0] 0 = 0.
  Proof. intros _ I. repeat (destruct I as [<-|I]; [reflexivity|]). contradiction. Qed.
  Let PN := parity_N 8 [1; 3; 5; 7]%nat f EV (at_ [0; 0; 0; 0; v1; 0; v2; 0]) N H T Vn.
  Let PH := parity_H 8 [1; 3; 5; 7]%nat f EV (at_ [0; 0; 0; 0; v1; 0; v2; 0]) N H T Vn.
  Lemma R2HDM_identities :
    N 0%nat = 0 /\ N 1%nat = 0 /\ N 2%nat = 0 /\ N 3%nat = 0 /\ H 0%nat 4%nat = 0 /\ H 0%nat 5%nat = 0 /\ H 0%nat 6%nat = 0 /\ H 0%nat 7%nat = 0 /\ H 1%nat 4%nat = 0 /\ H 1%nat 5%nat = 0 /\ H 1%nat 6%nat = 0 /\ H 1%nat 7%nat = 0 /\ H 2%nat 4%nat = 0 /\ H 2%nat 5%nat = 0 /\ H 2%nat 6%nat = 0 /\ H 2%nat 7%nat = 0 /\ H 3%nat 4%nat = 0 /\ H 3%nat 5%nat = 0 /\ H 3%nat 6%nat = 0 /\ H 3%nat 7%nat = 0 /\ H 0%nat 1%nat = 0 /\ H 2%nat 3%nat = 0 /\ H 1%nat 1%nat = H 0%nat 0%nat /\ H 3%nat 3%nat = H 2%nat 2%nat /\ H 1%nat 3%nat = H 0%nat 2%nat /\ H 1%nat 2%nat = - H 0%nat 3%nat /\ N 4%nat = H 0%nat 0%nat * v1 + H 0%nat 2%nat * v2 /\ N 6%nat = H 0%nat 2%nat * v1 + H 2%nat 2%nat * v2 /\ H 0%nat 3%nat = 0 /\ N 5%nat = 0 /\ N 7%nat = 0 /\ H 4%nat 5%nat = 0 /\ H 4%nat 7%nat = 0 /\ H 5%nat 6%nat = 0 /\ H 6%nat 7%nat = 0 /\ H 5%nat 5%nat = (H 0%nat 0%nat * v1 + H 0%nat 2%nat * v2 - H 5%nat 7%nat * v2) / v1 /\ H 7%nat 7%nat = (H 0%nat 2%nat * v1 + H 2%nat 2%nat * v2 - H 5%nat 7%nat * v1) / v2.
  Proof.
    pose proof (Sy 1%nat 0%nat ltac:(lia) ltac:(lia)) as S01. pose proof (Sy 2%nat 0%nat ltac:(lia) ltac:(lia)) as S02. pose proof (Sy 3%nat 0%nat ltac:(lia) ltac:(lia)) as S03. pose proof (Sy 4%nat 0%nat ltac:(lia) ltac:(lia)) as S04. pose proof (Sy 5%nat 0%nat ltac:(lia) ltac:(lia)) as S05. pose proof (Sy 6%nat 0%nat ltac:(lia) ltac:(lia)) as S06. pose proof (Sy 7%nat 0%nat ltac:(lia) ltac:(lia)) as S07. pose proof (Sy 2%nat 1%nat ltac:(lia) ltac:(lia)) as S12. pose proof (Sy 3%nat 1%nat ltac:(lia) ltac:(lia)) as S13. pose proof (Sy 4%nat 1%nat ltac:(lia) ltac:(lia)) as S14. pose proof (Sy 5%nat 1%nat ltac:(lia) ltac:(lia)) as S15. pose proof (Sy 6%nat 1%nat ltac:(lia) ltac:(lia)) as S16. pose proof (Sy 7%nat 1%nat ltac:(lia) ltac:(lia)) as S17. pose proof (Sy 3%nat 2%nat ltac:(lia) ltac:(lia)) as S23. pose proof (Sy 4%nat 2%nat ltac:(lia) ltac:(lia)) as S24. pose proof (Sy 5%nat 2%nat ltac:(lia) ltac:(lia)) as S25. pose proof (Sy 6%nat 2%nat ltac:(lia) ltac:(lia)) as S26. pose proof (Sy 7%nat 2%nat ltac:(lia) ltac:(lia)) as S27. pose proof (Sy 4%nat 3%nat ltac:(lia) ltac:(lia)) as S34. pose proof (Sy 5%nat 3%nat ltac:(lia) ltac:(lia)) as S35. pose proof (Sy 6%nat 3%nat ltac:(lia) ltac:(lia)) as S36. pose proof (Sy 7%nat 3%nat ltac:(lia) ltac:(lia)) as S37. pose proof (Sy 5%nat 4%nat ltac:(lia) ltac:(lia)) as S45. pose proof (Sy 6%nat 4%nat ltac:(lia) ltac:(lia)) as S46. pose proof (Sy 7%nat 4%nat ltac:(lia) ltac:(lia)) as S47. pose proof (Sy 6%nat 5%nat ltac:(lia) ltac:(lia)) as S56. pose proof (Sy 7%nat 5%nat ltac:(lia) ltac:(lia)) as S57. pose proof (Sy 7%nat 6%nat ltac:(lia) ltac:(lia)) as S67.
    pose proof (U 0%nat 0%nat ltac:(lia) ltac:(lia)) as U00; evin U00. pose proof (U 0%nat 1%nat ltac:(lia) ltac:(lia)) as U01; evin U01. pose proof (U 0%nat 2%nat ltac:(lia) ltac:(lia)) as U02; evin U02. pose proof (U 0%nat 3%nat ltac:(lia) ltac:(lia)) as U03; evin U03. pose proof (U 0%nat 4%nat ltac:(lia) ltac:(lia)) as U04; evin U04. pose proof (U 0%nat 5%nat ltac:(lia) ltac:(lia)) as U05; evin U05. pose proof (U 0%nat 6%nat ltac:(lia) ltac:(lia)) as U06; evin U06. pose proof (U 0%nat 7%nat ltac:(lia) ltac:(lia)) as U07; evin U07. pose proof (U 1%nat 1%nat ltac:(lia) ltac:(lia)) as U11; evin U11. pose proof (U 1%nat 2%nat ltac:(lia) ltac:(lia)) as U12; evin U12. pose proof (U 1%nat 3%nat ltac:(lia) ltac:(lia)) as U13; evin U13. pose proof (U 1%nat 4%nat ltac:(lia) ltac:(lia)) as U14; evin U14. pose proof (U 1%nat 5%nat ltac:(lia) ltac:(lia)) as U15; evin U15. pose proof (U 1%nat 6%nat ltac:(lia) ltac:(lia)) as U16; evin U16. pose proof (U 1%nat 7%nat ltac:(lia) ltac:(lia)) as U17; evin U17. pose proof (U 2%nat 2%nat ltac:(lia) ltac:(lia)) as U22; evin U22. pose proof (U 2%nat 3%nat ltac:(lia) ltac:(lia)) as U23; evin U23. pose proof (U 2%nat 4%nat ltac:(lia) ltac:(lia)) as U24; evin U24. pose proof (U 2%nat 5%nat ltac:(lia) ltac:(lia)) as U25; evin U25. pose proof (U 2%nat 6%nat ltac:(lia) ltac:(lia)) as U26; evin U26. pose proof (U 2%nat 7%nat ltac:(lia) ltac:(lia)) as U27; evin U27. pose proof (U 3%nat 3%nat ltac:(lia) ltac:(lia)) as U33; evin U33. pose proof (U 3%nat 4%nat ltac:(lia) ltac:(lia)) as U34; evin U34. pose proof (U 3%nat 5%nat ltac:(lia) ltac:(lia)) as U35; evin U35. pose proof (U 3%nat 6%nat ltac:(lia) ltac:(lia)) as U36; evin U36. pose proof (U 3%nat 7%nat ltac:(lia) ltac:(lia)) as U37; evin U37.
    pose proof (W Hypercharge 0%nat ltac:(lia)) as WY0; evin WY0. pose proof (W Hypercharge 1%nat ltac:(lia)) as WY1; evin WY1. pose proof (W Hypercharge 2%nat ltac:(lia)) as WY2; evin WY2. pose proof (W Hypercharge 3%nat ltac:(lia)) as WY3; evin WY3. pose proof (W Hypercharge 4%nat ltac:(lia)) as WY4; evin WY4. pose proof (W Hypercharge 5%nat ltac:(lia)) as WY5; evin WY5. pose proof (W Hypercharge 6%nat ltac:(lia)) as WY6; evin WY6. pose proof (W Hypercharge 7%nat ltac:(lia)) as WY7; evin WY7. pose proof (W Isospin1 0%nat ltac:(lia)) as WA0; evin WA0. pose proof (W Isospin1 1%nat ltac:(lia)) as WA1; evin WA1. pose proof (W Isospin1 2%nat ltac:(lia)) as WA2; evin WA2. pose proof (W Isospin1 3%nat ltac:(lia)) as WA3; evin WA3. pose proof (W Isospin1 4%nat ltac:(lia)) as WA4; evin WA4. pose proof (W Isospin1 5%nat ltac:(lia)) as WA5; evin WA5. pose proof (W Isospin1 6%nat ltac:(lia)) as WA6; evin WA6. pose proof (W Isospin1 7%nat ltac:(lia)) as WA7; evin WA7. pose proof (W Isospin2 0%nat ltac:(lia)) as WB0; evin WB0. pose proof (W Isospin2 1%nat ltac:(lia)) as WB1; evin WB1. pose proof (W Isospin2 2%nat ltac:(lia)) as WB2; evin WB2. pose proof (W Isospin2 3%nat ltac:(lia)) as WB3; evin WB3. pose proof (W Isospin2 4%nat ltac:(lia)) as WB4; evin WB4. pose proof (W Isospin2 5%nat ltac:(lia)) as WB5; evin WB5. pose proof (W Isospin2 6%nat ltac:(lia)) as WB6; evin WB6. pose proof (W Isospin2 7%nat ltac:(lia)) as WB7; evin WB7.
    pose proof (PN 1%nat ltac:(lia) ltac:(cbn; tauto)) as PN1. pose proof (PN 3%nat ltac:(lia) ltac:(cbn; tauto)) as PN3. pose proof (PN 5%nat ltac:(lia) ltac:(cbn; tauto)) as PN5. pose proof (PN 7%nat ltac:(lia) ltac:(cbn; tauto)) as PN7.
    pose proof (PH 1%nat 0%nat ltac:(lia) ltac:(lia) ltac:(cbn; tauto) ltac:(cbn; lia)) as PH10. pose proof (PH 1%nat 2%nat ltac:(lia) ltac:(lia) ltac:(cbn; tauto) ltac:(cbn; lia)) as PH12. pose proof (PH 1%nat 4%nat ltac:(lia) ltac:(lia) ltac:(cbn; tauto) ltac:(cbn; lia)) as PH14. pose proof (PH 1%nat 6%nat ltac:(lia) ltac:(lia) ltac:(cbn; tauto) ltac:(cbn; lia)) as PH16. pose proof (PH 3%nat 0%nat ltac:(lia) ltac:(lia) ltac:(cbn; tauto) ltac:(cbn; lia)) as PH30. pose proof (PH 3%nat 2%nat ltac:(lia) ltac:(lia) ltac:(cbn; tauto) ltac:(cbn; lia)) as PH32. pose proof (PH 3%nat 4%nat ltac:(lia) ltac:(lia) ltac:(cbn; tauto) ltac:(cbn; lia)) as PH34. pose proof (PH 3%nat 6%nat ltac:(lia) ltac:(lia) ltac:(cbn; tauto) ltac:(cbn; lia)) as PH36. pose proof (PH 5%nat 0%nat ltac:(lia) ltac:(lia) ltac:(cbn; tauto) ltac:(cbn; lia)) as PH50. pose proof (PH 5%nat 2%nat ltac:(lia) ltac:(lia) ltac:(cbn; tauto) ltac:(cbn; lia)) as PH52. pose proof (PH 5%nat 4%nat ltac:(lia) ltac:(lia) ltac:(cbn; tauto) ltac:(cbn; lia)) as PH54. pose proof (PH 5%nat 6%nat ltac:(lia) ltac:(lia) ltac:(cbn; tauto) ltac:(cbn; lia)) as PH56. pose proof (PH 7%nat 0%nat ltac:(lia) ltac:(lia) ltac:(cbn; tauto) ltac:(cbn; lia)) as PH70. pose proof (PH 7%nat 2%nat ltac:(lia) ltac:(lia) ltac:(cbn; tauto) ltac:(cbn; lia)) as PH72. pose proof (PH 7%nat 4%nat ltac:(lia) ltac:(lia) ltac:(cbn; tauto) ltac:(cbn; lia)) as PH74. pose proof (PH 7%nat 6%nat ltac:(lia) ltac:(lia) ltac:(cbn; tauto) ltac:(cbn; lia)) as PH76.
    clear W U Sy Q Vn PN PH.
    use S01. clear S01. use S02. clear S02. use S03. clear S03. use S04. clear S04. use S05. clear S05. use S06. clear S06. use S07. clear S07. use S12. clear S12. use S13. clear S13. use S14. clear S14. use S15. clear S15. use S16. clear S16. use S17. clear S17. use S23. clear S23. use S24. clear S24. use S25. clear S25. use S26. clear S26. use S27. clear S27. use S34. clear S34. use S35. clear S35. use S36. clear S36. use S37. clear S37. use S45. clear S45. use S46. clear S46. use S47. clear S47. use S56. clear S56. use S57. clear S57. use S67. clear S67.
    use PN1. use PN3. use PN5. use PN7.
    use PH10. use PH12. use PH14. use PH16. use PH30. use PH32. use PH34. use PH36. use PH50. use PH52. use PH54. use PH56. use PH70. use PH72. use PH74. use PH76.
    assert (Z01 : H 0%nat 1%nat = 0) by lra. use Z01.
    assert (Z23 : H 2%nat 3%nat = 0) by lra. use Z23.
    assert (Z04 : H 0%nat 4%nat = 0) by lra. use Z04.
    assert (Z05 : H 0%nat 5%nat = 0) by lra. use Z05.
    assert (Z06 : H 0%nat 6%nat = 0) by lra. use Z06.
    assert (Z07 : H 0%nat 7%nat = 0) by lra. use Z07.
    assert (Z14 : H 1%nat 4%nat = 0) by lra. use Z14.
    assert (Z15 : H 1%nat 5%nat = 0) by lra. use Z15.
    assert (Z16 : H 1%nat 6%nat = 0) by lra. use Z16.
    assert (Z17 : H 1%nat 7%nat = 0) by lra. use Z17.
    assert (Z24 : H 2%nat 4%nat = 0) by lra. use Z24.
    assert (Z25 : H 2%nat 5%nat = 0) by lra. use Z25.
    assert (Z26 : H 2%nat 6%nat = 0) by lra. use Z26.
    assert (Z27 : H 2%nat 7%nat = 0) by lra. use Z27.
    assert (Z34 : H 3%nat 4%nat = 0) by lra. use Z34.
    assert (Z35 : H 3%nat 5%nat = 0) by lra. use Z35.
    assert (Z36 : H 3%nat 6%nat = 0) by lra. use Z36.
    assert (Z37 : H 3%nat 7%nat = 0) by lra. use Z37.
    assert (Z0 : N 0%nat = 0) by lra. use Z0.
    assert (Z1 : N 1%nat = 0) by lra. use Z1.
    assert (Z2 : N 2%nat = 0) by lra. use Z2.
    assert (Z3 : N 3%nat = 0) by lra. use Z3.
    assert (Z11 : H 1%nat 1%nat = H 0%nat 0%nat) by lra. use Z11. assert (Z33 : H 3%nat 3%nat = H 2%nat 2%nat) by lra. use Z33. assert (Z13 : H 1%nat 3%nat = H 0%nat 2%nat) by lra. use Z13. assert (Z12 : H 1%nat 2%nat = - H 0%nat 3%nat) by lra. use Z12.
    repeat split; try lra; apply solve_for; first [assumption|lra].
  Qed.
End R2HDM.

Section C2HDM.
  Variable f : list R -> R.
  Hypothesis GI : gauge_invariant 8 slots_2HDM f.
  Variable v1 v2 : R.
  Hypothesis V1 : v1 <> 0.
  Hypothesis V2 : v2 <> 0.
  Variable N : nat -> R.
  Variable H : nat -> nat -> R.
  Hypothesis T : taylor2 8 f (at_ [0; 0; 0; 0; v1; 0; v2; 0]) N H.
  Let K : known 8 slots_2HDM. Proof. right. right. left. split; reflexivity. Qed.
  Let W := ward_entry 8 slots_2HDM K f GI (at_ [0; 0; 0; 0; v1; 0; v2; 0]) N H T.
  Let Q : forall k, rotated Charge slots_2HDM (at_ [0; 0; 0; 0; v1; 0; v2; 0]) k = 0. Proof. neutral. Qed.
  Let U i j := unbroken_entry 8 slots_2HDM K f GI (at_ [0; 0; 0; 0; v1; 0; v2; 0]) N H T Charge i j Q.
  Let Sy i j : (i < 8)%nat -> (j < 8)%nat -> H i j = H j i. Proof. apply (proj1 T). Qed.
  Lemma C2HDM_identities :
    N 0%nat = 0 /\ N 1%nat = 0 /\ N 2%nat = 0 /\ N 3%nat = 0 /\ H 0%nat 4%nat = 0 /\ H 0%nat 5%nat = 0 /\ H 0%nat 6%nat = 0 /\ H 0%nat 7%nat = 0 /\ H 1%nat 4%nat = 0 /\ H 1%nat 5%nat = 0 /\ H 1%nat 6%nat = 0 /\ H 1%nat 7%nat = 0 /\ H 2%nat 4%nat = 0 /\ H 2%nat 5%nat = 0 /\ H 2%nat 6%nat = 0 /\ H 2%nat 7%nat = 0 /\ H 3%nat 4%nat = 0 /\ H 3%nat 5%nat = 0 /\ H 3%nat 6%nat = 0 /\ H 3%nat 7%nat = 0 /\ H 0%nat 1%nat = 0 /\ H 2%nat 3%nat = 0 /\ H 1%nat 1%nat = H 0%nat 0%nat /\ H 3%nat 3%nat = H 2%nat 2%nat /\ H 1%nat 3%nat = H 0%nat 2%nat /\ H 1%nat 2%nat = - H 0%nat 3%nat /\ N 4%nat = H 0%nat 0%nat * v1 + H 0%nat 2%nat * v2 /\ N 6%nat = H 0%nat 2%nat * v1 + H 2%nat 2%nat * v2 /\ N 5%nat = - H 0%nat 3%nat * v2 /\ N 7%nat = H 0%nat 3%nat * v1 /\ H 4%nat 5%nat = (H 0%nat 3%nat * v2 - H 4%nat 7%nat * v2) / v1 /\ H 5%nat 6%nat = (- H 0%nat 3%nat * v1 - H 6%nat 7%nat * v2) / v1 /\ H 5%nat 5%nat = (H 0%nat 0%nat * v1 + H 0%nat 2%nat * v2 - H 5%nat 7%nat * v2) / v1 /\ H 7%nat 7%nat = (H 0%nat 2%nat * v1 + H 2%nat 2%nat * v2 - H 5%nat 7%nat * v1) / v2.
  Proof.
    pose proof (Sy 1%nat 0%nat ltac:(lia) ltac:(lia)) as S01. pose proof (Sy 2%nat 0%nat ltac:(lia) ltac:(lia)) as S02. pose proof (Sy 3%nat 0%nat ltac:(lia) ltac:(lia)) as S03. pose proof (Sy 4%nat 0%nat ltac:(lia) ltac:(lia)) as S04. pose proof (Sy 5%nat 0%nat ltac:(lia) ltac:(lia)) as S05. pose proof (Sy 6%nat 0%nat ltac:(lia) ltac:(lia)) as S06. pose proof (Sy 7%nat 0%nat ltac:(lia) ltac:(lia)) as S07. pose proof (Sy 2%nat 1%nat ltac:(lia) ltac:(lia)) as S12. pose proof (Sy 3%nat 1%nat ltac:(lia) ltac:(lia)) as S13. pose proof (Sy 4%nat 1%nat ltac:(lia) ltac:(lia)) as S14. pose proof (Sy 5%nat 1%nat ltac:(lia) ltac:(lia)) as S15. pose proof (Sy 6%nat 1%nat ltac:(lia) ltac:(lia)) as S16. pose proof (Sy 7%nat 1%nat ltac:(lia) ltac:(lia)) as S17. pose proof (Sy 3%nat 2%nat ltac:(lia) ltac:(lia)) as S23. pose proof (Sy 4%nat 2%nat ltac:(lia) ltac:(lia)) as S24. pose proof (Sy 5%nat 2%nat ltac:(lia) ltac:(lia)) as S25. pose proof (Sy 6%nat 2%nat ltac:(lia) ltac:(lia)) as S26. pose proof (Sy 7%nat 2%nat ltac:(lia) ltac:(lia)) as S27. pose proof (Sy 4%nat 3%nat ltac:(lia) ltac:(lia)) as S34. pose proof (Sy 5%nat 3%nat ltac:(lia) ltac:(lia)) as S35. pose proof (Sy 6%nat 3%nat ltac:(lia) ltac:(lia)) as S36. pose proof (Sy 7%nat 3%nat ltac:(lia) ltac:(lia)) as S37. pose proof (Sy 5%nat 4%nat ltac:(lia) ltac:(lia)) as S45. pose proof (Sy 6%nat 4%nat ltac:(lia) ltac:(lia)) as S46. pose proof (Sy 7%nat 4%nat ltac:(lia) ltac:(lia)) as S47. pose proof (Sy 6%nat 5%nat ltac:(lia) ltac:(lia)) as S56. pose proof (Sy 7%nat 5%nat ltac:(lia) ltac:(lia)) as S57. pose proof (Sy 7%nat 6%nat ltac:(lia) ltac:(lia)) as S67.
    pose proof (U 0%nat 0%nat ltac:(lia) ltac:(lia)) as U00; evin U00. pose proof (U 0%nat 1%nat ltac:(lia) ltac:(lia)) as U01; evin U01. pose proof (U 0%nat 2%nat ltac:(lia) ltac:(lia)) as U02; evin U02. pose proof (U 0%nat 3%nat ltac:(lia) ltac:(lia)) as U03; evin U03. pose proof (U 0%nat 4%nat ltac:(lia) ltac:(lia)) as U04; evin U04. pose proof (U 0%nat 5%nat ltac:(lia) ltac:(lia)) as U05; evin U05. pose proof (U 0%nat 6%nat ltac:(lia) ltac:(lia)) as U06; evin U06. pose proof (U 0%nat 7%nat ltac:(lia) ltac:(lia)) as U07; evin U07. pose proof (U 1%nat 1%nat ltac:(lia) ltac:(lia)) as U11; evin U11. pose proof (U 1%nat 2%nat ltac:(lia) ltac:(lia)) as U12; evin U12. pose proof (U 1%nat 3%nat ltac:(lia) ltac:(lia)) as U13; evin U13. pose proof (U 1%nat 4%nat ltac:(lia) ltac:(lia)) as U14; evin U14. pose proof (U 1%nat 5%nat ltac:(lia) ltac:(lia)) as U15; evin U15. pose proof (U 1%nat 6%nat ltac:(lia) ltac:(lia)) as U16; evin U16. pose proof (U 1%nat 7%nat ltac:(lia) ltac:(lia)) as U17; evin U17. pose proof (U 2%nat 2%nat ltac:(lia) ltac:(lia)) as U22; evin U22. pose proof (U 2%nat 3%nat ltac:(lia) ltac:(lia)) as U23; evin U23. pose proof (U 2%nat 4%nat ltac:(lia) ltac:(lia)) as U24; evin U24. pose proof (U 2%nat 5%nat ltac:(lia) ltac:(lia)) as U25; evin U25. pose proof (U 2%nat 6%nat ltac:(lia) ltac:(lia)) as U26; evin U26. pose proof (U 2%nat 7%nat ltac:(lia) ltac:(lia)) as U27; evin U27. pose proof (U 3%nat 3%nat ltac:(lia) ltac:(lia)) as U33; evin U33. pose proof (U 3%nat 4%nat ltac:(lia) ltac:(lia)) as U34; evin U34. pose proof (U 3%nat 5%nat ltac:(lia) ltac:(lia)) as U35; evin U35. pose proof (U 3%nat 6%nat ltac:(lia) ltac:(lia)) as U36; evin U36. pose proof (U 3%nat 7%nat ltac:(lia) ltac:(lia)) as U37; evin U37.
    pose proof (W Hypercharge 0%nat ltac:(lia)) as WY0; evin WY0. pose proof (W Hypercharge 1%nat ltac:(lia)) as WY1; evin WY1. pose proof (W Hypercharge 2%nat ltac:(lia)) as WY2; evin WY2. pose proof (W Hypercharge 3%nat ltac:(lia)) as WY3; evin WY3. pose proof (W Hypercharge 4%nat ltac:(lia)) as WY4; evin WY4. pose proof (W Hypercharge 5%nat ltac:(lia)) as WY5; evin WY5. pose proof (W Hypercharge 6%nat ltac:(lia)) as WY6; evin WY6. pose proof (W Hypercharge 7%nat ltac:(lia)) as WY7; evin WY7. pose proof (W Isospin1 0%nat ltac:(lia)) as WA0; evin WA0. pose proof (W Isospin1 1%nat ltac:(lia)) as WA1; evin WA1. pose proof (W Isospin1 2%nat ltac:(lia)) as WA2; evin WA2. pose proof (W Isospin1 3%nat ltac:(lia)) as WA3; evin WA3. pose proof (W Isospin1 4%nat ltac:(lia)) as WA4; evin WA4. pose proof (W Isospin1 5%nat ltac:(lia)) as WA5; evin WA5. pose proof (W Isospin1 6%nat ltac:(lia)) as WA6; evin WA6. pose proof (W Isospin1 7%nat ltac:(lia)) as WA7; evin WA7. pose proof (W Isospin2 0%nat ltac:(lia)) as WB0; evin WB0. pose proof (W Isospin2 1%nat ltac:(lia)) as WB1; evin WB1. pose proof (W Isospin2 2%nat ltac:(lia)) as WB2; evin WB2. pose proof (W Isospin2 3%nat ltac:(lia)) as WB3; evin WB3. pose proof (W Isospin2 4%nat ltac:(lia)) as WB4; evin WB4. pose proof (W Isospin2 5%nat ltac:(lia)) as WB5; evin WB5. pose proof (W Isospin2 6%nat ltac:(lia)) as WB6; evin WB6. pose proof (W Isospin2 7%nat ltac:(lia)) as WB7; evin WB7.
    clear W U Sy Q.
    use S01. clear S01. use S02. clear S02. use S03. clear S03. use S04. clear S04. use S05. clear S05. use S06. clear S06. use S07. clear S07. use S12. clear S12. use S13. clear S13. use S14. clear S14. use S15. clear S15. use S16. clear S16. use S17. clear S17. use S23. clear S23. use S24. clear S24. use S25. clear S25. use S26. clear S26. use S27. clear S27. use S34. clear S34. use S35. clear S35. use S36. clear S36. use S37. clear S37. use S45. clear S45. use S46. clear S46. use S47. clear S47. use S56. clear S56. use S57. clear S57. use S67. clear S67.
    assert (Z01 : H 0%nat 1%nat = 0) by lra. use Z01.
    assert (Z23 : H 2%nat 3%nat = 0) by lra. use Z23.
    assert (Z04 : H 0%nat 4%nat = 0) by lra. use Z04.
    assert (Z05 : H 0%nat 5%nat = 0) by lra. use Z05.
    assert (Z06 : H 0%nat 6%nat = 0) by lra. use Z06.
    assert (Z07 : H 0%nat 7%nat = 0) by lra. use Z07.
    assert (Z14 : H 1%nat 4%nat = 0) by lra. use Z14.
    assert (Z15 : H 1%nat 5%nat = 0) by lra. use Z15.
    assert (Z16 : H 1%nat 6%nat = 0) by lra. use Z16.
    assert (Z17 : H 1%nat 7%nat = 0) by lra. use Z17.
    assert (Z24 : H 2%nat 4%nat = 0) by lra. use Z24.
    assert (Z25 : H 2%nat 5%nat = 0) by lra. use Z25.
    assert (Z26 : H 2%nat 6%nat = 0) by lra. use Z26.
    assert (Z27 : H 2%nat 7%nat = 0) by lra. use Z27.
    assert (Z34 : H 3%nat 4%nat = 0) by lra. use Z34.
    assert (Z35 : H 3%nat 5%nat = 0) by lra. use Z35.
    assert (Z36 : H 3%nat 6%nat = 0) by lra. use Z36.
    assert (Z37 : H 3%nat 7%nat = 0) by lra. use Z37.
    assert (Z0 : N 0%nat = 0) by lra. use Z0.
    assert (Z1 : N 1%nat = 0) by lra. use Z1.
    assert (Z2 : N 2%nat = 0) by lra. use Z2.
    assert (Z3 : N 3%nat = 0) by lra. use Z3.
    assert (Z11 : H 1%nat 1%nat = H 0%nat 0%nat) by lra. use Z11. assert (Z33 : H 3%nat 3%nat = H 2%nat 2%nat) by lra. use Z33. assert (Z13 : H 1%nat 3%nat = H 0%nat 2%nat) by lra. use Z13. assert (Z12 : H 1%nat 2%nat = - H 0%nat 3%nat) by lra. use Z12.
    repeat split; try lra; apply solve_for; first [assumption|lra].
  Qed.
End C2HDM.

Section N2HDM.
  Variable f : list R -> R.
  Hypothesis GI : gauge_invariant 9 slots_N2HDM f.
  Hypothesis EV : even_under 9 [2; 3; 4; 5]%nat f.
  Variable v1 v2 vs : R.
  Hypothesis V1 : v1 <> 0.
  Hypothesis V2 : v2 <> 0.
  Variable N : nat -> R.
  Variable H : nat -> nat -> R.
  Hypothesis T : taylor2 9 f (at_ [0; 0; 0; 0; 0; 0; v1; v2; vs]) N H.
  Let K : known 9 slots_N2HDM. Proof. right. right. right. right. split; reflexivity. Qed.
  Let W := ward_entry 9 slots_N2HDM K f GI (at_ [0; 0; 0; 0; 0; 0; v1; v2; vs]) N H T.
  Let Q : forall k, rotated Charge slots_N2HDM (at_ [0; 0; 0; 0; 0; 0; v1; v2; vs]) k = 0. Proof. neutral. Qed.
  Let U i j := unbroken_entry 9 slots_N2HDM K f GI (at_ [0; 0; 0; 0; 0; 0; v1; v2; vs]) N H T Charge i j Q.
  Let Sy i j : (i < 9)%nat -> (j < 9)%nat -> H i j = H j i. Proof. apply (proj1 T). Qed.
  Let Vn i : (i < 9)%nat -> In i [2; 3; 4; 5]%nat -> nth i [0; 0; 0; 0; 0; 0; v1; v2; vs] 0 = 0.
  Proof. intros _ I. repeat (destruct I as [<-|I]; [reflexivity|]). contradiction. Qed.
  Let PN := parity_N 9 [2; 3; 4; 5]%nat f EV (at_ [0; 0; 0; 0; 0; 0; v1; v2; vs]) N H T Vn.
  Let PH := parity_H 9 [2; 3; 4; 5]%nat f EV (at_ [0; 0; 0; 0; 0; 0; v1; v2; vs]) N H T Vn.
  Lemma N2HDM_identities :
    N 0%nat = 0 /\ N 1%nat = 0 /\ N 2%nat = 0 /\ N 3%nat = 0 /\ N 4%nat = 0 /\ N 5%nat = 0 /\ H 0%nat 4%nat = 0 /\ H 0%nat 5%nat = 0 /\ H 0%nat 6%nat = 0 /\ H 0%nat 7%nat = 0 /\ H 0%nat 8%nat = 0 /\ H 1%nat 4%nat = 0 /\ H 1%nat 5%nat = 0 /\ H 1%nat 6%nat = 0 /\ H 1%nat 7%nat = 0 /\ H 1%nat 8%nat = 0 /\ H 2%nat 4%nat = 0 /\ H 2%nat 5%nat = 0 /\ H 2%nat 6%nat = 0 /\ H 2%nat 7%nat = 0 /\ H 2%nat 8%nat = 0 /\ H 3%nat 4%nat = 0 /\ H 3%nat 5%nat = 0 /\ H 3%nat 6%nat = 0 /\ H 3%nat 7%nat = 0 /\ H 3%nat 8%nat = 0 /\ H 4%nat 6%nat = 0 /\ H 4%nat 7%nat = 0 /\ H 4%nat 8%nat = 0 /\ H 5%nat 6%nat = 0 /\ H 5%nat 7%nat = 0 /\ H 5%nat 8%nat = 0 /\ H 0%nat 2%nat = 0 /\ H 0%nat 3%nat = 0 /\ H 1%nat 2%nat = 0 /\ H 1%nat 3%nat = 0 /\ H 2%nat 2%nat = H 0%nat 0%nat /\ H 3%nat 3%nat = H 1%nat 1%nat /\ H 2%nat 3%nat = H 0%nat 1%nat /\ N 6%nat = H 0%nat 0%nat * v1 + H 0%nat 1%nat * v2 /\ N 7%nat = H 0%nat 1%nat * v1 + H 1%nat 1%nat * v2 /\ H 4%nat 4%nat = (H 0%nat 0%nat * v1 + H 0%nat 1%nat * v2 - H 4%nat 5%nat * v2) / v1 /\ H 5%nat 5%nat = (H 0%nat 1%nat * v1 + H 1%nat 1%nat * v2 - H 4%nat 5%nat * v1) / v2.
  Proof.
    pose proof (Sy 1%nat 0%nat ltac:(lia) ltac:(lia)) as S01. pose proof (Sy 2%nat 0%nat ltac:(lia) ltac:(lia)) as S02. pose proof (Sy 3%nat 0%nat ltac:(lia) ltac:(lia)) as S03. pose proof (Sy 4%nat 0%nat ltac:(lia) ltac:(lia)) as S04. pose proof (Sy 5%nat 0%nat ltac:(lia) ltac:(lia)) as S05. pose proof (Sy 6%nat 0%nat ltac:(lia) ltac:(lia)) as S06. pose proof (Sy 7%nat 0%nat ltac:(lia) ltac:(lia)) as S07. pose proof (Sy 8%nat 0%nat ltac:(lia) ltac:(lia)) as S08. pose proof (Sy 2%nat 1%nat ltac:(lia) ltac:(lia)) as S12. pose proof (Sy 3%nat 1%nat ltac:(lia) ltac:(lia)) as S13. pose proof (Sy 4%nat 1%nat ltac:(lia) ltac:(lia)) as S14. pose proof (Sy 5%nat 1%nat ltac:(lia) ltac:(lia)) as S15. pose proof (Sy 6%nat 1%nat ltac:(lia) ltac:(lia)) as S16. pose proof (Sy 7%nat 1%nat ltac:(lia) ltac:(lia)) as S17. pose proof (Sy 8%nat 1%nat ltac:(lia) ltac:(lia)) as S18. pose proof (Sy 3%nat 2%nat ltac:(lia) ltac:(lia)) as S23. pose proof (Sy 4%nat 2%nat ltac:(lia) ltac:(lia)) as S24. pose proof (Sy 5%nat 2%nat ltac:(lia) ltac:(lia)) as S25. pose proof (Sy 6%nat 2%nat ltac:(lia) ltac:(lia)) as S26. pose proof (Sy 7%nat 2%nat ltac:(lia) ltac:(lia)) as S27. pose proof (Sy 8%nat 2%nat ltac:(lia) ltac:(lia)) as S28. pose proof (Sy 4%nat 3%nat ltac:(lia) ltac:(lia)) as S34. pose proof (Sy 5%nat 3%nat ltac:(lia) ltac:(lia)) as S35. pose proof (Sy 6%nat 3%nat ltac:(lia) ltac:(lia)) as S36. pose proof (Sy 7%nat 3%nat ltac:(lia) ltac:(lia)) as S37. pose proof (Sy 8%nat 3%nat ltac:(lia) ltac:(lia)) as S38. pose proof (Sy 5%nat 4%nat ltac:(lia) ltac:(lia)) as S45. pose proof (Sy 6%nat 4%nat ltac:(lia) ltac:(lia)) as S46. pose proof (Sy 7%nat 4%nat ltac:(lia) ltac:(lia)) as S47. pose proof (Sy 8%nat 4%nat ltac:(lia) ltac:(lia)) as S48. pose proof (Sy 6%nat 5%nat ltac:(lia) ltac:(lia)) as S56. pose proof (Sy 7%nat 5%nat ltac:(lia) ltac:(lia)) as S57. pose proof (Sy 8%nat 5%nat ltac:(lia) ltac:(lia)) as S58. pose proof (Sy 7%nat 6%nat ltac:(lia) ltac:(lia)) as S67. pose proof (Sy 8%nat 6%nat ltac:(lia) ltac:(lia)) as S68. pose proof (Sy 8%nat 7%nat ltac:(lia) ltac:(lia)) as S78.
    pose proof (U 0%nat 0%nat ltac:(lia) ltac:(lia)) as U00; evin U00. pose proof (U 0%nat 1%nat ltac:(lia) ltac:(lia)) as U01; evin U01. pose proof (U 0%nat 2%nat ltac:(lia) ltac:(lia)) as U02; evin U02. pose proof (U 0%nat 3%nat ltac:(lia) ltac:(lia)) as U03; evin U03. pose proof (U 0%nat 4%nat ltac:(lia) ltac:(lia)) as U04; evin U04. pose proof (U 0%nat 5%nat ltac:(lia) ltac:(lia)) as U05; evin U05. pose proof (U 0%nat 6%nat ltac:(lia) ltac:(lia)) as U06; evin U06. pose proof (U 0%nat 7%nat ltac:(lia) ltac:(lia)) as U07; evin U07. pose proof (U 0%nat 8%nat ltac:(lia) ltac:(lia)) as U08; evin U08. pose proof (U 1%nat 1%nat ltac:(lia) ltac:(lia)) as U11; evin U11. pose proof (U 1%nat 2%nat ltac:(lia) ltac:(lia)) as U12; evin U12. pose proof (U 1%nat 3%nat ltac:(lia) ltac:(lia)) as U13; evin U13. pose proof (U 1%nat 4%nat ltac:(lia) ltac:(lia)) as U14; evin U14. pose proof (U 1%nat 5%nat ltac:(lia) ltac:(lia)) as U15; evin U15. pose proof (U 1%nat 6%nat ltac:(lia) ltac:(lia)) as U16; evin U16. pose proof (U 1%nat 7%nat ltac:(lia) ltac:(lia)) as U17; evin U17. pose proof (U 1%nat 8%nat ltac:(lia) ltac:(lia)) as U18; evin U18. pose proof (U 2%nat 2%nat ltac:(lia) ltac:(lia)) as U22; evin U22. pose proof (U 2%nat 3%nat ltac:(lia) ltac:(lia)) as U23; evin U23. pose proof (U 2%nat 4%nat ltac:(lia) ltac:(lia)) as U24; evin U24. pose proof (U 2%nat 5%nat ltac:(lia) ltac:(lia)) as U25; evin U25. pose proof (U 2%nat 6%nat ltac:(lia) ltac:(lia)) as U26; evin U26. pose proof (U 2%nat 7%nat ltac:(lia) ltac:(lia)) as U27; evin U27. pose proof (U 2%nat 8%nat ltac:(lia) ltac:(lia)) as U28; evin U28. pose proof (U 3%nat 3%nat ltac:(lia) ltac:(lia)) as U33; evin U33. pose proof (U 3%nat 4%nat ltac:(lia) ltac:(lia)) as U34; evin U34. pose proof (U 3%nat 5%nat ltac:(lia) ltac:(lia)) as U35; evin U35. pose proof (U 3%nat 6%nat ltac:(lia) ltac:(lia)) as U36; evin U36. pose proof (U 3%nat 7%nat ltac:(lia) ltac:(lia)) as U37; evin U37. pose proof (U 3%nat 8%nat ltac:(lia) ltac:(lia)) as U38; evin U38.
    pose proof (W Hypercharge 0%nat ltac:(lia)) as WY0; evin WY0. pose proof (W Hypercharge 1%nat ltac:(lia)) as WY1; evin WY1. pose proof (W Hypercharge 2%nat ltac:(lia)) as WY2; evin WY2. pose proof (W Hypercharge 3%nat ltac:(lia)) as WY3; evin WY3. pose proof (W Hypercharge 4%nat ltac:(lia)) as WY4; evin WY4. pose proof (W Hypercharge 5%nat ltac:(lia)) as WY5; evin WY5. pose proof (W Hypercharge 6%nat ltac:(lia)) as WY6; evin WY6. pose proof (W Hypercharge 7%nat ltac:(lia)) as WY7; evin WY7. pose proof (W Hypercharge 8%nat ltac:(lia)) as WY8; evin WY8. pose proof (W Isospin1 0%nat ltac:(lia)) as WA0; evin WA0. pose proof (W Isospin1 1%nat ltac:(lia)) as WA1; evin WA1. pose proof (W Isospin1 2%nat ltac:(lia)) as WA2; evin WA2. pose proof (W Isospin1 3%nat ltac:(lia)) as WA3; evin WA3. pose proof (W Isospin1 4%nat ltac:(lia)) as WA4; evin WA4. pose proof (W Isospin1 5%nat ltac:(lia)) as WA5; evin WA5. pose proof (W Isospin1 6%nat ltac:(lia)) as WA6; evin WA6. pose proof (W Isospin1 7%nat ltac:(lia)) as WA7; evin WA7. pose proof (W Isospin1 8%nat ltac:(lia)) as WA8; evin WA8. pose proof (W Isospin2 0%nat ltac:(lia)) as WB0; evin WB0. pose proof (W Isospin2 1%nat ltac:(lia)) as WB1; evin WB1. pose proof (W Isospin2 2%nat ltac:(lia)) as WB2; evin WB2. pose proof (W Isospin2 3%nat ltac:(lia)) as WB3; evin WB3. pose proof (W Isospin2 4%nat ltac:(lia)) as WB4; evin WB4. pose proof (W Isospin2 5%nat ltac:(lia)) as WB5; evin WB5. pose proof (W Isospin2 6%nat ltac:(lia)) as WB6; evin WB6. pose proof (W Isospin2 7%nat ltac:(lia)) as WB7; evin WB7. pose proof (W Isospin2 8%nat ltac:(lia)) as WB8; evin WB8.
    pose proof (PN 2%nat ltac:(lia) ltac:(cbn; tauto)) as PN2. pose proof (PN 3%nat ltac:(lia) ltac:(cbn; tauto)) as PN3. pose proof (PN 4%nat ltac:(lia) ltac:(cbn; tauto)) as PN4. pose proof (PN 5%nat ltac:(lia) ltac:(cbn; tauto)) as PN5.
    pose proof (PH 2%nat 0%nat ltac:(lia) ltac:(lia) ltac:(cbn; tauto) ltac:(cbn; lia)) as PH20. pose proof (PH 2%nat 1%nat ltac:(lia) ltac:(lia) ltac:(cbn; tauto) ltac:(cbn; lia)) as PH21. pose proof (PH 2%nat 6%nat ltac:(lia) ltac:(lia) ltac:(cbn; tauto) ltac:(cbn; lia)) as PH26. pose proof (PH 2%nat 7%nat ltac:(lia) ltac:(lia) ltac:(cbn; tauto) ltac:(cbn; lia)) as PH27. pose proof (PH 2%nat 8%nat ltac:(lia) ltac:(lia) ltac:(cbn; tauto) ltac:(cbn; lia)) as PH28. pose proof (PH 3%nat 0%nat ltac:(lia) ltac:(lia) ltac:(cbn; tauto) ltac:(cbn; lia)) as PH30. pose proof (PH 3%nat 1%nat ltac:(lia) ltac:(lia) ltac:(cbn; tauto) ltac:(cbn; lia)) as PH31. pose proof (PH 3%nat 6%nat ltac:(lia) ltac:(lia) ltac:(cbn; tauto) ltac:(cbn; lia)) as PH36. pose proof (PH 3%nat 7%nat ltac:(lia) ltac:(lia) ltac:(cbn; tauto) ltac:(cbn; lia)) as PH37. pose proof (PH 3%nat 8%nat ltac:(lia) ltac:(lia) ltac:(cbn; tauto) ltac:(cbn; lia)) as PH38. pose proof (PH 4%nat 0%nat ltac:(lia) ltac:(lia) ltac:(cbn; tauto) ltac:(cbn; lia)) as PH40. pose proof (PH 4%nat 1%nat ltac:(lia) ltac:(lia) ltac:(cbn; tauto) ltac:(cbn; lia)) as PH41. pose proof (PH 4%nat 6%nat ltac:(lia) ltac:(lia) ltac:(cbn; tauto) ltac:(cbn; lia)) as PH46. pose proof (PH 4%nat 7%nat ltac:(lia) ltac:(lia) ltac:(cbn; tauto) ltac:(cbn; lia)) as PH47. pose proof (PH 4%nat 8%nat ltac:(lia) ltac:(lia) ltac:(cbn; tauto) ltac:(cbn; lia)) as PH48. pose proof (PH 5%nat 0%nat ltac:(lia) ltac:(lia) ltac:(cbn; tauto) ltac:(cbn; lia)) as PH50. pose proof (PH 5%nat 1%nat ltac:(lia) ltac:(lia) ltac:(cbn; tauto) ltac:(cbn; lia)) as PH51. pose proof (PH 5%nat 6%nat ltac:(lia) ltac:(lia) ltac:(cbn; tauto) ltac:(cbn; lia)) as PH56. pose proof (PH 5%nat 7%nat ltac:(lia) ltac:(lia) ltac:(cbn; tauto) ltac:(cbn; lia)) as PH57. pose proof (PH 5%nat 8%nat ltac:(lia) ltac:(lia) ltac:(cbn; tauto) ltac:(cbn; lia)) as PH58.
    clear W U Sy Q Vn PN PH.
    use S01. clear S01. use S02. clear S02. use S03. clear S03. use S04. clear S04. use S05. clear S05. use S06. clear S06. use S07. clear S07. use S08. clear S08. use S12. clear S12. use S13. clear S13. use S14. clear S14. use S15. clear S15. use S16. clear S16. use S17. clear S17. use S18. clear S18. use S23. clear S23. use S24. clear S24. use S25. clear S25. use S26. clear S26. use S27. clear S27. use S28. clear S28. use S34. clear S34. use S35. clear S35. use S36. clear S36. use S37. clear S37. use S38. clear S38. use S45. clear S45. use S46. clear S46. use S47. clear S47. use S48. clear S48. use S56. clear S56. use S57. clear S57. use S58. clear S58. use S67. clear S67. use S68. clear S68. use S78. clear S78.
    use PN2. use PN3. use PN4. use PN5.
    use PH20. use PH21. use PH26. use PH27. use PH28. use PH30. use PH31. use PH36. use PH37. use PH38. use PH40. use PH41. use PH46. use PH47. use PH48. use PH50. use PH51. use PH56. use PH57. use PH58.
    assert (Z02 : H 0%nat 2%nat = 0) by lra. use Z02.
    assert (Z13 : H 1%nat 3%nat = 0) by lra. use Z13.
    assert (Z04 : H 0%nat 4%nat = 0) by lra. use Z04.
    assert (Z05 : H 0%nat 5%nat = 0) by lra. use Z05.
    assert (Z06 : H 0%nat 6%nat = 0) by lra. use Z06.
    assert (Z07 : H 0%nat 7%nat = 0) by lra. use Z07.
    assert (Z08 : H 0%nat 8%nat = 0) by lra. use Z08.
    assert (Z14 : H 1%nat 4%nat = 0) by lra. use Z14.
    assert (Z15 : H 1%nat 5%nat = 0) by lra. use Z15.
    assert (Z16 : H 1%nat 6%nat = 0) by lra. use Z16.
    assert (Z17 : H 1%nat 7%nat = 0) by lra. use Z17.
    assert (Z18 : H 1%nat 8%nat = 0) by lra. use Z18.
    assert (Z24 : H 2%nat 4%nat = 0) by lra. use Z24.
    assert (Z25 : H 2%nat 5%nat = 0) by lra. use Z25.
    assert (Z26 : H 2%nat 6%nat = 0) by lra. use Z26.
    assert (Z27 : H 2%nat 7%nat = 0) by lra. use Z27.
    assert (Z28 : H 2%nat 8%nat = 0) by lra. use Z28.
    assert (Z34 : H 3%nat 4%nat = 0) by lra. use Z34.
    assert (Z35 : H 3%nat 5%nat = 0) by lra. use Z35.
    assert (Z36 : H 3%nat 6%nat = 0) by lra. use Z36.
    assert (Z37 : H 3%nat 7%nat = 0) by lra. use Z37.
    assert (Z38 : H 3%nat 8%nat = 0) by lra. use Z38.
    assert (Z0 : N 0%nat = 0) by lra. use Z0.
    assert (Z1 : N 1%nat = 0) by lra. use Z1.
    assert (Z2 : N 2%nat = 0) by lra. use Z2.
    assert (Z3 : N 3%nat = 0) by lra. use Z3.
    assert (Z22 : H 2%nat 2%nat = H 0%nat 0%nat) by lra. use Z22. assert (Z33 : H 3%nat 3%nat = H 1%nat 1%nat) by lra. use Z33. assert (Z23 : H 2%nat 3%nat = H 0%nat 1%nat) by lra. use Z23.
    repeat split; try lra; apply solve_for; first [assumption|lra].
  Qed.
End N2HDM.

Section CPintheDark.
  Variable f : list R -> R.
  Hypothesis GI : gauge_invariant 9 slots_2HDM f.
  Hypothesis EV : even_under 9 [2; 3; 6; 7; 8]%nat f.
  Variable v1 : R.
  Hypothesis V1 : v1 <> 0.
  Variable N : nat -> R.
  Variable H : nat -> nat -> R.
  Hypothesis T : taylor2 9 f (at_ [0; 0; 0; 0; v1; 0; 0; 0; 0]) N H.
  Let K : known 9 slots_2HDM. Proof. right. right. right. left. split; reflexivity. Qed.
  Let W := ward_entry 9 slots_2HDM K f GI (at_ [0; 0; 0; 0; v1; 0; 0; 0; 0]) N H T.
  Let Q : forall k, rotated Charge slots_2HDM (at_ [0; 0; 0; 0; v1; 0; 0; 0; 0]) k = 0. Proof. neutral. Qed.
  Let U i j := unbroken_entry 9 slots_2HDM K f GI (at_ [0; 0; 0; 0; v1; 0; 0; 0; 0]) N H T Charge i j Q.
  Let Sy i j : (i < 9)%nat -> (j < 9)%nat -> H i j = H j i. Proof. apply (proj1 T). Qed.
  Let Vn i : (i < 9)%nat -> In i [2; 3; 6; 7; 8]%nat -> nth i [0; 0; 0; 0; v1; 0; 0; 0; 0] 0 = 0.
  Proof. intros _ I. repeat (destruct I as [<-|I]; [reflexivity|]). contradiction. Qed.
  Let PN := parity_N 9 [2; 3; 6; 7; 8]%nat f EV (at_ [0; 0; 0; 0; v1; 0; 0; 0; 0]) N H T Vn.
  Let PH := parity_H 9 [2; 3; 6; 7; 8]%nat f EV (at_ [0; 0; 0; 0; v1; 0; 0; 0; 0]) N H T Vn.
  Lemma CPintheDark_identities :
    N 0%nat = 0 /\ N 1%nat = 0 /\ N 2%nat = 0 /\ N 3%nat = 0 /\ N 5%nat = 0 /\ N 6%nat = 0 /\ N 7%nat = 0 /\ N 8%nat = 0 /\ H 0%nat 4%nat = 0 /\ H 0%nat 5%nat = 0 /\ H 0%nat 6%nat = 0 /\ H 0%nat 7%nat = 0 /\ H 0%nat 8%nat = 0 /\ H 1%nat 4%nat = 0 /\ H 1%nat 5%nat = 0 /\ H 1%nat 6%nat = 0 /\ H 1%nat 7%nat = 0 /\ H 1%nat 8%nat = 0 /\ H 2%nat 4%nat = 0 /\ H 2%nat 5%nat = 0 /\ H 2%nat 6%nat = 0 /\ H 2%nat 7%nat = 0 /\ H 2%nat 8%nat = 0 /\ H 3%nat 4%nat = 0 /\ H 3%nat 5%nat = 0 /\ H 3%nat 6%nat = 0 /\ H 3%nat 7%nat = 0 /\ H 3%nat 8%nat = 0 /\ H 4%nat 6%nat = 0 /\ H 4%nat 7%nat = 0 /\ H 4%nat 8%nat = 0 /\ H 5%nat 6%nat = 0 /\ H 5%nat 7%nat = 0 /\ H 5%nat 8%nat = 0 /\ H 0%nat 2%nat = 0 /\ H 0%nat 3%nat = 0 /\ H 1%nat 2%nat = 0 /\ H 1%nat 3%nat = 0 /\ H 0%nat 1%nat = 0 /\ H 2%nat 3%nat = 0 /\ H 4%nat 5%nat = 0 /\ H 1%nat 1%nat = H 0%nat 0%nat /\ H 3%nat 3%nat = H 2%nat 2%nat /\ H 5%nat 5%nat = H 0%nat 0%nat /\ N 4%nat = H 0%nat 0%nat * v1.
  Proof.
    pose proof (Sy 1%nat 0%nat ltac:(lia) ltac:(lia)) as S01. pose proof (Sy 2%nat 0%nat ltac:(lia) ltac:(lia)) as S02. pose proof (Sy 3%nat 0%nat ltac:(lia) ltac:(lia)) as S03. pose proof (Sy 4%nat 0%nat ltac:(lia) ltac:(lia)) as S04. pose proof (Sy 5%nat 0%nat ltac:(lia) ltac:(lia)) as S05. pose proof (Sy 6%nat 0%nat ltac:(lia) ltac:(lia)) as S06. pose proof (Sy 7%nat 0%nat ltac:(lia) ltac:(lia)) as S07. pose proof (Sy 8%nat 0%nat ltac:(lia) ltac:(lia)) as S08. pose proof (Sy 2%nat 1%nat ltac:(lia) ltac:(lia)) as S12. pose proof (Sy 3%nat 1%nat ltac:(lia) ltac:(lia)) as S13. pose proof (Sy 4%nat 1%nat ltac:(lia) ltac:(lia)) as S14. pose proof (Sy 5%nat 1%nat ltac:(lia) ltac:(lia)) as S15. pose proof (Sy 6%nat 1%nat ltac:(lia) ltac:(lia)) as S16. pose proof (Sy 7%nat 1%nat ltac:(lia) ltac:(lia)) as S17. pose proof (Sy 8%nat 1%nat ltac:(lia) ltac:(lia)) as S18. pose proof (Sy 3%nat 2%nat ltac:(lia) ltac:(lia)) as S23. pose proof (Sy 4%nat 2%nat ltac:(lia) ltac:(lia)) as S24. pose proof (Sy 5%nat 2%nat ltac:(lia) ltac:(lia)) as S25. pose proof (Sy 6%nat 2%nat ltac:(lia) ltac:(lia)) as S26. pose proof (Sy 7%nat 2%nat ltac:(lia) ltac:(lia)) as S27. pose proof (Sy 8%nat 2%nat ltac:(lia) ltac:(lia)) as S28. pose proof (Sy 4%nat 3%nat ltac:(lia) ltac:(lia)) as S34. pose proof (Sy 5%nat 3%nat ltac:(lia) ltac:(lia)) as S35. pose proof (Sy 6%nat 3%nat ltac:(lia) ltac:(lia)) as S36. pose proof (Sy 7%nat 3%nat ltac:(lia) ltac:(lia)) as S37. pose proof (Sy 8%nat 3%nat ltac:(lia) ltac:(lia)) as S38. pose proof (Sy 5%nat 4%nat ltac:(lia) ltac:(lia)) as S45. pose proof (Sy 6%nat 4%nat ltac:(lia) ltac:(lia)) as S46. pose proof (Sy 7%nat 4%nat ltac:(lia) ltac:(lia)) as S47. pose proof (Sy 8%nat 4%nat ltac:(lia) ltac:(lia)) as S48. pose proof (Sy 6%nat 5%nat ltac:(lia) ltac:(lia)) as S56. pose proof (Sy 7%nat 5%nat ltac:(lia) ltac:(lia)) as S57. pose proof (Sy 8%nat 5%nat ltac:(lia) ltac:(lia)) as S58. pose proof (Sy 7%nat 6%nat ltac:(lia) ltac:(lia)) as S67. pose proof (Sy 8%nat 6%nat ltac:(lia) ltac:(lia)) as S68. pose proof (Sy 8%nat 7%nat ltac:(lia) ltac:(lia)) as S78.
    pose proof (U 0%nat 0%nat ltac:(lia) ltac:(lia)) as U00; evin U00. pose proof (U 0%nat 1%nat ltac:(lia) ltac:(lia)) as U01; evin U01. pose proof (U 0%nat 2%nat ltac:(lia) ltac:(lia)) as U02; evin U02. pose proof (U 0%nat 3%nat ltac:(lia) ltac:(lia)) as U03; evin U03. pose proof (U 0%nat 4%nat ltac:(lia) ltac:(lia)) as U04; evin U04. pose proof (U 0%nat 5%nat ltac:(lia) ltac:(lia)) as U05; evin U05. pose proof (U 0%nat 6%nat ltac:(lia) ltac:(lia)) as U06; evin U06. pose proof (U 0%nat 7%nat ltac:(lia) ltac:(lia)) as U07; evin U07. pose proof (U 0%nat 8%nat ltac:(lia) ltac:(lia)) as U08; evin U08. pose proof (U 1%nat 1%nat ltac:(lia) ltac:(lia)) as U11; evin U11. pose proof (U 1%nat 2%nat ltac:(lia) ltac:(lia)) as U12; evin U12. pose proof (U 1%nat 3%nat ltac:(lia) ltac:(lia)) as U13; evin U13. pose proof (U 1%nat 4%nat ltac:(lia) ltac:(lia)) as U14; evin U14. pose proof (U 1%nat 5%nat ltac:(lia) ltac:(lia)) as U15; evin U15. pose proof (U 1%nat 6%nat ltac:(lia) ltac:(lia)) as U16; evin U16. pose proof (U 1%nat 7%nat ltac:(lia) ltac:(lia)) as U17; evin U17. pose proof (U 1%nat 8%nat ltac:(lia) ltac:(lia)) as U18; evin U18. pose proof (U 2%nat 2%nat ltac:(lia) ltac:(lia)) as U22; evin U22. pose proof (U 2%nat 3%nat ltac:(lia) ltac:(lia)) as U23; evin U23. pose proof (U 2%nat 4%nat ltac:(lia) ltac:(lia)) as U24; evin U24. pose proof (U 2%nat 5%nat ltac:(lia) ltac:(lia)) as U25; evin U25. pose proof (U 2%nat 6%nat ltac:(lia) ltac:(lia)) as U26; evin U26. pose proof (U 2%nat 7%nat ltac:(lia) ltac:(lia)) as U27; evin U27. pose proof (U 2%nat 8%nat ltac:(lia) ltac:(lia)) as U28; evin U28. pose proof (U 3%nat 3%nat ltac:(lia) ltac:(lia)) as U33; evin U33. pose proof (U 3%nat 4%nat ltac:(lia) ltac:(lia)) as U34; evin U34. pose proof (U 3%nat 5%nat ltac:(lia) ltac:(lia)) as U35; evin U35. pose proof (U 3%nat 6%nat ltac:(lia) ltac:(lia)) as U36; evin U36. pose proof (U 3%nat 7%nat ltac:(lia) ltac:(lia)) as U37; evin U37. pose proof (U 3%nat 8%nat ltac:(lia) ltac:(lia)) as U38; evin U38.
    pose proof (W Hypercharge 0%nat ltac:(lia)) as WY0; evin WY0. pose proof (W Hypercharge 1%nat ltac:(lia)) as WY1; evin WY1. pose proof (W Hypercharge 2%nat ltac:(lia)) as WY2; evin WY2. pose proof (W Hypercharge 3%nat ltac:(lia)) as WY3; evin WY3. pose proof (W Hypercharge 4%nat ltac:(lia)) as WY4; evin WY4. pose proof (W Hypercharge 5%nat ltac:(lia)) as WY5; evin WY5. pose proof (W Hypercharge 6%nat ltac:(lia)) as WY6; evin WY6. pose proof (W Hypercharge 7%nat ltac:(lia)) as WY7; evin WY7. pose proof (W Hypercharge 8%nat ltac:(lia)) as WY8; evin WY8. pose proof (W Isospin1 0%nat ltac:(lia)) as WA0; evin WA0. pose proof (W Isospin1 1%nat ltac:(lia)) as WA1; evin WA1. pose proof (W Isospin1 2%nat ltac:(lia)) as WA2; evin WA2. pose proof (W Isospin1 3%nat ltac:(lia)) as WA3; evin WA3. pose proof (W Isospin1 4%nat ltac:(lia)) as WA4; evin WA4. pose proof (W Isospin1 5%nat ltac:(lia)) as WA5; evin WA5. pose proof (W Isospin1 6%nat ltac:(lia)) as WA6; evin WA6. pose proof (W Isospin1 7%nat ltac:(lia)) as WA7; evin WA7. pose proof (W Isospin1 8%nat ltac:(lia)) as WA8; evin WA8. pose proof (W Isospin2 0%nat ltac:(lia)) as WB0; evin WB0. pose proof (W Isospin2 1%nat ltac:(lia)) as WB1; evin WB1. pose proof (W Isospin2 2%nat ltac:(lia)) as WB2; evin WB2. pose proof (W Isospin2 3%nat ltac:(lia)) as WB3; evin WB3. pose proof (W Isospin2 4%nat ltac:(lia)) as WB4; evin WB4. pose proof (W Isospin2 5%nat ltac:(lia)) as WB5; evin WB5. pose proof (W Isospin2 6%nat ltac:(lia)) as WB6; evin WB6. pose proof (W Isospin2 7%nat ltac:(lia)) as WB7; evin WB7. pose proof (W Isospin2 8%nat ltac:(lia)) as WB8; evin WB8.
    pose proof (PN 2%nat ltac:(lia) ltac:(cbn; tauto)) as PN2. pose proof (PN 3%nat ltac:(lia) ltac:(cbn; tauto)) as PN3. pose proof (PN 6%nat ltac:(lia) ltac:(cbn; tauto)) as PN6. pose proof (PN 7%nat ltac:(lia) ltac:(cbn; tauto)) as PN7. pose proof (PN 8%nat ltac:(lia) ltac:(cbn; tauto)) as PN8.
    pose proof (PH 2%nat 0%nat ltac:(lia) ltac:(lia) ltac:(cbn; tauto) ltac:(cbn; lia)) as PH20. pose proof (PH 2%nat 1%nat ltac:(lia) ltac:(lia) ltac:(cbn; tauto) ltac:(cbn; lia)) as PH21. pose proof (PH 2%nat 4%nat ltac:(lia) ltac:(lia) ltac:(cbn; tauto) ltac:(cbn; lia)) as PH24. pose proof (PH 2%nat 5%nat ltac:(lia) ltac:(lia) ltac:(cbn; tauto) ltac:(cbn; lia)) as PH25. pose proof (PH 3%nat 0%nat ltac:(lia) ltac:(lia) ltac:(cbn; tauto) ltac:(cbn; lia)) as PH30. pose proof (PH 3%nat 1%nat ltac:(lia) ltac:(lia) ltac:(cbn; tauto) ltac:(cbn; lia)) as PH31. pose proof (PH 3%nat 4%nat ltac:(lia) ltac:(lia) ltac:(cbn; tauto) ltac:(cbn; lia)) as PH34. pose proof (PH 3%nat 5%nat ltac:(lia) ltac:(lia) ltac:(cbn; tauto) ltac:(cbn; lia)) as PH35. pose proof (PH 6%nat 0%nat ltac:(lia) ltac:(lia) ltac:(cbn; tauto) ltac:(cbn; lia)) as PH60. pose proof (PH 6%nat 1%nat ltac:(lia) ltac:(lia) ltac:(cbn; tauto) ltac:(cbn; lia)) as PH61. pose proof (PH 6%nat 4%nat ltac:(lia) ltac:(lia) ltac:(cbn; tauto) ltac:(cbn; lia)) as PH64. pose proof (PH 6%nat 5%nat ltac:(lia) ltac:(lia) ltac:(cbn; tauto) ltac:(cbn; lia)) as PH65. pose proof (PH 7%nat 0%nat ltac:(lia) ltac:(lia) ltac:(cbn; tauto) ltac:(cbn; lia)) as PH70. pose proof (PH 7%nat 1%nat ltac:(lia) ltac:(lia) ltac:(cbn; tauto) ltac:(cbn; lia)) as PH71. pose proof (PH 7%nat 4%nat ltac:(lia) ltac:(lia) ltac:(cbn; tauto) ltac:(cbn; lia)) as PH74. pose proof (PH 7%nat 5%nat ltac:(lia) ltac:(lia) ltac:(cbn; tauto) ltac:(cbn; lia)) as PH75. pose proof (PH 8%nat 0%nat ltac:(lia) ltac:(lia) ltac:(cbn; tauto) ltac:(cbn; lia)) as PH80. pose proof (PH 8%nat 1%nat ltac:(lia) ltac:(lia) ltac:(cbn; tauto) ltac:(cbn; lia)) as PH81. pose proof (PH 8%nat 4%nat ltac:(lia) ltac:(lia) ltac:(cbn; tauto) ltac:(cbn; lia)) as PH84. pose proof (PH 8%nat 5%nat ltac:(lia) ltac:(lia) ltac:(cbn; tauto) ltac:(cbn; lia)) as PH85.
    clear W U Sy Q Vn PN PH.
    use S01. clear S01. use S02. clear S02. use S03. clear S03. use S04. clear S04. use S05. clear S05. use S06. clear S06. use S07. clear S07. use S08. clear S08. use S12. clear S12. use S13. clear S13. use S14. clear S14. use S15. clear S15. use S16. clear S16. use S17. clear S17. use S18. clear S18. use S23. clear S23. use S24. clear S24. use S25. clear S25. use S26. clear S26. use S27. clear S27. use S28. clear S28. use S34. clear S34. use S35. clear S35. use S36. clear S36. use S37. clear S37. use S38. clear S38. use S45. clear S45. use S46. clear S46. use S47. clear S47. use S48. clear S48. use S56. clear S56. use S57. clear S57. use S58. clear S58. use S67. clear S67. use S68. clear S68. use S78. clear S78.
    use PN2. use PN3. use PN6. use PN7. use PN8.
    use PH20. use PH21. use PH24. use PH25. use PH30. use PH31. use PH34. use PH35. use PH60. use PH61. use PH64. use PH65. use PH70. use PH71. use PH74. use PH75. use PH80. use PH81. use PH84. use PH85.
    assert (Z01 : H 0%nat 1%nat = 0) by lra. use Z01.
    assert (Z23 : H 2%nat 3%nat = 0) by lra. use Z23.
    assert (Z04 : H 0%nat 4%nat = 0) by lra. use Z04.
    assert (Z05 : H 0%nat 5%nat = 0) by lra. use Z05.
    assert (Z06 : H 0%nat 6%nat = 0) by lra. use Z06.
    assert (Z07 : H 0%nat 7%nat = 0) by lra. use Z07.
    assert (Z08 : H 0%nat 8%nat = 0) by lra. use Z08.
    assert (Z14 : H 1%nat 4%nat = 0) by lra. use Z14.
    assert (Z15 : H 1%nat 5%nat = 0) by lra. use Z15.
    assert (Z16 : H 1%nat 6%nat = 0) by lra. use Z16.
    assert (Z17 : H 1%nat 7%nat = 0) by lra. use Z17.
    assert (Z18 : H 1%nat 8%nat = 0) by lra. use Z18.
    assert (Z24 : H 2%nat 4%nat = 0) by lra. use Z24.
    assert (Z25 : H 2%nat 5%nat = 0) by lra. use Z25.
    assert (Z26 : H 2%nat 6%nat = 0) by lra. use Z26.
    assert (Z27 : H 2%nat 7%nat = 0) by lra. use Z27.
    assert (Z28 : H 2%nat 8%nat = 0) by lra. use Z28.
    assert (Z34 : H 3%nat 4%nat = 0) by lra. use Z34.
    assert (Z35 : H 3%nat 5%nat = 0) by lra. use Z35.
    assert (Z36 : H 3%nat 6%nat = 0) by lra. use Z36.
    assert (Z37 : H 3%nat 7%nat = 0) by lra. use Z37.
    assert (Z38 : H 3%nat 8%nat = 0) by lra. use Z38.
    assert (Z0 : N 0%nat = 0) by lra. use Z0.
    assert (Z1 : N 1%nat = 0) by lra. use Z1.
    assert (Z2 : N 2%nat = 0) by lra. use Z2.
    assert (Z3 : N 3%nat = 0) by lra. use Z3.
    assert (Z5 : N 5%nat = 0) by lra. use Z5.
    assert (Z11 : H 1%nat 1%nat = H 0%nat 0%nat) by lra. use Z11. assert (Z33 : H 3%nat 3%nat = H 2%nat 2%nat) by lra. use Z33. assert (Z45 : H 4%nat 5%nat = 0) by (apply (zero_product _ v1); [exact V1|lra]).
    assert (Z55 : H 5%nat 5%nat = H 0%nat 0%nat) by (apply (Rmult_eq_reg_r v1); [lra|exact V1]).
    repeat split; lra.
  Qed.
End CPintheDark.

