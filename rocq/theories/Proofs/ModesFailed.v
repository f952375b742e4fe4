(** Mode 2 when no phase can be traced from the inner temperatures. *)
From Coq Require Import ZArith List Lia Bool.
From Verif.Model Require Import Base Phase MultiStep Modes.
From Verif.Spec Require Import ModesSpec.
Import ListNotations.
Open Scope Z_scope.


Lemma loop2_failed retrack cmp Tlow Thigh one mid2 :
  (forall k T, mid2 k T = {| t2_mins := []; t2_up := None; t2_down := None |}) -> 0 < one -> Tlow + 2 * one <= Thigh ->
  forall n k tl th ps, th - tl <= Z.of_nat n ->
  exists log, mode2_loop retrack cmp Tlow Thigh one mid2 (S n) k tl th ps = Ok (ps, log) /\
    (tl < th -> exists r, log = (tl, th) :: r) /\
    forall i x y, nth_error log i = Some x -> nth_error log (S i) = Some y ->
      fst y = (if fst x + one <? Thigh then fst x + one else fst x) /\ snd y = (if Tlow + one <? snd x then snd x - one else snd x).
Proof.
  intros F P W. induction n as [|n IH]; intros k tl th ps D.
  - exists []. cbn [mode2_loop]. destruct (Z.ltb_spec tl th); [lia|]. split; [reflexivity|]. split; [lia|].
    intros [|i] x y E; discriminate E.
  - remember (S n) as m. cbn [mode2_loop]. subst m. destruct (Z.ltb_spec tl th) as [L|L].
    + rewrite !F. cbn [t2_mins]. change (make_phase []) with empty_phase. cbn [T_low T_high empty_phase].
      rewrite Z.ltb_irrefl. unfold glob_end. cbn [t2_down t2_up].
      set (tl' := if tl + one <? Thigh then tl + one else tl). set (th' := if Tlow + one <? th then th - one else th).
      destruct (IH (S (S k)) tl' th' ps) as (log & E & H1 & H2).
      { subst tl' th'. destruct (Z.ltb_spec (tl + one) Thigh); destruct (Z.ltb_spec (Tlow + one) th); lia. }
      rewrite E. cbn [bind fst snd]. exists ((tl, th) :: log). split; [reflexivity|]. split; [intros _; exists log; reflexivity|].
      intros [|i] x y E1 E2.
      * cbn in E1. injection E1 as <-. cbn [nth_error] in E2. destruct log as [|z r]; [discriminate E2|].
        injection E2 as <-. destruct (Z.lt_ge_cases tl' th') as [L'|L'].
        -- destruct (H1 L') as (r' & E3). injection E3 as -> _. cbn [fst snd]. split; reflexivity.
        -- exfalso. cbn [mode2_loop] in E. destruct (Z.ltb_spec tl' th'); [lia|]. discriminate E.
      * cbn [nth_error] in E1, E2. exact (H2 i x y E1 E2).
    + exists []. split; [reflexivity|]. split; [lia|]. intros [|i] x y E; discriminate E.
Qed.
