(** Witness: an unsuccessful percolation ends the whole program (C66). *)
From Coq Require Import QArith.
From Verif.Model Require Import Base History Tracer Report.
From Verif.Spec Require Import ReportSpec.
From Verif.Proofs Require Import ReportProofs TableProofs StrengthProofs.
Open Scope Z_scope.

Definition nucl_input : user_input :=
  {| i_vwall := 0.95%Q; i_perc_prbl := 0.71%Q; i_compl_prbl := 0.01%Q; i_ewsr_check := 0; i_nlo_check := false; i_gw := true; i_which := 2 |}.
Definition no_perc : oracles := oracles_of (fun _ _ => -1)%Q Cr_Success Te_Success.

Lemma abort_refuted :
  exists inp o, i_which inp = 2 /\ fst (o_nucl o) = Te_Success /\
    (forall s, run_pair 1 inp 5 o s = Throw RuntimeError) /\
    forall show vevs legCT init content header rest line ct p t,
      content = header ++ nl :: line ++ nl :: rest -> ~ In nl header -> ~ In nl line ->
      init header line = Ok (ct, p, t) -> pt_pairs p = [o] -> pt_tracing p = Tr_Success -> pt_coex p = Cx_Success ->
      main show vevs legCT 1 5 inp init 2 1000 content = Throw RuntimeError.
Proof.
  exists nucl_input, no_perc. split; [reflexivity|]. split; [reflexivity|]. split; [reflexivity|].
  intros show vevs legCT init content header rest line ct p t -> N1 N2 I P1 P2 P3.
  destruct (lines_of_total rest) as (ls & L).
  unfold main. rewrite (read_file_spec _ _ _ _ (header :: line :: ls)).
  2:{ apply lines_cons; [exact N1|]. apply lines_cons; [exact N2|exact L]. }
  cbn [hd in_range]. change (2 <=? 1) with false. change (2 <=? 1 + 1) with true. change (1 + 1 <=? 1000) with true. cbn [andb each].
  unfold process at 1. cbn [rows no_report length]. change (1000 - 2 + 1 <=? Z.of_nat 0) with false. cbv iota.
  rewrite I. cbn [bind]. unfold TransitionTracer. rewrite P1, P2, P3. reflexivity.
Qed.

(** ** A small run used in the examples *)
Definition demo_show (x : dbl) : str := match x with None => s2l "nan" | Some q => to_string (Z.to_nat (Qnum q)) end.
Definition demo_point (os : list oracles) : point :=
  {| pt_nlo := true; pt_ewsr := 3; pt_tracing := Tr_Success; pt_coex := if (length os =? 0)%nat then Cx_NoCoexPairs else Cx_Success;
     pt_pairs := os; pt_history := fun _ => Ok ([0; 1]%nat, [0]%nat) |}.
(** line "1" has two pairs, all others none *)
Definition demo_init (h l : str) : outcome (list dbl * point * str) :=
  Ok ([Some 0%Q], demo_point (if str_eqb l (s2l "1") then [demo_oracles; skipped_oracles] else []), s2l "0.5").
