(** C104: the models take every parameter from the column with its name, but accept lines that lack some. *)
From Coq Require Import List QArith Bool Lia String Ascii.
From Verif.Model Require Import Base ReadLine.
From Verif.Spec Require Import ReadSpec.
From Verif.Proofs Require Import ReadProofs.
Import ListNotations.
Close Scope Q_scope.

Notation line idx i vals rest := (List.app (if idx : bool then [Num i] else []) (List.app (map Num vals) rest)).

Theorem C104_SM_partial : forall idx i vals rest, List.length vals = 2 -> exists par,
  SM_read idx (line idx i vals rest) = Ok par /\ by_name SM_columns SM_parameters vals par.
Proof. exact SM_names. Qed.
Theorem C104_CxSM_partial : forall idx i vals rest, List.length vals = 12 -> exists par,
  CxSM_read idx (line idx i vals rest) = Ok par /\ by_name CxSM_columns CxSM_parameters vals par.
Proof. exact CxSM_names. Qed.
Theorem C104_R2HDM_partial : forall idx i ty vals rest, List.length vals = 7 -> exists par,
  R2HDM_read idx (line idx i (inject_Z ty :: vals) rest) = Ok par /\ by_name R2HDM_columns R2HDM_parameters (inject_Z ty :: vals) par.
Proof. exact R2HDM_names. Qed.
Theorem C104_C2HDM_partial : forall idx i ty vals rest, List.length vals = 8 -> exists par,
  C2HDM_read idx (line idx i (inject_Z ty :: vals) rest) = Ok par /\ by_name C2HDM_columns C2HDM_parameters (inject_Z ty :: vals) par.
Proof. exact C2HDM_names. Qed.
Theorem C104_N2HDM_partial : forall idx i vals rest, List.length vals = 12 -> exists par,
  N2HDM_read idx (line idx i vals rest) = Ok par /\ by_name N2HDM_columns N2HDM_parameters vals par.
Proof. exact N2HDM_names. Qed.
Theorem C104_CPintheDark_partial : forall idx i vals rest, List.length vals = 27 -> exists par,
  CPintheDark_read idx (line idx i vals rest) = Ok par /\ by_name CPintheDark_columns CPintheDark_parameters vals par.
Proof. exact CPintheDark_names. Qed.

Definition reader := bool -> list token -> outcome (list Q).
Definition readers : list (nat * reader) :=
  [(2, SM_read); (12, CxSM_read); (8, R2HDM_read); (9, C2HDM_read); (12, N2HDM_read); (27, CPintheDark_read)].

Theorem C104_short_line : forall n read, In (n, read) readers -> forall a vals, List.length (a :: vals) < n ->
  read false (map Num (a :: vals)) = read false (map Num (padded n (last vals a) (a :: vals))).
Proof. intros n read I a vals. cbn in I. repeat (destruct I as [E | I]; [injection E as <- <-; apply read_short|]). destruct I. Qed.
Theorem C104_malformed_number : forall n read, In (n, read) readers -> forall vals rest, List.length vals < n ->
  read false (List.app (map Num vals) (Bad :: rest)) = read false (map Num (padded n 0%Q vals)).
Proof. intros n read I vals rest. cbn in I. repeat (destruct I as [E | I]; [injection E as <- <-; apply read_bad|]). destruct I. Qed.
Theorem C104_malformed_index : forall n read, In (n, read) readers -> forall rest,
  read true (Bad :: rest) = read false (map Num (repeat 0%Q n)).
Proof. intros n read I rest. cbn in I. repeat (destruct I as [E | I]; [injection E as <- <-; apply read_bad_index|]). destruct I. Qed.
Theorem C104_empty_line : forall n read, In (n, read) readers -> read false [] = UB.
Proof. intros n read I. cbn in I. repeat (destruct I as [E | I]; [injection E as <- <-; reflexivity|]). destruct I. Qed.

(** the full claim, a line without enough numbers is rejected, is false: a C2HDM line without its last column sets tan beta to
    m12^2, a CxSM line whose points are labelled by text is read as a point with vanishing couplings *)
Theorem C104_rejects_refuted :
  (exists vals par, List.length vals = 8 /\ C2HDM_read false (map Num vals) = Ok par /\ nth 6 par 0%Q = 2000%Q /\ nth 7 par 0%Q = 2000%Q) /\
  (exists vals, List.length vals = 12 /\ ~ In 0%Q vals /\ CxSM_read true (Bad :: map Num vals) = Ok (repeat 0%Q 12)).
Proof.
  split.
  - exists (map inject_Z [1; 3; 1; 1; 1; 1; 1; 2000]%Z). eexists. repeat split; reflexivity.
  - exists (map inject_Z [1; 2; 3; 4; 5; 6; 7; 8; 9; 10; 11; 12]%Z). split; [reflexivity|]. split; [|reflexivity].
    cbn. intros H. repeat (destruct H as [H | H]; [discriminate H|]). destruct H.
Qed.

Example C104_nonvacuous : exists par,
  C2HDM_read true (line true (7 # 1)%Q (inject_Z 2 :: map inject_Z [3; 1; 5; 6; 7; 8; 2000; 10]%Z) [Bad]) = Ok par /\
  par = map inject_Z [3; 1; 5; 6; 7; 8; 2000; 10; 2]%Z.
Proof. eexists. split; reflexivity. Qed.
Example C104_nonvacuous_short : List.length [1%Q; 2%Q] < 12 /\ In (12, N2HDM_read) readers /\
  N2HDM_read false (map Num [1%Q; 2%Q]) = Ok [2; 2; 2; 2; 2; 2; 2; 2; 2; 2; 2; 1]%Q.
Proof. split; [cbn; lia|]. split; [cbn; tauto|reflexivity]. Qed.

Print Assumptions C104_SM_partial.
Print Assumptions C104_CxSM_partial.
Print Assumptions C104_R2HDM_partial.
Print Assumptions C104_C2HDM_partial.
Print Assumptions C104_N2HDM_partial.
Print Assumptions C104_CPintheDark_partial.
Print Assumptions C104_short_line.
Print Assumptions C104_malformed_number.
Print Assumptions C104_malformed_index.
Print Assumptions C104_empty_line.
Print Assumptions C104_rejects_refuted.
