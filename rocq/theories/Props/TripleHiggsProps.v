(** C134: triple Higgs couplings in the mass basis. *)
From Coq Require Import Reals Lra Lia List Permutation Arith.
From Verif Require Import Model.TripleHiggs Spec.TripleHiggsSpec Proofs.TripleHiggsProofs.
Import ListNotations.
Open Scope R_scope.

(** the coupling is the third derivative of the potential along the three rows *)
Theorem C134_third_derivative : forall n L1 L2 L3 L4 v S i j k, symmetric2 n L2 -> symmetric3 n L3 -> symmetric4 n L4 ->
  physical n S (LambdaHiggs_3 n L3 L4 v) i j k = third (polynomial n L1 L2 L3 L4) v (S i) (S j) (S k).
Proof. exact physical_third. Qed.
(** it does not depend on the order of the particles *)
Theorem C134_symmetric : forall n S lambda i j k, symmetric3 n lambda ->
  physical n S lambda i j k = physical n S lambda j i k /\ physical n S lambda i j k = physical n S lambda i k j.
Proof. exact physical_symmetric. Qed.

(** every row gets one name, of its sector *)
Theorem C134_R2HDM_partial : forall rot s,
  unmixed (seq 0 8) rot (fun x => match x with ChA => [0; 2] | ChB => [1; 3] | Odd => [5; 7] | Even => [4; 6] end%nat) s ->
  Permutation (map s (seq 0 3)) [ChA; ChB; Odd] -> Permutation (map s (seq 3 5)) [ChA; ChB; Odd; Even; Even] ->
  exists r, order_R2HDM (large rot) = Order r /\ Permutation r (seq 0 8) /\ map s r = [ChA; ChB; ChA; ChB; Odd; Odd; Even; Even] /\
    (forall k, In k [0; 1; 4]%nat -> (nth k r 0 < 3)%nat) /\ (nth 6 r 0 < nth 7 r 0)%nat.
Proof. exact good_R2HDM. Qed.
(** in the C2HDM all neutral fields are Odd *)
Theorem C134_C2HDM_partial : forall rot s,
  unmixed (seq 0 3) rot (fun x => match x with ChA => [0; 2] | ChB => [1; 3] | Odd => [5; 7] | Even => [] end%nat) s ->
  unmixed (seq 3 5) rot (fun x => match x with ChA => [0; 2] | ChB => [1; 3] | Odd => [4; 5; 6; 7] | Even => [] end%nat) s ->
  Permutation (map s (seq 0 3)) [ChA; ChB; Odd] -> Permutation (map s (seq 3 5)) [ChA; ChB; Odd; Odd; Odd] ->
  exists r, order_C2HDM (large rot) = Order r /\ Permutation r (seq 0 8) /\ map s r = [ChA; ChB; ChA; ChB; Odd; Odd; Odd; Odd] /\
    (forall k, In k [0; 1; 4]%nat -> (nth k r 0 < 3)%nat) /\ (nth 5 r 0 < nth 6 r 0 < nth 7 r 0)%nat.
Proof. exact good_C2HDM. Qed.
(** with a CP-even scalar between 124 and 126 GeV that one has the first name, whatever the member MSM holds *)
Theorem C134_N2HDM_partial : forall rot s MSM m,
  unmixed (seq 0 9) rot (fun x => match x with ChA => [0; 1] | ChB => [2; 3] | Odd => [4; 5] | Even => [6; 7; 8] end%nat) s ->
  Permutation (map s (seq 0 3)) [ChA; ChB; Odd] -> Permutation (map s (seq 3 6)) [ChA; ChB; Odd; Even; Even; Even] ->
  (forall i j, (i <= j)%nat -> (j < 9)%nat -> m i <= m j) -> (exists i, (i < 9)%nat /\ s i = Even /\ 124 < m i < 126) ->
  exists r, order_N2HDM (large rot) MSM m = Order r /\ Permutation r (seq 0 9) /\ map s r = [ChA; ChB; ChA; ChB; Odd; Odd; Even; Even; Even] /\
    (forall k, In k [0; 1; 4]%nat -> (nth k r 0 < 3)%nat) /\ 124 < m (nth 6 r 0%nat) < 126 /\ m (nth 7 r 0%nat) <= m (nth 8 r 0%nat).
Proof. exact good_N2HDM. Qed.
(** the three scalars are in ascending order unless one of them is the first row: then it is the last one *)
Theorem C134_CxSM_partial : forall rot s,
  unmixed (seq 0 6) rot (fun x => match x with Gp => [0] | Gm => [1] | G0 => [2] | Mix => [3; 4; 5] | _ => [] end%nat) s ->
  Permutation (map s (seq 0 6)) [Gp; Gm; G0; Mix; Mix; Mix] ->
  exists r, order_CxSM (large rot) = Order r /\ Permutation r (seq 0 6) /\ map s r = [Gp; Gm; G0; Mix; Mix; Mix] /\ (nth 3 r 0 < nth 4 r 0)%nat /\
    (s 0%nat <> Mix -> (nth 4 r 0 < nth 5 r 0)%nat) /\ (s 0%nat = Mix -> nth 5 r 0 = 0)%nat.
Proof. exact good_CxSM. Qed.
Theorem C134_CPintheDark_partial : forall rot s,
  unmixed (seq 0 9) rot (fun x => match x with Gp => [0] | Gm => [1] | Hp => [2] | Hm => [3] | Hsm => [4] | G0 => [5] | Mix => [6; 7; 8] end%nat) s ->
  Permutation (map s (seq 0 9)) [Gp; Gm; Hp; Hm; Hsm; G0; Mix; Mix; Mix] ->
  exists r, order_CPintheDark (large rot) = Order r /\ Permutation r (seq 0 9) /\ map s r = [Gp; Gm; Hp; Hm; Hsm; G0; Mix; Mix; Mix] /\
    (nth 6 r 0 < nth 7 r 0)%nat /\ (s 0%nat <> Mix -> (nth 7 r 0 < nth 8 r 0)%nat) /\ (s 0%nat = Mix -> nth 8 r 0 = 0)%nat.
Proof. exact good_CPintheDark. Qed.
(** whatever the rows contain: a name is the last row whose first large column is that of the name, or row 0 *)
Theorem C134_CPintheDark_positions : forall big, exists r, order_CPintheDark big = Order r /\ length r = 9%nat /\
  forall c, (c < 6)%nat -> last_or_zero 9 (first_column big c) (nth c r 0%nat).
Proof. exact dark_positions. Qed.
Theorem C134_CxSM_positions : forall big, exists r, order_CxSM big = Order r /\ length r = 6%nat /\
  forall c, (c < 3)%nat -> last_or_zero 6 (first_column big c) (nth c r 0%nat).
Proof. exact CxSM_positions. Qed.
(** missing neutral rows are row 0, a fourth one is an exception *)
Theorem C134_C2HDM_neutral : forall big, let l := filter (big [4; 5; 6; 7]%nat) (seq 3 5) in
  ((length l <= 3)%nat -> exists r, order_C2HDM big = Order r /\ forall k, (k < 3)%nat -> nth (5 + k) r 0%nat = nth k l 0%nat) /\
  ((3 < length l)%nat -> order_C2HDM big = ThrowsOrder).
Proof. exact C2HDM_neutral. Qed.

(** two names for one row: massless Goldstone bosons that are mixed by the diagonalisation, of a mass matrix without mixed sectors *)
Theorem C134_goldstone_refuted : exists rot M m r, orthonormal 8 rot /\ diagonalises 8 rot M m /\ (forall i, (3 <= i < 8)%nat -> 0 < m i) /\
  (forall i j, M i j <> 0 -> exists x, In i (cols_2HDM x) /\ In j (cols_2HDM x)) /\
  order_R2HDM (large rot) = Order r /\ nth 0 r 0%nat = nth 4 r 0%nat /\ ~ In 0%nat r.
Proof. exact goldstone_refuted. Qed.
(** A and H of the same mass: the array posN is written behind its end *)
Theorem C134_degenerate_refuted : exists rot M m, orthonormal 8 rot /\ diagonalises 8 rot M m /\ (forall i, (3 <= i < 8)%nat -> 0 < m i) /\
  (forall i j, M i j <> 0 -> exists x, In i (cols_2HDM x) /\ In j (cols_2HDM x)) /\ order_R2HDM (large rot) = UndefinedOrder.
Proof. exact AH_refuted. Qed.
(** a massless scalar in the first row of the CxSM: the lightest is named last *)
Theorem C134_lightest_refuted : exists rot M m s r, orthonormal 6 rot /\ diagonalises 6 rot M m /\ unmixed (seq 0 6) rot cols_CxSM s /\
  Permutation (map s (seq 0 6)) [Gp; Gm; G0; Mix; Mix; Mix] /\ order_CxSM (large rot) = Order r /\
  m (nth 5 r 0%nat) < m (nth 3 r 0%nat) < m (nth 4 r 0%nat).
Proof. exact lightest_refuted. Qed.
(** the names of a point without a scalar at 125 GeV depend on the point before it *)
Theorem C134_stale_refuted : exists first second a b c, first a <= first b <= first c /\ second a <= second b <= second c /\
  snd (named 0 second (a, b, c)) = (a, b, c) /\ snd (named (fst (named 0 first (a, b, c))) second (a, b, c)) = (c, a, b) /\ second b < second c.
Proof. exact named_stale. Qed.

(** the columns of the output are those of the legend, each i <= j <= k is there once *)
Theorem C134_output : forall n tree ct cw, row n tree ct cw =
  map (fun '(p, (i, j, k)) => - (match p with Tree => tree | CT => ct | CW => cw end) i j k) (legend n).
Proof. exact row_legend. Qed.
Theorem C134_legend : forall n, NoDup (legend n) /\ forall p i j k, In (p, (i, j, k)) (legend n) <-> (i <= j <= k /\ k < n)%nat.
Proof. exact legend_once. Qed.

(** the quartic potential x^4 / 24 + x^3 / 6 at x = 2: the third derivative is 3 *)
Example C134_nonvacuous_third : symmetric2 1 (fun _ _ => 0) /\ symmetric3 1 (fun _ _ _ => 1) /\ symmetric4 1 (fun _ _ _ _ => 1) /\
  physical 1 (fun _ _ => 1) (LambdaHiggs_3 1 (fun _ _ _ => 1) (fun _ _ _ _ => 1) (fun _ => 2)) 0 0 0 = 3.
Proof.
  split; [intros i j _ _; reflexivity|]. split; [intros i j k _ _ _; split; reflexivity|]. split; [intros i j k l _ _ _ _; repeat split; reflexivity|].
  unfold physical, LambdaHiggs_3. cbn. ring.
Qed.
(** unmixed rows of the R2HDM *)
Example C134_nonvacuous_R2HDM : exists rot s, unmixed (seq 0 8) rot cols_2HDM s /\ Permutation (map s (seq 0 3)) [ChA; ChB; Odd] /\
  Permutation (map s (seq 3 5)) [ChA; ChB; Odd; Even; Even] /\ rot 2%nat 7%nat = 3 / 5.
Proof.
  exists (rows [unit_row 0; unit_row 1; mixed_row 5 7 (4 / 5) (3 / 5); unit_row 2; unit_row 3; mixed_row 5 7 (3 / 5) (- (4 / 5)); unit_row 4; unit_row 6]),
    (fun i => nth i [ChA; ChB; Odd; ChA; ChB; Odd; Even; Even] ChA).
  split; [|split; [reflexivity|split; [reflexivity|reflexivity]]].
  intros i I x. apply in_seq in I. do 8 (destruct i as [|i]; [destruct x; unfold rows, unit_row, mixed_row; cbn [cols_2HDM fold_right nth Nat.eqb];
    rewrite ?abs_neg45, ?Rabs_R0, ?Rabs_R1, ?(Rabs_right (3 / 5)), ?(Rabs_right (4 / 5)) by lra;
    (split; intros Y; [first [reflexivity|exfalso; lra]|first [discriminate|lra]])|]); exfalso; lia.
Qed.
(** a point of the N2HDM with the second CP-even scalar at 125 GeV *)
Example C134_nonvacuous_N2HDM : exists rot s m, unmixed (seq 0 9) rot cols_N2HDM s /\ Permutation (map s (seq 0 3)) [ChA; ChB; Odd] /\
  Permutation (map s (seq 3 6)) [ChA; ChB; Odd; Even; Even; Even] /\ (forall i j, (i <= j)%nat -> (j < 9)%nat -> m i <= m j) /\
  exists i, (i < 9)%nat /\ s i = Even /\ 124 < m i < 126.
Proof.
  exists (rows [unit_row 0; unit_row 2; unit_row 4; unit_row 6; unit_row 7; unit_row 1; unit_row 3; unit_row 5; unit_row 8]),
    (fun i => nth i [ChA; ChB; Odd; Even; Even; ChA; ChB; Odd; Even] ChA), (fun i => nth i [0; 0; 0; 90; 125; 300; 300; 310; 400] 0).
  split; [|split; [reflexivity|split; [|split]]].
  - intros i I x. apply in_seq in I. do 9 (destruct i as [|i]; [destruct x; unfold rows, unit_row; cbn [cols_N2HDM fold_right nth Nat.eqb];
      rewrite ?Rabs_R0, ?Rabs_R1; (split; intros Y; [first [reflexivity|exfalso; lra]|first [discriminate|lra]])|]); exfalso; lia.
  - cbn. apply (Permutation_app_comm [Even; Even] [ChA; ChB; Odd; Even]).
  - intros i j I J. do 9 (destruct i as [|i]; [do 9 (destruct j as [|j]; [cbn [nth]; try lra; exfalso; lia|]); exfalso; lia|]); exfalso; lia.
  - exists 4%nat. cbn [nth]. split; [lia|]. split; [reflexivity|lra].
Qed.

Print Assumptions C134_third_derivative.
Print Assumptions C134_symmetric.
Print Assumptions C134_R2HDM_partial.
Print Assumptions C134_C2HDM_partial.
Print Assumptions C134_N2HDM_partial.
Print Assumptions C134_CxSM_partial.
Print Assumptions C134_CPintheDark_partial.
Print Assumptions C134_CPintheDark_positions.
Print Assumptions C134_CxSM_positions.
Print Assumptions C134_C2HDM_neutral.
Print Assumptions C134_goldstone_refuted.
Print Assumptions C134_degenerate_refuted.
Print Assumptions C134_lightest_refuted.
Print Assumptions C134_stale_refuted.
Print Assumptions C134_output.
Print Assumptions C134_legend.
