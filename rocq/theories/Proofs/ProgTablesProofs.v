(** Proofs about the tables. *)
From Coq Require Import QArith List ZArith Ascii Arith Bool Lia.
From Verif Require Import Model.Minim Model.PotPlotter Model.ProgTables Spec.ProgTablesSpec Proofs.PotPlotterProofs.
Import ListNotations.
Local Open Scope Z_scope.

Lemma content_seq : forall (f : nat -> quantity) r l, (forall i, content r (f i) = Val (nth_error l i)) ->
  map (content r) (map f (seq 0 (length l))) = map (fun x => Val (Some x)) l.
Proof.
  intros f r l H. rewrite map_map. rewrite (map_ext _ (fun i => Val (nth_error l i)) H). clear f r H.
  induction l as [|x l IH]; [reflexivity|]. cbn [length seq map nth_error]. f_equal. rewrite <- seq_shift, map_map. exact IH.
Qed.
Lemma put_nonempty : forall v, v <> [] -> put v = map (fun x => Val (Some x)) v.
Proof. intros [|x v] H; [contradiction|reflexivity]. Qed.

Lemma row_BSMPT_ok : forall e r, r_ct r <> [] -> e_min e <> [] ->
  with_ewpt e (if strong e then ratio e else Some (inject_Z (status_number (e_status e)))) r ->
  row_BSMPT (r_in r) (r_ct r) e = map (content r) (header_BSMPT (length (r_in r)) (length (r_ct r)) (length (e_min e))).
Proof.
  intros e r C M [T [V [W X]]]. unfold row_BSMPT, header_BSMPT. rewrite !map_app.
  rewrite (content_seq QInput r (r_in r)) by reflexivity. rewrite (content_seq QCT r (r_ct r)) by reflexivity.
  rewrite (content_seq QVev r (e_min e)) by (intros i; cbn [content]; rewrite W; reflexivity).
  rewrite !put_nonempty by assumption. cbn [map content]. rewrite T, V, X. destruct (strong e); [reflexivity|]. destruct (e_status e); reflexivity.
Qed.
Lemma row_EWBG_ok : forall e r, strong e = true -> r_ct r <> [] -> e_min e <> [] -> r_eta r <> [] -> length (r_phases r) = 6%nat -> with_ewpt e (ratio e) r ->
  row_EWBG (r_in r) (r_ct r) e (r_vw r) (r_LW r) (r_phases r) (r_eta r) (length (r_eta r)) =
  map (content r) (header_EWBG (length (r_in r)) (length (r_ct r)) (length (e_min e)) (length (r_eta r))).
Proof.
  intros e r S C M E P [T [V [W X]]]. unfold row_EWBG, header_EWBG. rewrite S.
  replace (match length (r_eta r) with 0%nat => [QNothing] | _ => map QEta (seq 0 (length (r_eta r))) end) with (map QEta (seq 0 (length (r_eta r))))
    by (destruct (r_eta r); [contradiction|reflexivity]).
  rewrite <- P. rewrite !map_app.
  rewrite (content_seq QInput r (r_in r)) by reflexivity. rewrite (content_seq QCT r (r_ct r)) by reflexivity.
  rewrite (content_seq QVev r (e_min e)) by (intros i; cbn [content]; rewrite W; reflexivity).
  rewrite (content_seq QPhase r (r_phases r)) by reflexivity. rewrite (content_seq QEta r (r_eta r)) by reflexivity.
  rewrite !put_nonempty by assumption. cbn [map content]. rewrite T, V, X. reflexivity.
Qed.
(** without a strong transition the ratio stands behind the vevs *)
Lemma row_EWBG_weak : forall e r LW phases eta, strong e = false -> r_ct r <> [] -> e_min e <> [] -> r_eta r <> [] -> with_ewpt e (ratio e) r ->
  r_LW r = inject_Z (-1) -> r_phases r = repeat (inject_Z (-50)) 6 -> r_eta r = repeat (inject_Z 0) (length (r_eta r)) ->
  row_EWBG (r_in r) (r_ct r) e (r_vw r) LW phases eta (length (r_eta r)) =
  map (content r) (map QInput (seq 0 (length (r_in r))) ++ map QCT (seq 0 (length (r_ct r))) ++ [QTc; QVc] ++ map QVev (seq 0 (length (e_min e))) ++ [QXi] ++
                   [QVw; QLW] ++ map QPhase (seq 0 6) ++ map QEta (seq 0 (length (r_eta r)))).
Proof.
  intros e r LW phases eta S C M E [T [V [W X]]] L P Z. unfold row_EWBG. rewrite S. rewrite !map_app.
  rewrite (content_seq QInput r (r_in r)) by reflexivity. rewrite (content_seq QCT r (r_ct r)) by reflexivity.
  rewrite (content_seq QVev r (e_min e)) by (intros i; cbn [content]; rewrite W; reflexivity).
  change (seq 0 6) with (seq 0 (length (repeat (inject_Z (-50)) 6))). rewrite <- P.
  rewrite (content_seq QPhase r (r_phases r)) by reflexivity. rewrite (content_seq QEta r (r_eta r)) by reflexivity.
  rewrite !put_nonempty by assumption. cbn [map content]. rewrite T, V, X, L, P.
  assert (R : forall (x : Q) n, map (fun y => Val (Some y)) (repeat x n) = repeat (Val (Some x)) n).
  { intros x n. induction n as [|n IH]; [reflexivity|]. cbn [repeat map]. rewrite IH. reflexivity. }
  rewrite R. replace (map (fun x => Val (Some x)) (r_eta r)) with (repeat (Val (Some (inject_Z 0))) (length (r_eta r))) by (rewrite Z at 2; symmetry; apply R).
  reflexivity.
Qed.
Lemma row_CT_ok : forall r, r_ct r <> [] -> row_CT (r_in r) (r_ct r) = map (content r) (header_CT (length (r_in r)) (length (r_ct r))).
Proof.
  intros r C. unfold row_CT, header_CT. rewrite map_app. rewrite (content_seq QInput r (r_in r)), (content_seq QCT r (r_ct r)) by reflexivity.
  rewrite put_nonempty by exact C. reflexivity.
Qed.
Lemma row_NLOVEV_ok : forall r, r_ct r <> [] -> r_vev0 r <> [] ->
  row_NLOVEV (r_in r) (r_ct r) (r_vev0 r) (r_vNLO r) = map (content r) (header_NLOVEV (length (r_in r)) (length (r_ct r)) (length (r_vev0 r))).
Proof.
  intros r C M. unfold row_NLOVEV, header_NLOVEV. rewrite !map_app.
  rewrite (content_seq QInput r (r_in r)), (content_seq QCT r (r_ct r)), (content_seq QVevZero r (r_vev0 r)) by reflexivity.
  rewrite !put_nonempty by assumption. reflexivity.
Qed.

(** * The summary *)
Lemma read_at_none : forall v n, (length v < n)%nat -> read_at v n = None.
Proof.
  intros v n. induction n as [|n IH]; intros H; [lia|]. cbn [read_at]. destruct (read_at v n) eqn:E; [|reflexivity].
  destruct (nth_error v n) eqn:N; [|reflexivity]. assert (n < length v)%nat by (apply nth_error_Some; congruence). lia.
Qed.
Lemma read_at_firstn : forall v n, (n <= length v)%nat -> read_at v n = Some (firstn n v).
Proof.
  intros v n. induction n as [|n IH]; intros H; [reflexivity|]. cbn [read_at]. rewrite IH by lia.
  destruct (nth_error v n) as [x|] eqn:N; [|apply nth_error_None in N; lia]. f_equal.
  clear IH. revert n N H. induction v as [|y v IHv]; intros n N H; [cbn in H; lia|]. destruct n as [|n].
  - cbn in N. injection N as ->. reflexivity.
  - cbn [nth_error] in N. change (firstn (S n) (y :: v)) with (y :: firstn n v). change (firstn (S (S n)) (y :: v)) with (y :: firstn (S n) v).
    cbn [app]. f_equal. apply IHv; [exact N|cbn in H; lia].
Qed.
Lemma summary_weak : forall e eta n, e_status e = SUCCESS -> strong e = false -> (0 < n)%nat -> summary_EWBG e eta n = None.
Proof.
  intros e eta n S W N. unfold summary_EWBG. rewrite W. unfold succeeded. rewrite S. apply read_at_none. exact N.
Qed.

(** * The lines *)
Lemma uses_after : forall F L lines c, (1 < c)%Z ->
  uses F L c lines = map Point (firstn (Z.to_nat (L - Z.max c F + 1)) (skipn (Z.to_nat (Z.max c F - c)) lines)).
Proof.
  intros F L. induction lines as [|l lines IH]; intros c C; cbn [uses].
  - rewrite skipn_nil, firstn_nil. reflexivity.
  - destruct (Z.ltb_spec L c) as [LC|LC].
    + replace (Z.to_nat (L - Z.max c F + 1)) with 0%nat by lia. reflexivity.
    + destruct (Z.eqb_spec c 1); [lia|]. cbn [app negb]. rewrite IH by lia. destruct (Z.leb_spec F c) as [FC|FC].
      * destruct (Z.leb_spec c L); [|lia]. cbn [andb app]. replace (Z.max c F) with c by lia. replace (Z.max (c + 1) F) with (c + 1) by lia.
        rewrite !Z.sub_diag. change (Z.to_nat 0) with 0%nat. cbn [skipn].
        replace (Z.to_nat (L - c + 1)) with (S (Z.to_nat (L - (c + 1) + 1))) by lia. reflexivity.
      * cbn [andb app]. replace (Z.max c F) with F by lia. replace (Z.max (c + 1) F) with F by lia.
        replace (Z.to_nat (F - c)) with (S (Z.to_nat (F - (c + 1)))) by lia. reflexivity.
Qed.
Lemma uses_lines : forall F L l rest, 1 <= F -> F <= L ->
  uses F L 1 (l :: rest) = Header l :: map Point (firstn (Z.to_nat (L - Z.max 2 F + 1)) (skipn (Z.to_nat (Z.max 2 F) - 1) (l :: rest))).
Proof.
  intros F L l rest HF HL. cbn [uses]. destruct (Z.ltb_spec L 1); [lia|]. cbn [Z.eqb Pos.eqb app negb]. rewrite andb_false_r. cbn [app].
  f_equal. rewrite uses_after by lia. change (1 + 1) with 2. replace (Z.to_nat (Z.max 2 F) - 1)%nat with (S (Z.to_nat (Z.max 2 F - 2))) by lia. reflexivity.
Qed.
Lemma getlines_app : forall l t c, ~ In (ascii_of_nat 10) l -> getlines c (l ++ ascii_of_nat 10 :: t) = (rev c ++ l) :: getlines [] t.
Proof.
  induction l as [|x l IH]; intros t c H.
  - cbn [app]. cbn [getlines]. rewrite Ascii.eqb_refl. rewrite app_nil_r. reflexivity.
  - cbn [app getlines]. destruct (Ascii.eqb_spec x (ascii_of_nat 10)) as [E|E]; [exfalso; apply H; left; exact E|].
    rewrite IH by (intros I; apply H; right; exact I). cbn [rev]. rewrite <- app_assoc. reflexivity.
Qed.
(** the text of lines that all end with a line end *)
Lemma getlines_lines : forall ls, Forall (fun l => ~ In (ascii_of_nat 10) l) ls ->
  getlines [] (concat (map (fun l => l ++ [ascii_of_nat 10]) ls)) = ls ++ [[]].
Proof.
  induction ls as [|l ls IH]; intros H; [reflexivity|]. inversion H as [|? ? H1 H2]; subst. cbn [map concat]. rewrite <- app_assoc. cbn [app].
  rewrite getlines_app by exact H1. cbn [rev app]. rewrite IH by exact H2. reflexivity.
Qed.
Lemma lines_getline_ok : forall ls, Forall (fun l => ~ In (ascii_of_nat 10) l) ls ->
  lines_getline (concat (map (fun l => l ++ [ascii_of_nat 10]) ls)) = ls /\ lines_eof (concat (map (fun l => l ++ [ascii_of_nat 10]) ls)) = ls ++ [[]].
Proof.
  intros ls H. unfold lines_getline, lines_eof. rewrite getlines_lines by exact H. rewrite last_last, removelast_last. split; reflexivity.
Qed.
