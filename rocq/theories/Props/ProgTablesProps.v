(** C139: rows and headers of the tables of the programs. *)
From Coq Require Import QArith Qabs List ZArith Ascii Arith Bool Lia.
From Verif Require Import Model.Base Model.Minim Model.PotPlotter Model.ProgTables Spec.ProgTablesSpec Proofs.PotPlotterProofs Proofs.ProgTablesProofs.
Import ListNotations.
Local Open Scope Z_scope.

(** Each number stands in the column whose label names it: BSMPT (the ratio is replaced by the status when there is no strong
    transition), CalcCT, NLOVEV, and CalculateEWBG for points with a strong transition. *)
Theorem C139_BSMPT : forall e r, r_ct r <> [] -> e_min e <> [] ->
  with_ewpt e (if strong e then ratio e else Some (inject_Z (status_number (e_status e)))) r ->
  row_BSMPT (r_in r) (r_ct r) e = map (content r) (header_BSMPT (length (r_in r)) (length (r_ct r)) (length (e_min e))).
Proof. exact row_BSMPT_ok. Qed.
Theorem C139_CalcCT : forall r, r_ct r <> [] -> row_CT (r_in r) (r_ct r) = map (content r) (header_CT (length (r_in r)) (length (r_ct r))).
Proof. exact row_CT_ok. Qed.
Theorem C139_NLOVEV : forall r, r_ct r <> [] -> r_vev0 r <> [] ->
  row_NLOVEV (r_in r) (r_ct r) (r_vev0 r) (r_vNLO r) = map (content r) (header_NLOVEV (length (r_in r)) (length (r_ct r)) (length (r_vev0 r))).
Proof. exact row_NLOVEV_ok. Qed.
Theorem C139_EWBG_partial : forall e r, strong e = true -> r_ct r <> [] -> e_min e <> [] -> r_eta r <> [] -> length (r_phases r) = 6%nat -> with_ewpt e (ratio e) r ->
  row_EWBG (r_in r) (r_ct r) e (r_vw r) (r_LW r) (r_phases r) (r_eta r) (length (r_eta r)) =
  map (content r) (header_EWBG (length (r_in r)) (length (r_ct r)) (length (e_min e)) (length (r_eta r))).
Proof. exact row_EWBG_ok. Qed.
(** Without a strong transition CalculateEWBG writes the ratio behind the vevs: all the vevs stand one column too early. *)
Theorem C139_EWBG_weak_partial : forall e r LW phases eta, strong e = false -> r_ct r <> [] -> e_min e <> [] -> r_eta r <> [] -> with_ewpt e (ratio e) r ->
  r_LW r = inject_Z (-1) -> r_phases r = repeat (inject_Z (-50)) 6 -> r_eta r = repeat (inject_Z 0) (length (r_eta r)) ->
  row_EWBG (r_in r) (r_ct r) e (r_vw r) LW phases eta (length (r_eta r)) =
  map (content r) (map QInput (seq 0 (length (r_in r))) ++ map QCT (seq 0 (length (r_ct r))) ++ [QTc; QVc] ++ map QVev (seq 0 (length (e_min e))) ++ [QXi] ++
                   [QVw; QLW] ++ map QPhase (seq 0 6) ++ map QEta (seq 0 (length (r_eta r)))).
Proof. exact row_EWBG_weak. Qed.
Theorem C139_EWBG_refuted : exists e r, strong e = false /\ with_ewpt e (ratio e) r /\ e_min e = [100; 200]%Q /\ r_LW r = inject_Z (-1) /\
  r_phases r = repeat (inject_Z (-50)) 6 /\ r_eta r = [inject_Z 0] /\
  exists k1 k2 row header, row = row_EWBG (r_in r) (r_ct r) e (r_vw r) (r_LW r) (r_phases r) (r_eta r) 1 /\
    header = header_EWBG (length (r_in r)) (length (r_ct r)) 2 1 /\ length row = length header /\
    nth_error header k1 = Some QXi /\ nth_error row k1 = Some (content r (QVev 0)) /\
    nth_error header k2 = Some (QVev 1) /\ nth_error row k2 = Some (content r QXi) /\ content r (QVev 1) <> content r QXi /\ content r (QVev 0) <> content r QXi.
Proof.
  set (e := {| e_status := NOTNLOSTABLE; e_vc := 223; e_Tc := 300; e_min := [100; 200]%Q |}).
  exists e, {| r_in := [125]%Q; r_ct := [7]%Q; r_Tc := 300; r_vc := 223; r_xi := ratio e; r_vev := [100; 200]%Q; r_vev0 := []; r_vNLO := 0; r_vw := 1 # 10;
               r_LW := inject_Z (-1); r_phases := repeat (inject_Z (-50)) 6; r_eta := [inject_Z 0] |}.
  split; [reflexivity|]. split; [repeat split|]. split; [reflexivity|]. split; [reflexivity|]. split; [reflexivity|]. split; [reflexivity|].
  exists 4%nat, 6%nat. eexists. eexists. split; [reflexivity|]. split; [reflexivity|].
  split; [reflexivity|]. split; [reflexivity|]. split; [reflexivity|]. split; [reflexivity|]. split; [reflexivity|]. split; vm_compute; discriminate.
Qed.

(** The summary for a single point: with a strong transition all the results are read; a transition that is found with a vanishing
    vev has no results, and reading them ends the program with an exception. *)
Theorem C139_summary_partial : forall e eta n, strong e = true -> length eta = n -> summary_EWBG e eta n = Some eta.
Proof.
  intros e eta n S L. unfold summary_EWBG. rewrite S. unfold strong in S. apply andb_prop in S. destruct S as [S _]. rewrite S.
  rewrite read_at_firstn by lia. rewrite <- L, firstn_all. reflexivity.
Qed.
Theorem C139_summary_refuted : exists minim ew stable dim tree e, 
  PTFinder minim ew stable dim tree 40 0 300 = Ok e /\ e_status e = SUCCESS /\ (e_vc e == 0)%Q /\
  forall eta n, (0 < n)%nat -> summary_EWBG e eta n = None.
Proof.
  (** a vev of 246 below one thousandth of a GeV and none above *)
  exists (fun T _ => if Qle_bool T (1 # 1000) then [246]%Q else [0]%Q), (fun v => hd 0%Q v), (fun _ => true), 1%nat, [246]%Q. eexists.
  split; [vm_compute; reflexivity|]. split; [reflexivity|]. split; [reflexivity|]. intros eta n N.
  apply summary_weak; [reflexivity|vm_compute; reflexivity|exact N].
Qed.

(** The first line is the header and the lines from the first (at least the second) to the last requested one are the points. *)
Theorem C139_lines : forall F L l rest, 1 <= F -> F <= L ->
  uses F L 1 (l :: rest) = Header l :: map Point (firstn (Z.to_nat (L - Z.max 2 F + 1)) (skipn (Z.to_nat (Z.max 2 F) - 1) (l :: rest))).
Proof. exact uses_lines. Qed.
(** For a file of lines that all end with a line end, the loop over getline sees these lines; the loop of NLOVEV sees one more. *)
Theorem C139_file : forall ls, Forall (fun l => ~ In (ascii_of_nat 10) l) ls -> lines_getline (concat (map (fun l => l ++ [ascii_of_nat 10]) ls)) = ls.
Proof. intros ls H. exact (proj1 (lines_getline_ok ls H)). Qed.
Theorem C139_NLOVEV_lines_refuted : forall ls, Forall (fun l => ~ In (ascii_of_nat 10) l) ls -> ls <> [] ->
  uses 1 (Z.of_nat (length ls) + 1) 1 (lines_eof (concat (map (fun l => l ++ [ascii_of_nat 10]) ls))) = Header (hd [] ls) :: map Point (tl ls ++ [[]]).
Proof.
  intros ls H N. rewrite (proj2 (lines_getline_ok ls H)). destruct ls as [|l ls]; [contradiction|]. cbn [app]. rewrite uses_lines by (cbn [length]; lia).
  cbn [hd tl]. do 2 f_equal. change (Z.max 2 1) with 2. change (Z.to_nat 2 - 1)%nat with 1%nat. cbn [skipn].
  replace (Z.to_nat (Z.of_nat (length (l :: ls)) + 1 - 2 + 1)) with (length (ls ++ [[]])) by (rewrite app_length; cbn [length]; lia).
  apply firstn_all.
Qed.

(** * The hypotheses are met *)
Example C139_nonvacuous_strong : exists e, strong e = true /\ ratio e = Some (200 / 100)%Q /\
  row_BSMPT [125]%Q [7]%Q e = [Val (Some 125); Val (Some 7); Val (Some 100); Val (Some 200); Val (Some (200 / 100)); Val (Some 200)]%Q.
Proof. exists {| e_status := SUCCESS; e_vc := 200; e_Tc := 100; e_min := [200]%Q |}. repeat split. Qed.
Example C139_nonvacuous_status : exists e, strong e = false /\
  row_BSMPT [125]%Q [7]%Q e = [Val (Some 125); Val (Some 7); Val (Some 300); Val (Some 0); Val (Some (-5 # 1)); Val (Some 0)]%Q.
Proof. exists {| e_status := NLOVEVZEROORINF; e_vc := 0; e_Tc := 300; e_min := [0]%Q |}. repeat split. Qed.
Example C139_nonvacuous_lines : uses 2 3 1 [["a"]; ["b"]; ["c"]; ["d"]]%char = [Header ["a"]; Point ["b"]; Point ["c"]]%char.
Proof. reflexivity. Qed.

Print Assumptions C139_BSMPT.
Print Assumptions C139_CalcCT.
Print Assumptions C139_NLOVEV.
Print Assumptions C139_EWBG_partial.
Print Assumptions C139_EWBG_weak_partial.
Print Assumptions C139_EWBG_refuted.
Print Assumptions C139_summary_partial.
Print Assumptions C139_summary_refuted.
Print Assumptions C139_lines.
Print Assumptions C139_file.
Print Assumptions C139_NLOVEV_lines_refuted.
