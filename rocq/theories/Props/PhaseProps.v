(** C12, C15, C17, C19, C60, C61: phases and the phase list. *)
From Coq Require Import Sorted Permutation.
From Verif.Model Require Import Base Phase.
From Verif.Spec Require Import PhaseSpec.
From Verif.Proofs Require Import PhaseProofs VacuumProofs.
Open Scope Z_scope.

(** a minimum with label 0, the state in which TrackPhase returns minima *)
Definition mk (t : Z) (g : nat) : minimum := {| temp := t; tag := g; edge := 0 |}.
Definition never_coincide (i : nat) (q p : phase) : compare_result :=
  {| ext_existing := []; ext_new := []; coincide := false |}.

(** C12 *)
Theorem C12_phase_is_sorted_table :
  forall tracked later,
    tracked <> [] ->
    let p := AddAll (make_phase tracked) later in
    increasing (temps p) /\
    (forall t, In t (temps p) <-> In t (map temp (tracked ++ later))) /\
    (forall t g, In (t, g) (map (fun m => (temp m, tag m)) (mins p)) <->
                 exists m, first_at (tracked ++ later) m /\ t = temp m /\ g = tag m) /\
    is_least (T_low p) (map temp (tracked ++ later)) /\
    is_greatest (T_high p) (map temp (tracked ++ later)).
Proof. exact phase_history. Qed.
Print Assumptions C12_phase_is_sorted_table.

Example C12_nonvacuous :
  let p := AddAll (make_phase [mk 5 1; mk 7 2; mk 5 3]) [mk 1 4; mk 6 5; mk 9 6] in
  map (fun m => (temp m, tag m)) (mins p) = [(1, 4%nat); (5, 1%nat); (6, 5%nat); (7, 2%nat); (9, 6%nat)]
  /\ T_low p = 1 /\ T_high p = 9.
Proof. repeat split. Qed.

(** A default-constructed Phase filled with Add alone does not know its range. *)
Theorem C12_default_constructed_refuted :
  exists m, let p := AddAll empty_phase [m] in
    temps p = [temp m] /\ ~ is_least (T_low p) (temps p) /\ ~ is_greatest (T_high p) (temps p).
Proof.
  exists (mk 5 0). split; [reflexivity|]. split; intros [[H|[]] _]; discriminate.
Qed.
Print Assumptions C12_default_constructed_refuted.

(** C61: Phase::Get *)
Theorem C61_get_stored :
  forall track tracked later m,
    let p := AddAll (make_phase tracked) later in
    In m (mins p) -> Get track p (temp m) = Ok (p, m).
Proof. exact get_stored. Qed.
Print Assumptions C61_get_stored.

Theorem C61_get_only_adds :
  forall track tracked later T p' m,
    tracked <> [] ->
    let p := AddAll (make_phase tracked) later in
    Get track p T = Ok (p', m) ->
    increasing (temps p') /\ is_least (T_low p') (temps p') /\ is_greatest (T_high p') (temps p') /\
    (p' = p /\ In m (mins p) /\ (forall x, In x (mins p) -> Z.abs (T - temp m) <= Z.abs (T - temp x)) \/
     exists start, In start (mins p) /\ temp start <> T /\
       (forall x, In x (mins p) -> Z.abs (T - temp start) <= Z.abs (T - temp x)) /\
       (exists l, track start T = l ++ [m]) /\
       (forall t, In t (temps p') <-> In t (temps p) \/ In t (map temp (track start T)))).
Proof. exact get_only_adds. Qed.
Print Assumptions C61_get_only_adds.

Theorem C61_get_never_fails :
  forall track tracked later T,
    tracked <> [] -> exists p' m, Get track (AddAll (make_phase tracked) later) T = Ok (p', m).
Proof. exact get_never_fails. Qed.
Print Assumptions C61_get_never_fails.

Example C61_nonvacuous :
  let p := make_phase [mk 0 1; mk 10 2] in
  let track (s : minimum) (T : Z) := if T =? 7 then [mk 9 4; mk 7 5] else [] in
  (exists p', Get track p 7 = Ok (p', mk 7 5) /\ temps p' = [0; 7; 9; 10]) /\
  Get track p 3 = Ok (p, set_edge (mk 0 1) 0) /\ Get track p 10 = Ok (p, set_edge (mk 10 2) 1).
Proof. split; [eexists|]; repeat split. Qed.

(** C15 *)
Theorem C15_pairs_exact :
  forall ps,
    reachable ps ->
    let l := assign_ids (sort_by_Thigh ps) in
    (forall c, In c (setCoexPhases l) ->
       exists i j f t, (i < j)%nat /\ nth_error l i = Some f /\ nth_error l j = Some t /\
         false_phase c = f /\ true_phase c = t /\ overlap f t /\ T_high t <= T_high f /\
         pid (false_phase c) < pid (true_phase c) /\
         (forall T, c_low c <= T <= c_high c <->
                    T_low f <= T <= T_high f /\ T_low t <= T <= T_high t)) /\
    (forall i j f t, (i < j)%nat -> nth_error l i = Some f -> nth_error l j = Some t -> overlap f t ->
       exists c, In c (setCoexPhases l) /\ false_phase c = f /\ true_phase c = t) /\
    NoDup (map (fun c => (pid (false_phase c), pid (true_phase c))) (setCoexPhases l)) /\
    (forall k c, nth_error (setCoexPhases l) k = Some c -> pair_id c = Z.of_nat k).
Proof. exact coex_reachable. Qed.
Print Assumptions C15_pairs_exact.

Definition three_phases : list phase :=
  fst (addPhase (fun _ => []) never_coincide
    (fst (addPhase (fun _ => []) never_coincide
      (fst (addPhase (fun _ => []) never_coincide [] (make_phase [mk 0 1; mk 5 2; mk 9 3])))
      (make_phase [mk 12 6; mk 11 5; mk 8 4])))
    (make_phase [mk 20 6; mk 25 5; mk 30 4])).

Lemma three_phases_reachable : reachable three_phases.
Proof. unfold three_phases. repeat apply reach_add. apply reach_nil. Qed.

Example C15_nonvacuous :
  map (fun c => (pid (false_phase c), pid (true_phase c), c_low c, c_high c))
      (setCoexPhases (assign_ids (sort_by_Thigh three_phases))) = [(1, 2, 8, 9)].
Proof. reflexivity. Qed.

(** C17 *)
Theorem C17_stored_phases_well_formed :
  forall ps, reachable ps -> forall q, In q ps -> well_formed q /\ ends_labelled q.
Proof. exact reachable_well_formed. Qed.
Print Assumptions C17_stored_phases_well_formed.

Theorem C17_earlier_phases_kept :
  forall ps retrack cmp tracked,
    reachable ps ->
    exists kept new,
      fst (addPhase retrack cmp ps (make_phase tracked)) = kept ++ new /\
      Forall2 extends ps kept /\ (length new <= 1)%nat.
Proof. exact registration_keeps. Qed.
Print Assumptions C17_earlier_phases_kept.

Theorem C17_phase_recorded :
  forall ps retrack cmp tracked,
    reachable ps -> (3 <= length (mins (make_phase tracked)))%nat ->
    exists q, In q (fst (addPhase retrack cmp ps (make_phase tracked))) /\
      forall m, In m tracked -> In (temp m) (temps q).
Proof. exact registration_records. Qed.
Print Assumptions C17_phase_recorded.

Theorem C17_final_ids :
  forall ps,
    let l := assign_ids (sort_by_Thigh ps) in
    (forall i p, nth_error l i = Some p -> pid p = Z.of_nat i) /\
    Permutation (map (fun p => (T_low p, T_high p, mins p)) ps) (map (fun p => (T_low p, T_high p, mins p)) l) /\
    (forall i j p q, (i <= j)%nat -> nth_error l i = Some p -> nth_error l j = Some q -> T_high q <= T_high p).
Proof. exact final_order. Qed.
Print Assumptions C17_final_ids.

Example C17_nonvacuous :
  map temps three_phases = [[0; 5; 9]; [8; 11; 12]; [20; 25; 30]] /\
  map pid (assign_ids (sort_by_Thigh three_phases)) = [0; 1; 2].
Proof. split; reflexivity. Qed.

(** False for the phase list that setCoexRegion leaves behind when it patches a gap: the
    patched phase keeps the default id 0, so that two phases share an id and a pair of
    coexisting phases consists of phase 0 and phase 0. *)
Theorem C17_ids_after_patching_refuted :
  exists ps patch retrack cmp threshold st',
    reachable ps /\
    setCoexRegion patch retrack cmp false threshold 3
      {| r_phases := assign_ids (sort_by_Thigh ps); r_status := TrSuccess; r_coex := false |} = Some st' /\
    map pid (r_phases st') = [0; 1; 2; 0] /\
    exists c, In c (setCoexPhases (r_phases st')) /\ pid (false_phase c) = pid (true_phase c).
Proof.
  exists three_phases, (fun _ lo hi => make_phase [mk lo 1; mk (lo + 1) 2; mk hi 3]),
    (fun _ => []), never_coincide, 1.
  eexists. split; [exact three_phases_reachable|]. split; [vm_compute; reflexivity|].
  split; [reflexivity|]. eexists. split; [left; reflexivity|reflexivity].
Qed.
Print Assumptions C17_ids_after_patching_refuted.

(** C60 *)
Theorem C60_edge_counts :
  forall ps, reachable ps ->
    (forall t n, In (t, n) (edge_counts ps) <->
       (exists p, In p ps /\ (t = T_low p \/ t = T_high p)) /\
       n = Z.of_nat (length (filter (aliveb t) ps))) /\
    StronglySorted (fun a b => fst b < fst a) (edge_counts ps).
Proof. exact counts_reachable. Qed.
Print Assumptions C60_edge_counts.

Theorem C60_region_status :
  forall patch retrack cmp threshold fuel ps,
    reachable ps -> ps <> [] ->
    exists st',
    setCoexRegion patch retrack cmp true threshold (S fuel)
      {| r_phases := ps; r_status := TrSuccess; r_coex := false |} = Some st' /\
    r_phases st' = ps /\ (r_coex st' = true <-> two_coexist ps) /\
    (r_status st' = TrNoCoverage <-> exists t, gap_at ps t) /\
    (r_status st' = TrSuccess <-> ~ exists t, gap_at ps t).
Proof. exact region_status. Qed.
Print Assumptions C60_region_status.

Example C60_nonvacuous :
  edge_counts three_phases = [(30, 1); (20, 0); (12, 1); (9, 2); (8, 1); (0, 0)] /\
  gap_at three_phases 20 /\ two_coexist three_phases.
Proof.
  split; [reflexivity|]. split.
  - split; [|split].
    + eexists. split; [do 2 right; left; reflexivity|reflexivity].
    + eexists. split; [left; reflexivity|reflexivity].
    + intros p [<-|[<-|[<-|[]]]]; vm_compute; intros [A B]; destruct B; congruence.
  - exists O, 1%nat. eexists. eexists. split; [lia|]. split; [reflexivity|]. split; [reflexivity|]. reflexivity.
Qed.

(** C19: false in general. *)
Theorem C19_overlap_test_safe_refuted :
  exists new old track glob,
    well_formed new /\ well_formed old /\ DoGlobMinOverlap track glob new old = UB.
Proof. exact glob_overlap_refuted. Qed.
Print Assumptions C19_overlap_test_safe_refuted.

(** exactly when it goes wrong: the new phase lies strictly inside the old one *)
Theorem C19_overlap_test_exact_partial :
  forall track glob new old,
    well_formed new -> well_formed old ->
    (DoGlobMinOverlap track glob new old = UB <-> T_low old < T_low new /\ T_high new < T_high old).
Proof. exact glob_overlap_exact. Qed.
Print Assumptions C19_overlap_test_exact_partial.

(** its value in all other cases: phases with a single minimum never block, phases apart in
    temperature always do, and otherwise both ends of the common range must be global *)
Theorem C19_overlap_value_partial :
  forall track glob new old,
    ((length (mins new) <= 1)%nat \/ (length (mins old) <= 1)%nat -> DoGlobMinOverlap track glob new old = Ok true) /\
    (well_formed new -> well_formed old ->
     (~ overlap new old -> DoGlobMinOverlap track glob new old = Ok false) /\
     (overlap new old -> ~ (T_low old < T_low new /\ T_high new < T_high old) ->
      exists hi lo hi' m1 lo' m2,
        (hi = new /\ lo = old \/ hi = old /\ lo = new) /\ T_high lo <= T_high hi /\
        Get track hi (T_high lo) = Ok (hi', m1) /\ Get track lo (T_low hi') = Ok (lo', m2) /\
        DoGlobMinOverlap track glob new old = Ok (glob m1 && glob m2))).
Proof.
  intros track glob new old. split; [exact (glob_overlap_short track glob new old)|]. intros Hn Ho.
  split; [exact (glob_overlap_apart track glob new old Hn Ho)|exact (glob_overlap_value track glob new old Hn Ho)].
Qed.
Print Assumptions C19_overlap_value_partial.

Example C19_nonvacuous :
  let a := make_phase [mk 0 1; mk 9 3] in
  let b := make_phase [mk 5 1; mk 12 3] in
  DoGlobMinOverlap (fun s T => [mk T 2]) (fun m => Nat.eqb (tag m) 2) b a = Ok true.
Proof. reflexivity. Qed.
