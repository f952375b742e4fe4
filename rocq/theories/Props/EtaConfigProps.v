(** C115: configuration, legend and results of the baryogenesis interface. *)
From Coq Require Import Reals Lra.
From Verif.Model Require Import Base Strings Fluid WallProfile Eta Density EtaConfig.
From Verif.Spec Require Import EtaConfigSpec.
From Verif.Proofs Require Import EtaConfigProofs.
Open Scope list_scope.

(** a file is accepted exactly if every line is a setting or other text; the settings count in their order *)
Theorem C115_config : forall lines flags mass, ReadConfigFile (Some lines) = Ok (flags, mass) <->
  exists items, Forall2 says lines items /\ flags = included items /\
    mass = (if existsb (fun i => match i with Massive true => true | _ => false end) items then 1%Z else 0%Z).
Proof. intros. apply (read_config lines (flags, mass)). Qed.
Print Assumptions C115_config.
(** everything else is reported by an exception *)
Theorem C115_config_throws : forall file, (forall r, ReadConfigFile file <> Ok r) -> ReadConfigFile file = Throw RuntimeError.
Proof. intros [lines|] H; [exact (read_config_throws lines H)|reflexivity]. Qed.
Print Assumptions C115_config_throws.
(** five settings are needed *)
Theorem C115_constructor : forall vw TC w lines items, Forall2 says lines items ->
  ((exists i, bind (ReadConfigFile (Some lines)) (construct vw TC w) = Ok i) <-> length (included items) = 5%nat) /\
  forall i, bind (ReadConfigFile (Some lines)) (construct vw TC w) = Ok i -> i_methods i = included items.
Proof.
  intros vw TC w lines items F. unfold ReadConfigFile. rewrite (lines_forward lines items F). cbn [bind fst snd app]. unfold construct. cbn [fst snd].
  destruct (Nat.eqb_spec (length (included items)) 5) as [E|E]; split.
  - split; [intros _; exact E|intros _; eexists; reflexivity].
  - intros i I. apply (f_equal (fun o => match o with Ok x => x | _ => i end)) in I. subst i. reflexivity.
  - split; [intros [i I]; discriminate I|intro X; contradiction].
  - intros i I. discriminate I.
Qed.
Print Assumptions C115_constructor.

(** names and results belong together *)
Theorem C115_legend : forall i, length (i_methods i) = 5%nat -> legend i = Ok (chosen (i_methods i) schemes).
Proof. exact legend_ok. Qed.
Print Assumptions C115_legend.
Theorem C115_results : forall i names etas, length (i_methods i) = 5%nat -> legend i = Ok names -> CalcEta i = Ok etas ->
  length names = length etas /\ forall k name eta, nth_error names k = Some name -> nth_error etas k = Some eta ->
  exists j, nth_error (i_methods i) j = Some true /\ nth_error schemes j = Some name /\
  nth_error [network_eta i top; network_eta i bottom; network_eta i tau; wl_mubl (i_wall i) true; wl_mubl (i_wall i) false] j = Some (Ok eta).
Proof. exact calc_legend. Qed.
Print Assumptions C115_results.
(** there are results as soon as every chosen scheme has one *)
Theorem C115_complete_partial : forall i, length (i_methods i) = 5%nat ->
  (forall o, In o (chosen (i_methods i) [network_eta i top; network_eta i bottom; network_eta i tau; wl_mubl (i_wall i) true; wl_mubl (i_wall i) false]) ->
    exists v, o = Ok v) ->
  exists etas, CalcEta i = Ok etas.
Proof. intros i H A. rewrite (calc_sequence i H). apply sequence_all. exact A. Qed.
Print Assumptions C115_complete_partial.

(** "Massive: no" is accepted, but the schemes with a bottom quark never give a result *)
Theorem C115_massless : forall vw TC w lines items i, Forall2 says lines items ->
  (forall b, In (Massive b) items -> b = false) ->
  bind (ReadConfigFile (Some lines)) (construct vw TC w) = Ok i ->
  nth_error (included items) 1 = Some true \/ nth_error (included items) 2 = Some true ->
  tb_stages (wl_tb w) <> [] -> (exists z, In z (wl_zs w) /\ z <> wl_zmax w) ->
  forall etas, CalcEta i <> Ok etas.
Proof.
  intros vw TC w lines items i F M C N S Z etas E.
  unfold ReadConfigFile in C. rewrite (lines_forward lines items F) in C. cbn [bind fst snd app] in C. unfold construct in C. cbn [fst snd] in C.
  destruct (Nat.eqb_spec (length (included items)) 5) as [L|L]; [|discriminate C].
  apply (f_equal (fun o => match o with Ok x => x | _ => i end)) in C.
  assert (FL : i_flag i = 0%Z).
  { subst i. cbn [i_flag]. rewrite massive_flag_spec.
    destruct (existsb _ items) eqn:X; [|reflexivity]. apply existsb_exists in X. destruct X as [[b|[]|] [I Y]]; try discriminate Y. specialize (M true I). discriminate M. }
  assert (ME : i_methods i = included items) by (subst i; reflexivity).
  assert (W : i_wall i = w) by (subst i; reflexivity). rewrite <- W in S, Z.
  assert (L5 : length (i_methods i) = 5%nat) by (rewrite ME; exact L).
  pose proof (calc_sequence i L5) as CS. rewrite E in CS. symmetry in CS. apply sequence_ok in CS.
  destruct (methods5 i L5) as [a [b [c [d [e MM]]]]]. rewrite <- ME, MM in N. rewrite MM in CS. unfold all_results in CS.
  assert (NO : forall net, net = bottom \/ net = tau -> forall v, network_eta i net <> Ok v).
  { intros net B v. apply (network_throws i net B); try (rewrite FL; discriminate); assumption. }
  assert (IN : In (network_eta i bottom) (chosen [a; b; c; d; e] [network_eta i top; network_eta i bottom; network_eta i tau; wl_mubl (i_wall i) true; wl_mubl (i_wall i) false])
            \/ In (network_eta i tau) (chosen [a; b; c; d; e] [network_eta i top; network_eta i bottom; network_eta i tau; wl_mubl (i_wall i) true; wl_mubl (i_wall i) false])).
  { destruct N as [N|N]; cbn [nth_error] in N; injection N as N; subst; [left|right]; cbn [chosen]; destruct a; try destruct b; cbn [In]; tauto. }
  assert (ALL : forall o, In o (chosen [a; b; c; d; e] [network_eta i top; network_eta i bottom; network_eta i tau; wl_mubl (i_wall i) true; wl_mubl (i_wall i) false]) -> exists v, o = Ok v).
  { clear - CS. intros o O. induction CS as [|x v l vs X CS IH]; [destruct O|]. destruct O as [<-|O]; [exists v; exact X|exact (IH O)]. }
  destruct IN as [I|I]; destruct (ALL _ I) as [v V]; [exact (NO bottom (or_introl eq_refl) v V)|exact (NO tau (or_intror eq_refl) v V)].
Qed.
Print Assumptions C115_massless.

(** two steps of Euler's method and a wall without sources *)
Definition quiet_fluid : fluid :=
  Fluid 0 1 1 1 1 1 0 0 0 0 0 (fun _ => 1) (fun _ => 0) (fun _ => 0) (fun _ => 0) (fun _ th => th) (fun _ th => th) (fun _ th => th).
Definition quiet_wall : wall :=
  Wall 1 [0%R] (fun _ _ => 0) 3 (Tableau [(0, [])] [1%R] [0%R]) (fun t h _ _ _ => (true, - (t + h))%R) quiet_fluid
    (fun _ => WallPoint 1 1 1 0 0 0) (fun _ => Ok 0).
Definition file (answers : list string) (massive : string) : list str :=
  s2l "### config file" :: [] :: map (fun a => s2l ("Include:    " ++ a)) answers ++ [s2l "VIA Ansatz treating the bottom quark massive"; s2l ("Massive:    " ++ massive)].

Lemma file_reads : forall massive : bool,
  ReadConfigFile (Some (file ["no"; "yes"; "no"; "no"; "no"]%string (if massive then "yes" else "no"))) =
  Ok ([false; true; false; false; false], if massive then 1%Z else 0%Z).
Proof. intros []; reflexivity. Qed.
Lemma quiet_result : exists v, network_eta (Interface [false; true; false; false; false] 1 1 1 quiet_wall) bottom = Ok v.
Proof.
  unfold network_eta, asymmetry, quiet_wall. cbn [i_wall wl_zs wl_zmax wl_spline wl_fuel wl_tb wl_ctl wl_fluid wl_point i_flag i_TC i_vw values].
  assert (S : (0 < / 10 ^ 8 < 1)%R). { replace (10 ^ 8)%R with 100000000%R by ring. lra. }
  unfold Calc_nL. destruct (Rlt_dec 1 0) as [A|A]; [exfalso; lra|]. set (s := (/ 10 ^ 8)%R) in *. clearbody s.
  cbn [integrate]. destruct (Req_EM_T 1 0) as [B|B]; [exfalso; lra|].
  destruct (Rlt_dec (Rabs (0 - 1)) (Rabs (- s))) as [C|C].
  { exfalso. rewrite Rabs_Ropp, (Rabs_pos_eq s) in C by lra. rewrite Rabs_left in C by lra. lra. }
  cbn [bind stages tb_stages]. cbn [network_rhs]. unfold bot_rhs at 1. cbn [flag_mass Z.eqb Pos.eqb bind app].
  destruct (Req_EM_T (1 + - s) 0) as [D|D]; [exfalso; lra|].
  destruct (Rlt_dec (Rabs (0 - (1 + - s))) (Rabs (- (1 + - s)))) as [E|E].
  { exfalso. rewrite Rabs_Ropp in E. replace (0 - (1 + - s))%R with (- (1 + - s))%R in E by ring. rewrite Rabs_Ropp in E. lra. }
  unfold bot_rhs at 1. cbn [flag_mass Z.eqb Pos.eqb bind app].
  destruct (Req_EM_T (1 + - s + - (1 + - s)) 0) as [F|F]; [|exfalso; apply F; ring].
  cbn [bind]. eexists. reflexivity.
Qed.
Theorem C115_complete_refuted : ~ (forall vw TC w lines mass i,
  ReadConfigFile (Some lines) = Ok mass -> construct vw TC w mass = Ok i ->
  (exists etas, CalcEta (Interface (i_methods i) 1 (i_vw i) (i_TC i) (i_wall i)) = Ok etas) ->
  exists etas, CalcEta i = Ok etas).
Proof.
  intro H. specialize (H 1%R 1%R quiet_wall _ _ _ (file_reads false) eq_refl). destruct H as [etas E].
  - cbn [i_methods i_vw i_TC i_wall fst snd]. rewrite calc_sequence by reflexivity. cbn [chosen i_methods all_results]. destruct quiet_result as [v V].
    unfold sequence. rewrite V. eexists. reflexivity.
  - revert E. destruct (proj1 (C115_config (file ["no"; "yes"; "no"; "no"; "no"]%string "no") [false; true; false; false; false] 0%Z) (file_reads false)) as [items [F [I M]]].
    assert (B : forall b, In (Massive b) items -> b = false).
    { intros [] X; [|reflexivity]. destruct (existsb _ items) eqn:Y in M; [discriminate M|].
      exfalso. assert (Z : existsb (fun i => match i with Massive true => true | _ => false end) items = true) by (apply existsb_exists; exists (Massive true); split; [exact X|reflexivity]).
      congruence. }
    apply (C115_massless 1%R 1%R quiet_wall _ items _ F B); [rewrite (file_reads false); reflexivity|rewrite <- I; left; reflexivity|discriminate|].
    exists 0%R. split; [left; reflexivity|]. cbn [quiet_wall wl_zmax]. lra.
Qed.
Print Assumptions C115_complete_refuted.

(** a setup that throws does not leave the object as it was: new velocity and temperature stay with the old wall *)
Theorem C115_setup_atomic_refuted : ~ (forall prepare c2hdm vw TC i e,
  fst (setNumerics prepare c2hdm vw TC i) = Throw e -> snd (setNumerics prepare c2hdm vw TC i) = i).
Proof.
  intro H. specialize (H (fun _ _ => UB) false 1%R 2%R (Interface [] 1 1 1 quiet_wall) RuntimeError eq_refl).
  apply (f_equal i_TC) in H. cbn in H. lra.
Qed.
Print Assumptions C115_setup_atomic_refuted.
(** what stays: the choice of schemes and mass flag, and without success the wall *)
Theorem C115_setup_partial : forall prepare c2hdm vw TC i,
  let r := setNumerics prepare c2hdm vw TC i in
  i_methods (snd r) = i_methods i /\ i_flag (snd r) = i_flag i /\ (i_vw (snd r) = vw) /\ i_TC (snd r) = TC /\ (fst r = Ok tt -> prepare vw TC = Ok (i_wall (snd r))) /\ (fst r <> Ok tt -> i_wall (snd r) = i_wall i).
Proof.
  intros prepare c2hdm vw TC i r. unfold r, setNumerics. destruct c2hdm; [destruct (prepare vw TC)|]; cbn [fst snd i_methods i_flag i_vw i_TC i_wall]; repeat split; try congruence; discriminate.
Qed.
Print Assumptions C115_setup_partial.

Example C115_nonvacuous : ReadConfigFile (Some (file ["yes"; "YES"; "no"; "No"; "yes # comment"]%string "yes")) = Ok ([true; true; false; false; true], 1%Z).
Proof. reflexivity. Qed.
Example C115_nonvacuous_throws : ReadConfigFile (Some (file ["yes"; "perhaps"]%string "yes")) = Throw RuntimeError.
Proof. reflexivity. Qed.
Example C115_nonvacuous_result : exists eta, CalcEta (Interface [false; true; false; false; true] 1 1 1 quiet_wall) = Ok [eta; 0%R] /\
  legend (Interface [false; true; false; false; true] 1 1 1 quiet_wall) = Ok [s2l "eta_TopBot"; s2l "eta_PlasmaVelocitiesReplaced"].
Proof.
  destruct quiet_result as [v V]. exists v. split; [|reflexivity]. rewrite calc_sequence by reflexivity. cbn [chosen i_methods all_results].
  change (network_eta (Interface [false; true; false; false; true] 1 1 1 quiet_wall) bottom) with (network_eta (Interface [false; true; false; false; false] 1 1 1 quiet_wall) bottom).
  unfold sequence. rewrite V. reflexivity.
Qed.
