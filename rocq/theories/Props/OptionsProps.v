(** C56, C73, C74, C90: options of CalcTemps and CalcGW. *)
From Coq Require Import QArith Lqa.
From Verif.Model Require Import Base Strings Models Minim Options.
From Verif.Spec Require Import OptionsSpec.
From Verif.Proofs Require Import OptionsProofs.
Local Open Scope Z_scope.

(** ** C56 *)
(** each documented text stands for its number, and CalcGW accepts all of them, CalcTemps all but keep_ewsr *)
Theorem C56_documented_partial :
  forall get stoi stod p b names o text code,
    read_options get stoi stod p b names = Ok o -> get (s2l "checkewsr") = Some text -> In (text, code) ewsr_texts ->
    minimizers_ok b o -> line_range o -> temperatures o -> other_options p o -> (p = CalcTemps -> text <> s2l "keep_ewsr") ->
    CheckEWSR o = code /\ good p b o = Ok true.
Proof.
  intros get stoi stod p b names o text code R G I M L T O N. pose proof (read_code _ _ _ _ _ _ _ _ _ R G I) as C. split; [exact C|].
  apply accepts; auto. rewrite C. destruct p; cbn in I; destruct I as [Q|[Q|[Q|[Q|[]]]]]; injection Q as <- <-; try lia. exfalso. now apply N.
Qed.
Print Assumptions C56_documented_partial.
(** an upper temperature below the fixed lower one is rejected by both *)
Theorem C56_contradictory_rejected :
  forall p b o t, templow o = dz 0 -> temphigh o = Num t -> (t < 0)%Q -> good p b o <> Ok true.
Proof. exact rejects. Qed.
Print Assumptions C56_contradictory_rejected.

Definition given (l : list (string * string)) (k : str) : option str :=
  match find (fun e => str_eqb (s2l (fst e)) k) l with Some e => Some (s2l (snd e)) | None => None end.
Definition small_int (s : str) : option Z := if str_eqb s (s2l "2") then Some 2 else None.
Definition no_number (s : str) : option dnum := None.
Definition ewsr_call := given [("model", "sm"); ("input", "in.tsv"); ("output", "out.tsv"); ("firstline", "2"); ("lastline", "2"); ("checkewsr", "keep_ewsr")]%string.
Theorem C56_refuted :
  exists get stoi stod b o, read_options get stoi stod CalcTemps b ModelNames = Ok o /\ In (s2l "keep_ewsr", CheckEWSR o) ewsr_texts /\
    get (s2l "checkewsr") = Some (s2l "keep_ewsr") /\ minimizers_ok b o /\ line_range o /\ temperatures o /\ other_options CalcTemps o /\ good CalcTemps b o = Ok false.
Proof.
  exists ewsr_call, small_int, no_number, (mkBuild true false false). eexists. split; [vm_compute; reflexivity|].
  split; [cbn; auto|]. split; [reflexivity|]. split; [unfold minimizers_ok; cbn; intuition congruence|]. split; [unfold line_range; cbn; lia|].
  split; [split; [reflexivity|exists (inject_Z 300); split; [reflexivity|reflexivity]]|].
  split; [|vm_compute; reflexivity]. unfold other_options. cbn.
  split; [discriminate|]. split; [exists (95 # 100)%Q; split; [reflexivity|]; right; right; split; [reflexivity|discriminate]|]. split; [discriminate|].
  split; [lia|]. split; [lia|]. split; [lia|]. split; [exists (71 # 100)%Q|exists (1 # 100)%Q]; (split; [reflexivity|split; discriminate]).
Qed.
Print Assumptions C56_refuted.
(** the same call is accepted by CalcGW *)
Example C56_nonvacuous : exists o, read_options ewsr_call small_int no_number CalcGW (mkBuild true false false) ModelNames = Ok o /\ good CalcGW (mkBuild true false false) o = Ok true.
Proof. eexists. split; vm_compute; reflexivity. Qed.

(** ** C73: ranges of the numerical options *)
(** for numbers proper, CalcTemps accepts documented values only, and so does CalcGW up to negative line numbers and thigh = 0 *)
Theorem C73_ranges_partial :
  forall p b o t v e p1 p2, templow o = dz 0 -> temphigh o = Num t -> vwall o = Num v -> epsturb o = Num e -> perc_prbl o = Num p1 -> compl_prbl o = Num p2 ->
    good p b o = Ok true ->
    minimizers_ok b o /\ other_options p o /\ 0 <= CheckEWSR o <= 3 /\ firstline o <= lastline o /\ firstline o <> 0 /\ lastline o <> 0 /\
    (p = CalcTemps -> line_range o /\ temperatures o) /\ (0 <= t)%Q.
Proof.
  intros p b o t v e p1 p2 E0 Et Ev Ee E1 E2 G.
  destruct (accepted p b o ltac:(exists t, v, e, p1, p2; auto 10) G) as (A & B & C & D & F & H & I & t' & Et' & J).
  rewrite Et in Et'. injection Et' as <-. repeat (split; [first [assumption | destruct p; lia]|]). exact J.
Qed.
Print Assumptions C73_ranges_partial.
(** infinite values are refused, except for the upper temperature *)
Theorem C73_infinite_partial :
  forall p b o, good p b o = Ok true ->
    (vwall o <> Inf /\ vwall o <> MInf) /\ (perc_prbl o <> Inf /\ perc_prbl o <> MInf) /\ (compl_prbl o <> Inf /\ compl_prbl o <> MInf) /\
    (templow o = dz 0 -> temphigh o <> MInf) /\ (p = CalcGW -> epsturb o <> Inf /\ epsturb o <> MInf).
Proof. exact finite_only. Qed.
Print Assumptions C73_infinite_partial.
Theorem C73_infinite_temperature_refuted :
  forall p, exists b o, good p b o = Ok true /\ templow o = dz 0 /\ temphigh o = Inf /\ ~ temperatures o.
Proof.
  intro p. exists (mkBuild true false false), (mkOptions SM 1 2 (dz 0) Inf (dz 1) (dz 0) true false false 0 1 (dz 0) (dz 0) 10 1 3 false 7).
  split; [destruct p; vm_compute; reflexivity|]. split; [reflexivity|]. split; [reflexivity|]. intros (_ & t & E & _). discriminate E.
Qed.
Print Assumptions C73_infinite_temperature_refuted.
Theorem C73_refuted :
  (forall p, exists b o, good p b o = Ok true /\ temphigh o = Nan /\ vwall o = Nan /\ perc_prbl o = Nan /\ compl_prbl o = Nan) /\
  exists b o, good CalcGW b o = Ok true /\ ~ line_range o /\ ~ temperatures o /\ epsturb o = Nan.
Proof.
  split.
  - intro p. exists (mkBuild true false false), (mkOptions SM 1 2 (dz 0) Nan Nan (dz 0) true false false 0 1 Nan Nan 10 1 3 false 7). destruct p; vm_compute; auto 10.
  - exists (mkBuild true false false), (mkOptions SM (-3) 2 (dz 0) (dz 0) (dz 1) Nan true false false 0 1 (dz 0) (dz 0) 10 1 3 false 7).
    split; [vm_compute; reflexivity|]. split; [unfold line_range; cbn; lia|]. split; [|reflexivity]. intros (_ & t & E & H). cbn in E. injection E as <-. discriminate H.
Qed.
Print Assumptions C73_refuted.
Example C73_nonvacuous : let o := mkOptions SM 1 2 (dz 0) (dz 300) (dz (-1)) (dz 0) true false false 0 1 (dz 0) (dz 1) 10 1 3 false 7 in
  good CalcTemps (mkBuild true false false) o = Ok true /\ good CalcGW (mkBuild true false false) o = Ok true.
Proof. split; vm_compute; reflexivity. Qed.

(** ** C74: positional arguments *)
(** up to five positional arguments reach the parser unchanged under their names, whatever characters they contain *)
Theorem C74_positional_partial :
  forall argv, (length argv <= 5)%nat -> (exists a r, argv = a :: r /\ ~ dashed a) ->
    map get_key_value (convert_input argv) = map Ok (combine positional argv) /\ length (convert_input argv) = length argv.
Proof.
  intros argv L (a & r & -> & N). rewrite convert_plain by exact N. split.
  - rewrite map_map. apply map_ext_in. intros (k, v) I. apply key_value_named. apply in_combine_l in I. exact I.
  - rewrite map_length, combine_length. cbn [length positional] in *. lia.
Qed.
Print Assumptions C74_positional_partial.
Theorem C74_named : forall a r, dashed a -> convert_input (a :: r) = a :: r.
Proof. exact convert_dashed. Qed.
Print Assumptions C74_named.
(** anything after the fifth positional argument is dropped without a message *)
Theorem C74_refuted : exists argv x, In x argv /\ dashed x /\ convert_input argv = convert_input (firstn 5 argv) /\ (length argv = 6)%nat.
Proof.
  exists (map s2l ["sm"; "in.tsv"; "out.tsv"; "2"; "2"; "--thigh=200"]%string), (s2l "--thigh=200").
  split; [cbn; auto 10|]. split; [eexists; reflexivity|]. split; vm_compute; reflexivity.
Qed.
Print Assumptions C74_refuted.
Example C74_nonvacuous : convert_input (map s2l ["sm"; "a=b.tsv"]%string) = map s2l ["--model=sm"; "--input=a=b.tsv"]%string.
Proof. reflexivity. Qed.

(** ** C90: what the options mean *)
(** leaving an option out is the same as giving the text that the help shows as its default *)
Theorem C90_documented_defaults :
  forall get stoi stod p b names name text,
    reads_numbers stoi stod -> In (name, text) (documented_defaults p b) -> get (s2l name) = None ->
    read_options (with_option get (s2l name) (s2l text)) stoi stod p b names = read_options get stoi stod p b names.
Proof. exact default_text. Qed.
Print Assumptions C90_documented_defaults.
(** each number given is the one used and each documented word stands for its code *)
Theorem C90_given_values :
  forall get stoi stod p b names o, read_options get stoi stod p b names = Ok o ->
    number stoi (get (s2l "firstline")) (firstline o) /\ number stoi (get (s2l "lastline")) (lastline o) /\ templow o = dz 0 /\
    number stod (get (s2l "thigh")) (temphigh o) /\ number stod (get (s2l "vwall")) (vwall o) /\
    number stod (get (s2l "perc_prbl")) (perc_prbl o) /\ number stod (get (s2l "compl_prbl")) (compl_prbl o) /\
    number stoi (get (s2l "num_pts")) (num_check_pts o) /\ number stoi (get (s2l "maxpathintegrations")) (MaxPathIntegrations o) /\
    documented switch_texts (get (s2l "usegsl")) (UseGSL o) /\ documented switch_texts (get (s2l "usecmaes")) (UseCMAES o) /\
    documented switch_texts (get (s2l "usenlopt")) (UseNLopt o) /\ documented switch_texts (get (s2l "usemultithreading")) (UseThreads o) /\
    documented mode_texts (get (s2l "multistepmode")) (MultiStepMode o) /\ documented nlo_texts (get (s2l "checknlo")) (CheckNLO o) /\
    documented ewsr_texts (get (s2l "checkewsr")) (CheckEWSR o) /\
    (forall t, get (s2l "multistepmode") = Some t -> ~ In t (map fst mode_texts) -> stoi t = Some (MultiStepMode o)) /\
    (p = CalcGW -> number stod (get (s2l "epsturb")) (epsturb o) /\ documented trans_texts (get (s2l "trans_temp")) (WhichTransTemp o)) /\
    (forall t, get (s2l "model") = Some t -> Model o = getModel names t) /\
    (forall r, In r positional -> get r <> None).
Proof. exact option_values. Qed.
Print Assumptions C90_given_values.
Theorem C90_missing_required :
  forall get stoi stod p b names r, In r positional -> get r = None -> read_options get stoi stod p b names = Throw ParserException.
Proof. exact missing_required. Qed.
Print Assumptions C90_missing_required.
(** words that are not documented are not refused: they count as the default *)
Theorem C90_unknown_word_refuted :
  exists get stoi stod b o, ~ In (s2l "of") (map fst nlo_texts) /\ ~ In (s2l "completion") (map fst trans_texts) /\
    get (s2l "checknlo") = Some (s2l "of") /\ get (s2l "checkewsr") = Some (s2l "of") /\ get (s2l "trans_temp") = Some (s2l "completion") /\
    read_options get stoi stod CalcGW b ModelNames = Ok o /\ good CalcGW b o = Ok true /\ CheckNLO o = 1 /\ CheckEWSR o = 1 /\ WhichTransTemp o = 3.
Proof.
  exists (given [("model", "sm"); ("input", "in.tsv"); ("output", "out.tsv"); ("firstline", "2"); ("lastline", "2"); ("checknlo", "of"); ("checkewsr", "of"); ("trans_temp", "completion")]%string),
    small_int, no_number, (mkBuild true false false). eexists.
  split; [intros [H|[H|[]]]; discriminate H|]. split; [intros [H|[H|[H|[H|[]]]]]; discriminate H|].
  split; [reflexivity|]. split; [reflexivity|]. split; [reflexivity|]. split; [vm_compute; reflexivity|]. vm_compute. auto.
Qed.
Print Assumptions C90_unknown_word_refuted.
Example C90_nonvacuous : exists o,
  read_options (given [("model", "r2hdm"); ("input", "in.tsv"); ("output", "out.tsv"); ("firstline", "2"); ("lastline", "2"); ("multistepmode", "auto"); ("trans_temp", "compl"); ("checknlo", "off")]%string)
    small_int no_number CalcGW (mkBuild true true false) ModelNames = Ok o /\
  MultiStepMode o = 3 /\ WhichTransTemp o = 4 /\ CheckNLO o = 0 /\ UseCMAES o = true /\ num_check_pts o = 10 /\ Model o = R2HDM.
Proof. eexists. split; [vm_compute; reflexivity|]. vm_compute. repeat split. Qed.
Example C90_nonvacuous_numbers : reads_numbers (fun s => if str_eqb s (s2l "10") then Some 10 else if str_eqb s (s2l "7") then Some 7 else None)
  (fun s => if str_eqb s (s2l "300") then Some (dz 300) else if str_eqb s (s2l "0.95") then Some (Num (95 # 100)) else if str_eqb s (s2l "0.71") then Some (Num (71 # 100))
            else if str_eqb s (s2l "0.01") then Some (Num (1 # 100)) else if str_eqb s (s2l "0.1") then Some (Num (1 # 10)) else None).
Proof. vm_compute. auto 10. Qed.
