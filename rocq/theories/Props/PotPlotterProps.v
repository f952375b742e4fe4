(** C137: the table of the effective potential. *)
From Coq Require Import Reals List ZArith Ascii String Lia Lra.
From Verif Require Import Model.StartPath Model.PotPlotter Spec.StartPathSpec Spec.PotPlotterSpec Proofs.StartPathProofs Proofs.PotPlotterProofs.
Import ListNotations.
Local Open Scope R_scope.

(** For one to six field directions the table is the whole grid: each combination of the values of the directions is written once,
    with the reference point, the potential at both, and the temperature. *)
Theorem C137_grid_partial : forall V n o text ref,
  (1 <= n <= 6)%nat -> List.length (npointsi o) = 6%nat -> good o = true -> use_slice_plotter o = false ->
  (2 <= Line o <= Z.of_nat (List.length (getlines [] text)))%Z ->
  (point o = [] /\ ref = repeat 0 n \/ point o = ref /\ ref <> [] /\ List.length ref = n) ->
  plot V n o text =
    Rows (map (fun a => a ++ ref ++ [V a; V ref; Temperature o])
      (combinations (map (fun k => values (IZR (nth k (low o) 0%Z)) (IZR (nth k (high o) 0%Z)) (nth k ref 0) (Z.to_nat (nth k (npointsi o) 0%Z))) (seq 0 n)))).
Proof.
  intros V n o text ref N L G S F P. unfold plot. rewrite G, S, (proj2 (found_line _ _) F). cbn [negb].
  apply grid_table; try assumption.
  - unfold vevStart. destruct P as [[E ->]|[E [Q Lr]]]; [rewrite E; reflexivity|]. rewrite E. destruct ref; [contradiction|].
    rewrite Lr, Nat.eqb_refl. reflexivity.
  - destruct P as [[_ ->]|[_ [_ Lr]]]; [apply repeat_length|exact Lr].
Qed.

(** Each point of the grid has its scanned coordinates between the bounds and the other ones at the reference point; each
    direction goes from its lower to its upper bound; there are (n1 + 1) ... (nk + 1) rows. *)
Theorem C137_points : forall o ref n a k, good o = true -> List.length (low o) = List.length (high o) -> (k < n)%nat ->
  In a (combinations (map (fun k => values (IZR (nth k (low o) 0%Z)) (IZR (nth k (high o) 0%Z)) (nth k ref 0) (Z.to_nat (nth k (npointsi o) 0%Z))) (seq 0 n))) ->
  List.length a = n /\
  ((0 < nth k (npointsi o) 0)%Z -> IZR (nth k (low o) 0%Z) <= nth k a 0 <= IZR (nth k (high o) 0%Z)) /\
  (nth k (npointsi o) 0%Z = 0%Z -> nth k a 0 = nth k ref 0).
Proof.
  intros o ref n a k G L K I. apply combinations_in in I. assert (La := F2_length _ _ _ I). rewrite map_length, seq_length in La.
  split; [exact La|]. assert (X : forall l (f : nat -> list R) s m, Forall2 (fun x y => In x y) l (map f (seq s m)) -> forall j, (j < m)%nat -> In (nth j l 0) (f (s + j)%nat)).
  { clear. induction l as [|x l IH]; intros f s m F j J; destruct m as [|m]; cbn [seq map] in F; inversion F; subst; try lia.
    destruct j as [|j]; [rewrite Nat.add_0_r; assumption|]. cbn [nth]. replace (s + S j)%nat with (S s + j)%nat by lia. apply (IH f (S s) m); [assumption|lia]. }
  specialize (X _ _ _ _ I k K). cbn [Nat.add] in X. destruct (good_spec o G) as [_ [_ [St [_ [_ [B _]]]]]]. split.
  - intros P. apply (values_in _ _ (nth k ref 0) (Z.to_nat (nth k (npointsi o) 0%Z))); [lia|apply IZR_le; apply B; exact L|exact X].
  - intros Z. rewrite Z in X. destruct X as [<-|[]]. reflexivity.
Qed.
Theorem C137_ends : forall lo hi ref n, (0 < n)%nat -> hd 0 (values lo hi ref n) = lo /\ last (values lo hi ref n) 0 = hi.
Proof. exact values_ends. Qed.
Theorem C137_count : forall V n o text ref,
  (1 <= n <= 6)%nat -> List.length (npointsi o) = 6%nat -> good o = true -> use_slice_plotter o = false ->
  (2 <= Line o <= Z.of_nat (List.length (getlines [] text)))%Z -> (point o = [] /\ ref = repeat 0 n \/ point o = ref /\ ref <> [] /\ List.length ref = n) ->
  exists rows, plot V n o text = Rows rows /\
    List.length rows = fold_right (fun k c => (S (Z.to_nat (nth k (npointsi o) 0%Z)) * c)%nat) 1%nat (seq 0 n) /\
    Forall (fun r => List.length r = (2 * n + 3)%nat) rows.
Proof.
  intros V n o text ref N L G S F P. eexists. split; [apply C137_grid_partial; eassumption|]. split.
  - rewrite map_length, combinations_length. clear. generalize (seq 0 n). induction l as [|k l IH]; [reflexivity|]. cbn [map fold_right].
    rewrite IH, values_length. reflexivity.
  - apply Forall_forall. intros r R. apply in_map_iff in R. destruct R as [a [<- A]]. apply combinations_in in A. apply F2_length in A.
    rewrite map_length, seq_length in A. rewrite !app_length. cbn [List.length]. destruct P as [[_ ->]|[_ [_ Lr]]]; [rewrite repeat_length|]; lia.
Qed.

(** The slice: the points divide the segment from the start to the end into equal parts. *)
Theorem C137_slice : forall V n o text, good o = true -> use_slice_plotter o = true -> (0 < npoints o)%Z ->
  (2 <= Line o <= Z.of_nat (List.length (getlines [] text)))%Z -> List.length (min_start o) = n -> List.length (min_end o) = n ->
  exists rows, plot V n o text = Rows rows /\ Z.of_nat (List.length rows) = (npoints o + 1)%Z /\
    forall i, (Z.of_nat i <= npoints o)%Z ->
      let p := between (INR i / IZR (npoints o)) (min_start o) (min_end o) in nth i rows [] = p ++ [V p; Temperature o].
Proof.
  intros V n o text G S P F A B. eexists. unfold plot. rewrite G, S, (proj2 (found_line _ _) F). cbn [negb]. unfold slice_plot.
  rewrite A, B, !Nat.eqb_refl. cbn [andb]. split; [reflexivity|]. split.
  - rewrite map_length, grid_length. lia.
  - intros i I. cbv zeta. set (f := fun p => p ++ _). rewrite (nth_indep _ [] (f [])) by (rewrite map_length, grid_length; lia).
    rewrite map_nth. rewrite grid_point by lia.
    replace (INR (Z.to_nat (npoints o))) with (IZR (npoints o)) by (rewrite INR_IZR_INZ, Z2Nat.id by lia; reflexivity). reflexivity.
Qed.

(** Vectors of a wrong size, a line that is not there, a negative temperature or number of points, and bounds in the wrong order
    are refused. *)
Theorem C137_refused : forall V n o text,
  (use_slice_plotter o = false /\ point o <> [] /\ List.length (point o) <> n) \/
  (use_slice_plotter o = true /\ (List.length (min_start o) <> n \/ List.length (min_end o) <> n)) \/
  ~ (2 <= Line o <= Z.of_nat (List.length (getlines [] text)))%Z \/ Temperature o < 0 \/
  (exists k, (nth k (npointsi o) 0 < 0)%Z) \/ (npoints o < 0)%Z \/
  (List.length (low o) = List.length (high o) /\ exists k, (nth k (high o) 0 < nth k (low o) 0)%Z) ->
  plot V n o text = Failure.
Proof.
  intros V n o text H. unfold plot. destruct (good o) eqn:G; [|reflexivity]. cbn [negb].
  destruct (found (read_file (Line o) text)) eqn:F; [|reflexivity]. cbn [negb]. apply found_line in F.
  destruct (good_spec o G) as [_ [T [St [Sl [_ [B _]]]]]].
  destruct H as [[S [P1 P2]]|[[S P]|[H|[H|[[k H]|[H|[L [k H]]]]]]]].
  - rewrite S. unfold grid_plot. rewrite (proj2 (start_none n o) (conj P1 P2)). reflexivity.
  - rewrite S. unfold slice_plot. destruct (Nat.eqb_spec (List.length (min_end o)) (List.length (min_start o))), (Nat.eqb_spec (List.length (min_end o)) n);
      cbn [andb]; try reflexivity. lia.
  - contradiction.
  - lra.
  - specialize (St k). lia.
  - lia.
  - specialize (B L k). lia.
Qed.

(** The header is the first line and the parameters are the line that was asked for; nothing else is read. *)
Theorem C137_line_partial : forall L text, exists lines,
  List.concat (map (fun l => l ++ [ascii_of_nat 10]) lines) = text ++ [ascii_of_nat 10] /\ Forall (fun l => ~ In (ascii_of_nat 10) l) lines /\
  read_file L text = UseIndexCol (hd [] lines) ::
    (if andb (Z.leb 2 L) (Z.leb L (Z.of_nat (List.length lines))) then [InitModel (nth (Z.to_nat L - 1) lines [])] else []).
Proof.
  intros L text. exists (getlines [] text). split; [exact (getlines_text text [])|]. split; [apply getlines_clean; intros []|]. apply read_file_calls.
Qed.
(** A file of two lines has no third line, but the model is initialised with an empty one. *)
Theorem C137_line_refuted : exists line1 line2, let text := line1 ++ [ascii_of_nat 10] ++ line2 ++ [ascii_of_nat 10] in
  ~ In (ascii_of_nat 10) line1 /\ ~ In (ascii_of_nat 10) line2 /\ read_file 3 text = [UseIndexCol line1; InitModel []].
Proof. exists ["h"%char], ["p"%char]. split; [|split]; [intros [H|[]]; discriminate H|intros [H|[]]; discriminate H|reflexivity]. Qed.

(** More than six directions end with the exception of a vector access and never with the message about them, whether or not a
    direction is scanned. *)
Theorem C137_seven : forall V n o, List.length (npointsi o) = 6%nat -> (7 <= n)%nat -> (point o = [] \/ List.length (point o) = n) ->
  grid_plot V n o = OutOfRange.
Proof. exact too_many. Qed.

(** The help asks for the number of points in a direction; the number of values is larger by one. *)
Theorem C137_points_refuted : exists V n o text rows, good o = true /\ nth 0 (npointsi o) 0%Z = 2%Z /\ n = 1%nat /\
  plot V n o text = Rows rows /\ List.length rows = 3%nat.
Proof.
  set (o := {| model_set := true; Line := 2%Z; Temperature := 0; point := []; npointsi := [2; 0; 0; 0; 0; 0]%Z; low := [0; 0; 0; 0; 0; 0]%Z;
               high := [246; 0; 0; 0; 0; 0]%Z; use_slice_plotter := false; min_start := []; min_end := []; npoints := 100%Z |}).
  assert (G : good o = true) by (unfold good; cbn [o model_set negb Temperature]; destruct (Rlt_dec 0 0); [lra|reflexivity]).
  exists (fun _ => 0), 1%nat, o, ["h"%char; ascii_of_nat 10; "p"%char].
  destruct (C137_count (fun _ => 0) 1 o ["h"%char; ascii_of_nat 10; "p"%char] [0]) as [rows [E [C _]]]; try reflexivity; try exact G; try lia; [cbn; lia|left; split; reflexivity|].
  exists rows. repeat split; try assumption.
Qed.
(** A bound of minus one GeV is taken for a bound that was not given. *)
Theorem C137_bound_refuted : exists o, nth 0 (npointsi o) 0%Z = 10%Z /\
  read_bound (Some (list_ascii_of_string "-1")) = Some (nth 0 (low o) 0%Z) /\ read_bound (Some (list_ascii_of_string "5")) = Some (nth 0 (high o) 0%Z) /\
  good o = false /\
  good {| model_set := model_set o; Line := Line o; Temperature := Temperature o; point := point o; npointsi := npointsi o; low := (-2 :: tl (low o))%Z;
          high := high o; use_slice_plotter := use_slice_plotter o; min_start := min_start o; min_end := min_end o; npoints := npoints o |} = true.
Proof.
  exists {| model_set := true; Line := 2%Z; Temperature := 0; point := []; npointsi := [10; 0; 0; 0; 0; 0]%Z; low := [-1; -1; -1; -1; -1; -1]%Z;
            high := [5; -1; -1; -1; -1; -1]%Z; use_slice_plotter := false; min_start := []; min_end := []; npoints := 100%Z |}.
  split; [reflexivity|]. split; [reflexivity|]. split; [reflexivity|].
  unfold good. cbn [model_set negb Temperature]. destruct (Rlt_dec 0 0); [lra|]. split; reflexivity.
Qed.
(** A decimal bound is cut at its decimal point. *)
Theorem C137_decimal_refuted : exists s frac z, Forall is_digit s /\ Forall is_digit frac /\
  read_bound (Some (s ++ "."%char :: frac)) = Some z /\ decimal s frac = 9 / 10 /\ IZR z = 0.
Proof.
  exists ["0"%char], ["9"%char], 0%Z. unfold is_digit. split; [repeat constructor; cbn; lia|]. split; [repeat constructor; cbn; lia|].
  split; [reflexivity|]. split; [|reflexivity]. unfold decimal. change (number ["0"%char]) with 0%Z. change (number ["9"%char]) with 9%Z. cbn [List.length pow]. field.
Qed.
Theorem C137_integer_partial : forall s rest, s <> [] -> Forall is_digit s -> (forall c t, rest = c :: t -> ~ is_digit c) -> (number s <= 2147483647)%Z ->
  read_bound (Some (s ++ rest)) = Some (number s) /\ read_bound (Some ("-"%char :: s ++ rest)) = Some (- number s)%Z.
Proof. exact stoi_number. Qed.

(** * The hypotheses are met *)
Example C137_nonvacuous_digits : number (list_ascii_of_string "246") = 246%Z /\ Forall is_digit (list_ascii_of_string "246") /\ ~ is_digit ".".
Proof. unfold is_digit. split; [reflexivity|]. split; [repeat constructor; cbn; lia|cbn; lia]. Qed.
(** two directions scanned with two and one steps: six rows *)
Example C137_nonvacuous_grid :
  exists o, good o = true /\ List.length (npointsi o) = 6%nat /\ use_slice_plotter o = false /\ point o = [7; 8; 9] /\
    combinations (map (fun k => values (IZR (nth k (low o) 0%Z)) (IZR (nth k (high o) 0%Z)) (nth k [7; 8; 9] 0) (Z.to_nat (nth k (npointsi o) 0%Z))) (seq 0 3)) =
    [[0; 8; 10]; [0; 8; 20]; [2; 8; 10]; [2; 8; 20]; [4; 8; 10]; [4; 8; 20]].
Proof.
  exists {| model_set := true; Line := 2%Z; Temperature := 0; point := [7; 8; 9]; npointsi := [2; 0; 1; 0; 0; 0]%Z; low := [0; 0; 10; 0; 0; 0]%Z;
            high := [4; 0; 20; 0; 0; 0]%Z; use_slice_plotter := false; min_start := []; min_end := []; npoints := 100%Z |}.
  split; [unfold good; cbn [model_set negb Temperature]; destruct (Rlt_dec 0 0); [lra|reflexivity]|].
  split; [reflexivity|]. split; [reflexivity|]. split; [reflexivity|].
  cbn [npointsi low high seq map nth Z.to_nat]. change (Pos.to_nat 2) with 2%nat. change (Pos.to_nat 1) with 1%nat.
  cbn [values seq map combinations flat_map app INR]. repeat f_equal; field.
Qed.
(** a slice of two steps *)
Example C137_nonvacuous_slice :
  exists o, good o = true /\ use_slice_plotter o = true /\ npoints o = 2%Z /\ min_start o = [0; 0] /\ min_end o = [4; 8] /\
    between (INR 1 / IZR 2) [0; 0] [4; 8] = [2; 4].
Proof.
  exists {| model_set := true; Line := 2%Z; Temperature := 0; point := []; npointsi := [0; 0; 0; 0; 0; 0]%Z; low := [0; 0; 0; 0; 0; 0]%Z;
            high := [0; 0; 0; 0; 0; 0]%Z; use_slice_plotter := true; min_start := [0; 0]; min_end := [4; 8]; npoints := 2%Z |}.
  split; [unfold good; cbn [model_set negb Temperature]; destruct (Rlt_dec 0 0); [lra|reflexivity]|].
  repeat (split; [reflexivity|]). cbn. repeat f_equal; field.
Qed.

Print Assumptions C137_grid_partial.
Print Assumptions C137_points.
Print Assumptions C137_ends.
Print Assumptions C137_count.
Print Assumptions C137_slice.
Print Assumptions C137_refused.
Print Assumptions C137_line_partial.
Print Assumptions C137_line_refuted.
Print Assumptions C137_seven.
Print Assumptions C137_points_refuted.
Print Assumptions C137_bound_refuted.
Print Assumptions C137_decimal_refuted.
Print Assumptions C137_integer_partial.
