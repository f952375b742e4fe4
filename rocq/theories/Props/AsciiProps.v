(** Theorems about text plots (C55). *)
From Coq Require Import QArith ZArith List Ascii Lia Lqa.
From Verif.Model Require Import Base Ascii.
From Verif.Spec Require Import AsciiSpec.
From Verif.Proofs Require Import AsciiProofs.
Import ListNotations.
Local Open Scope Q_scope.

(** up to ten curves of at least two points each, not all with one single value, fit into the canvas, whatever their ranges *)
Theorem C55_inside_partial : forall w h title legend cs,
  (1 <= w)%nat -> (Z.of_nat w < 2 ^ 31)%Z -> (1 <= h)%nat -> (Z.of_nat h < 2 ^ 31)%Z ->
  cs <> [] -> (length cs <= 10)%nat -> (forall c, In c cs -> plottable c) -> not_flat cs ->
  addPlots [] cs = Ok cs /\
  exists r, show w h title legend cs = Ok r /\ covers (s_x r) (is_abscissa cs) /\ is_abscissa cs (fst (s_x r)) /\ is_abscissa cs (snd (s_x r)) /\ covers (s_y r) (is_value cs) /\
    sized w h (s_plane r) /\ only (map cmark cs) (s_plane r) /\ (forall c l, cs = l ++ [c] -> exists k, drawn (cmark c) k (s_plane r)).
Proof.
  intros w h title legend cs Hw Hwi Hh Hi Ne Hn Hc Hf. split; [apply (addPlots_ok cs []); cbn; lia|].
  destruct (show_ok w h title legend cs Hw Hwi Hh Hi Ne Hc Hf) as (r & E & Cx & X1 & X2 & Cy & _ & _ & S & O & D & _ & _). exists r. now repeat (split; [assumption|]).
Qed.
(** the vertical range is the range of the data unless all values are below 1e-15 or all are above 1e15 *)
Theorem C55_tight_partial : forall w h title legend cs r,
  (1 <= w)%nat -> (Z.of_nat w < 2 ^ 31)%Z -> (1 <= h)%nat -> (Z.of_nat h < 2 ^ 31)%Z -> cs <> [] -> (forall c, In c cs -> plottable c) -> not_flat cs ->
  show w h title legend cs = Ok r ->
  ((exists y, is_value cs y /\ y < 1000000000000000 # 1) -> is_value cs (fst (s_y r))) /\ ((exists y, is_value cs y /\ 1 # 1000000000000000 < y) -> is_value cs (snd (s_y r))).
Proof.
  intros w h title legend cs r Hw Hwi Hh Hi Ne Hc Hf E. destruct (show_ok w h title legend cs Hw Hwi Hh Hi Ne Hc Hf) as (r' & E' & _ & _ & _ & Cy & M1 & M2 & _).
  rewrite E' in E. injection E as <-. split; intros (y & Vy & By); pose proof (Cy y Vy) as C.
  - destruct M1 as [M|M]; [|exact M]. exfalso. rewrite M in C. cbn [fst y_start] in C. lra.
  - destruct M2 as [M|M]; [|exact M]. exfalso. rewrite M in C. cbn [snd y_start] in C. lra.
Qed.
(** padding of the title and of the legend *)
Theorem C55_padding_partial : forall w title label, (Z.of_nat w < 2 ^ 31)%Z ->
  ((title <= w)%nat -> title_pad w title = (9 + (Z.of_nat w - Z.of_nat title) / 2)%Z) /\ ((label + 5 <= w)%nat -> legend_pad w label = (Z.of_nat w - Z.of_nat label - 5)%Z).
Proof. intros w title label Hw. split; intro H; [now apply title_ok|now apply legend_ok]. Qed.
Theorem C55_padding_refuted : (forall w title, (w < title)%nat -> (Z.of_nat title < 2 ^ 31)%Z -> (2 ^ 62 < title_pad w title)%Z) /\
  (forall w label, (w < label + 5)%nat -> (Z.of_nat w < 2 ^ 31)%Z -> (Z.of_nat label < 2 ^ 31)%Z -> (2 ^ 62 < legend_pad w label)%Z).
Proof. split; [exact title_huge|exact legend_huge]. Qed.
(** constant data, a single abscissa, and more than ten curves *)
Definition line (v : Q) : curve := mkCurve [0; 1; 2] [v; v; v] 4 "*"%char.
Theorem C55_refuted : exists c c1,
  plottable c /\ show 100 35 5 false [c] = UB /\ length (cx c1) = length (cy c1) /\ show 100 35 5 false [c1] = UB /\
  forall cs, (10 < length cs)%nat -> addPlots [] cs = UB.
Proof.
  exists (line 1), (mkCurve [1] [2] 4 "*"%char). split.
  - split; [cbn; lia|]. split; [reflexivity|]. cbn. repeat constructor.
  - split; [vm_compute; reflexivity|]. split; [reflexivity|]. split; [vm_compute; reflexivity|]. intros cs H. apply addPlots_over; cbn; lia.
Qed.
Example C55_nonvacuous : (forall c, In c [line 1; line 3] -> plottable c) /\ not_flat [line 1; line 3] /\
  exists r, show 4 3 2 true [line 1; line 3] = Ok r /\ s_y r = (1, 3) /\ s_title r = 10%Z /\ s_plane r = repeat ["*"; " "; "*"]%char 4 /\ Z.ltb (2 ^ 62) (hd 0%Z (s_legend r)) = true.
Proof.
  split; [intros c [<- |[<- |[]]]; (split; [cbn; lia|split; [reflexivity|cbn; repeat constructor]])|]. split.
  - exists 1, 3. split; [exists (line 1); split; [now left|now left]|]. split; [exists (line 3); split; [right; now left|now left]|]. reflexivity.
  - eexists. split; [vm_compute; reflexivity|]. cbn [s_y s_title s_plane s_legend hd]. repeat split.
Qed.
Print Assumptions C55_inside_partial.
Print Assumptions C55_tight_partial.
Print Assumptions C55_padding_partial.
Print Assumptions C55_padding_refuted.
Print Assumptions C55_refuted.
