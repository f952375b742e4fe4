From Coq Require Import QArith Qround ZArith List Ascii Lia Lqa.
From Verif.Model Require Import Base Ascii.
From Verif.Spec Require Import AsciiSpec.
Import ListNotations.
Local Open Scope Q_scope.

Lemma qlt_t a b : qlt a b = true <-> a < b.
Proof.
  unfold qlt. rewrite Bool.negb_true_iff. pose proof (Qle_bool_iff b a) as I. destruct (Qle_bool b a); split; intro H; try discriminate; try reflexivity.
  - destruct I as (I & _). specialize (I eq_refl). lra.
  - destruct (Qlt_le_dec a b) as [L|L]; [exact L|]. apply I in L. discriminate.
Qed.
Lemma qlt_f a b : qlt a b = false <-> b <= a.
Proof.
  pose proof (qlt_t a b) as T. destruct (qlt a b); split; intro H; try discriminate; try reflexivity.
  - destruct T as (T & _). specialize (T eq_refl). lra.
  - destruct (Qlt_le_dec a b) as [L|L]; [apply T in L; discriminate|exact L].
Qed.
Lemma qeqb_false a b : ~ a == b -> Qeq_bool a b = false.
Proof. intro H. destruct (Qeq_bool a b) eqn:E; [|reflexivity]. apply Qeq_bool_iff in E. now contradict E. Qed.
Ltac ql := repeat match goal with H : qlt _ _ = true |- _ => apply qlt_t in H | H : qlt _ _ = false |- _ => apply qlt_f in H end.

(** ** ranges *)
Lemma fold_max r : forall a, let m := fold_left (fun m x => if qlt m x then x else m) r a in (forall x, In x (a :: r) -> x <= m) /\ In m (a :: r).
Proof.
  induction r as [|b r IH]; intros a; cbn; [split; [intros x [-> |[]]; lra|now left]|].
  destruct (qlt a b) eqn:E; ql; specialize (IH (if qlt a b then b else a)); destruct (qlt a b) eqn:E'; ql; try lra; destruct IH as (I1 & I2).
  - split; [|now right]. intros x [-> |[-> |Hx]]; [|apply I1; now left|apply I1; now right]. pose proof (I1 b (or_introl eq_refl)) as K. lra.
  - split; [|destruct I2 as [I2|I2]; [now left|right; now right]]. intros x [-> |[-> |Hx]]; [apply I1; now left| |apply I1; now right].
    pose proof (I1 a (or_introl eq_refl)) as K. lra.
Qed.
Lemma fold_min r : forall a, let m := fold_left (fun m x => if qlt x m then x else m) r a in (forall x, In x (a :: r) -> m <= x) /\ In m (a :: r).
Proof.
  induction r as [|b r IH]; intros a; cbn; [split; [intros x [-> |[]]; lra|now left]|].
  destruct (qlt b a) eqn:E; ql; specialize (IH (if qlt b a then b else a)); destruct (qlt b a) eqn:E'; ql; try lra; destruct IH as (I1 & I2).
  - split; [|now right]. intros x [-> |[-> |Hx]]; [|apply I1; now left|apply I1; now right]. pose proof (I1 b (or_introl eq_refl)) as K. lra.
  - split; [|destruct I2 as [I2|I2]; [now left|right; now right]]. intros x [-> |[-> |Hx]]; [apply I1; now left| |apply I1; now right].
    pose proof (I1 a (or_introl eq_refl)) as K. lra.
Qed.
Lemma vmax_ok l : l <> [] -> exists m, vmax l = Ok m /\ (forall x, In x l -> x <= m) /\ In m l.
Proof. destruct l as [|a r]; [congruence|]. intros _. eexists. split; [reflexivity|]. apply fold_max. Qed.
Lemma vmin_ok l : l <> [] -> exists m, vmin l = Ok m /\ (forall x, In x l -> m <= x) /\ In m l.
Proof. destruct l as [|a r]; [congruence|]. intros _. eexists. split; [reflexivity|]. apply fold_min. Qed.

Lemma y_range_ok cs : forall acc, (forall c, In c cs -> cy c <> []) -> exists r, y_range cs acc = Ok r /\ covers r (is_value cs) /\
  fst r <= fst acc /\ snd acc <= snd r /\ (fst r = fst acc \/ is_value cs (fst r)) /\ (snd r = snd acc \/ is_value cs (snd r)).
Proof.
  induction cs as [|c cs IH]; intros acc H.
  - exists acc. split; [reflexivity|]. split; [intros v (c & [] & _)|]. repeat split; try lra; now left.
  - cbn [y_range]. destruct (vmax_ok (cy c) (H c (or_introl eq_refl))) as (mx & Emx & Hmx & Imx). destruct (vmin_ok (cy c) (H c (or_introl eq_refl))) as (mn & Emn & Hmn & Imn).
    rewrite Emx, Emn. cbn [bind]. set (acc' := (if qlt mn (fst acc) then mn else fst acc, if qlt (snd acc) mx then mx else snd acc)).
    destruct (IH acc' (fun c' Hc => H c' (or_intror Hc))) as (r & Er & Cov & L1 & L2 & M1 & M2). exists r. split; [exact Er|].
    assert (A1 : fst acc' <= fst acc /\ fst acc' <= mn /\ (fst acc' = fst acc \/ fst acc' = mn)) by (unfold acc'; cbn [fst snd]; destruct (qlt mn (fst acc)) eqn:E; ql; repeat split; try lra; auto).
    assert (A2 : snd acc <= snd acc' /\ mx <= snd acc' /\ (snd acc' = snd acc \/ snd acc' = mx)) by (unfold acc'; cbn [fst snd]; destruct (qlt (snd acc) mx) eqn:E; ql; repeat split; try lra; auto).
    clearbody acc'. split.
    + intros v (c' & [<- |Hc] & Hv).
      * specialize (Hmx v Hv). specialize (Hmn v Hv). lra.
      * apply Cov. now exists c'.
    + split; [lra|]. split; [lra|]. split.
      * destruct M1 as [M1|(c' & Hc & Hv)]; [|right; exists c'; split; [now right|exact Hv]]. destruct A1 as (_ & _ & [A1|A1]); rewrite M1, A1; [now left|right]. exists c. split; [now left|exact Imn].
      * destruct M2 as [M2|(c' & Hc & Hv)]; [|right; exists c'; split; [now right|exact Hv]]. destruct A2 as (_ & _ & [A2|A2]); rewrite M2, A2; [now left|right]. exists c. split; [now left|exact Imx].
Qed.

Lemma rising_first x l : rising (x :: l) -> forall y, In y (x :: l) -> x <= y.
Proof.
  revert x. induction l as [|z l IH]; intros x H y Hy; inversion H; subst.
  - destruct Hy as [-> |[]]. lra.
  - destruct Hy as [-> |Hy]; [lra|]. specialize (IH z ltac:(assumption) y Hy). lra.
Qed.
Lemma lastq_cons x y l : lastq (x :: y :: l) = lastq (y :: l).
Proof. unfold lastq. cbn [rev]. destruct (rev l ++ [y]) as [|a r] eqn:E; [now apply app_eq_nil in E|]. reflexivity. Qed.
Lemma rising_last l : rising l -> exists z, lastq l = Ok z /\ In z l /\ forall y, In y l -> y <= z.
Proof.
  induction 1 as [x|x y l Hxy H (z & Ez & Iz & Hz)].
  - exists x. repeat split; [now left|]. intros y [-> |[]]. lra.
  - exists z. rewrite lastq_cons. split; [exact Ez|]. split; [now right|]. intros w [-> |Hw]; [|now apply Hz]. specialize (Hz y (or_introl eq_refl)). lra.
Qed.
Lemma plottable_ends c : plottable c -> exists x0 x9, firstq (cx c) = Ok x0 /\ lastq (cx c) = Ok x9 /\ x0 < x9 /\ In x0 (cx c) /\ In x9 (cx c) /\
  forall x, In x (cx c) -> x0 <= x /\ x <= x9.
Proof.
  intros (L & _ & R). destruct (rising_last _ R) as (z & Ez & Iz & Hz). destruct (cx c) as [|x0 [|x1 l]] eqn:E; cbn in L; try lia.
  exists x0, z. split; [reflexivity|]. split; [exact Ez|]. inversion R; subst. pose proof (Hz x1 (or_intror (or_introl eq_refl))) as K. split; [lra|]. split; [now left|]. split; [exact Iz|].
  intros x Hx. split; [now apply (rising_first x0 (x1 :: l))|now apply Hz].
Qed.
Lemma x_range_ok cs : (forall c, In c cs -> plottable c) -> forall acc, exists r, x_range cs acc = Ok r /\ covers r (is_abscissa cs) /\
  fst r <= fst acc /\ snd acc <= snd r /\ (fst r = fst acc \/ is_abscissa cs (fst r)) /\ (snd r = snd acc \/ is_abscissa cs (snd r)).
Proof.
  induction cs as [|c cs IH]; intros H acc.
  - exists acc. split; [reflexivity|]. split; [intros v (c & [] & _)|]. repeat split; try lra; now left.
  - cbn [x_range]. destruct (plottable_ends c (H c (or_introl eq_refl))) as (x0 & x9 & E0 & E9 & _ & I0 & I9 & B). rewrite E0, E9. cbn [bind].
    set (acc' := (min2 (fst acc) x0, max2 (snd acc) x9)). destruct (IH (fun c' Hc => H c' (or_intror Hc)) acc') as (r & Er & Cov & L1 & L2 & M1 & M2). exists r. split; [exact Er|].
    assert (A1 : fst acc' <= fst acc /\ fst acc' <= x0 /\ (fst acc' = fst acc \/ fst acc' = x0)) by (unfold acc', min2; cbn [fst snd]; destruct (qlt (fst acc) x0) eqn:E; ql; repeat split; try lra; auto).
    assert (A2 : snd acc <= snd acc' /\ x9 <= snd acc' /\ (snd acc' = snd acc \/ snd acc' = x9)) by (unfold acc', max2; cbn [fst snd]; destruct (qlt x9 (snd acc)) eqn:E; ql; repeat split; try lra; auto).
    clearbody acc'. split.
    + intros v (c' & [<- |Hc] & Hv).
      * specialize (B v Hv). lra.
      * apply Cov. now exists c'.
    + split; [lra|]. split; [lra|]. split.
      * destruct M1 as [M1|(c' & Hc & Hv)]; [|right; exists c'; split; [now right|exact Hv]]. destruct A1 as (_ & _ & [A1|A1]); rewrite M1, A1; [now left|right]. exists c. split; [now left|exact I0].
      * destruct M2 as [M2|(c' & Hc & Hv)]; [|right; exists c'; split; [now right|exact Hv]]. destruct A2 as (_ & _ & [A2|A2]); rewrite M2, A2; [now left|right]. exists c. split; [now left|exact I9].
Qed.

(** ** resampling *)
Lemma between y1 y2 x1 x2 x lo hi : x1 < x2 -> x1 <= x -> x <= x2 -> lo <= y1 -> y1 <= hi -> lo <= y2 -> y2 <= hi ->
  lo <= y1 + (y2 - y1) * (x - x1) / (x2 - x1) /\ y1 + (y2 - y1) * (x - x1) / (x2 - x1) <= hi.
Proof.
  intros Hx H1 H2 A B C D. set (t := (x - x1) / (x2 - x1)).
  assert (T0 : 0 <= t) by (apply Qle_shift_div_l; lra). assert (T1 : t <= 1) by (apply Qle_shift_div_r; lra).
  assert (E : y1 + (y2 - y1) * (x - x1) / (x2 - x1) == y1 + (y2 - y1) * t) by (unfold t; field; lra). rewrite E. clearbody t. split; nra.
Qed.
Lemma bin_ok xs : rising xs -> forall ys x x0 x9 lo hi, length ys = length xs -> (2 <= length xs)%nat -> firstq xs = Ok x0 -> lastq xs = Ok x9 -> x0 <= x -> x <= x9 ->
  (forall y, In y ys -> lo <= y /\ y <= hi) -> exists y, bin xs ys x = Ok y /\ lo <= y /\ y <= hi.
Proof.
  induction 1 as [x|x1 x2 l Hx R IH]; intros ys x' x0 x9 lo hi Ly Lx F La B0 B9 Hy; [cbn in Lx; lia|].
  destruct ys as [|y1 [|y2 ys]]; cbn in Ly; try lia. cbn [firstq] in F. injection F as <-. cbn [bin].
  destruct (Qle_bool x1 x' && Qle_bool x' x2)%bool eqn:E.
  - apply Bool.andb_true_iff in E. destruct E as (E1 & E2). apply Qle_bool_iff in E1, E2. rewrite qeqb_false by lra. eexists. split; [reflexivity|].
    destruct (Hy y1 (or_introl eq_refl)). destruct (Hy y2 (or_intror (or_introl eq_refl))). now apply between.
  - assert (x2 < x').
    { apply Bool.andb_false_iff in E. destruct (Qlt_le_dec x2 x') as [L|L]; [exact L|]. destruct E as [E|E]; [apply Qle_bool_iff in B0|apply Qle_bool_iff in L]; congruence. }
    rewrite lastq_cons in La. destruct l as [|x3 l].
    + cbn in La. injection La as <-. lra.
    + apply (IH (tl (y1 :: y2 :: ys)) x' x2 x9); cbn [tl length] in *; try lia; try reflexivity; try exact La; try lra. intros y Iy. apply Hy. now right.
Qed.
Lemma mapo_ok {A B} (f : A -> outcome B) (P : B -> Prop) l : (forall a, In a l -> exists b, f a = Ok b /\ P b) -> exists bs, mapo f l = Ok bs /\ length bs = length l /\ Forall P bs.
Proof.
  induction l as [|a l IH]; intro H; [exists []; repeat split; constructor|]. destruct (H a (or_introl eq_refl)) as (b & Eb & Pb). destruct (IH (fun a' Ha => H a' (or_intror Ha))) as (bs & E & L & F).
  exists (b :: bs). cbn [mapo]. rewrite Eb. cbn [bind]. rewrite E. cbn [bind]. split; [reflexivity|]. split; [cbn; lia|now constructor].
Qed.
Lemma set_nth_length {A} i (v : A) l : (i < length l)%nat -> length (set_nth i v l) = length l.
Proof. intro H. unfold set_nth. rewrite app_length. cbn [length]. rewrite firstn_length, skipn_length. lia. Qed.
Lemma set_nth_forall {A} (P : A -> Prop) i v l : P v -> Forall P l -> Forall P (set_nth i v l).
Proof. intros Pv F. unfold set_nth. rewrite Forall_app. split; [|constructor; [exact Pv|]]; rewrite Forall_forall in *; intros x Hx; apply F; [|]. - rewrite <- (firstn_skipn i l). apply in_or_app. now left. - rewrite <- (firstn_skipn (S i) l). apply in_or_app. now right. Qed.
Lemma put_ok {A} i (v : A) l : (i < length l)%nat -> put i v l = Ok (set_nth i v l).
Proof. intro H. unfold put. destruct (Nat.ltb_spec i (length l)); [reflexivity|lia]. Qed.
Lemma inj_minus1 z : inject_Z z - 1 == inject_Z (z - 1).
Proof. rewrite <- (inject_Z_opp 1) || idtac. unfold Qminus. change (- (1))%Q with (inject_Z (-1)). rewrite <- inject_Z_plus. reflexivity. Qed.
Lemma sample_between n i x0 x9 : (2 <= n)%Z -> (0 <= i <= n - 1)%Z -> x0 < x9 ->
  x0 <= inject_Z i / (inject_Z n - 1) * (x9 - x0) + x0 /\ inject_Z i / (inject_Z n - 1) * (x9 - x0) + x0 <= x9.
Proof.
  intros Hn Hi Hx. assert (E : inject_Z n - 1 == inject_Z (n - 1)) by apply inj_minus1. rewrite E.
  assert (P : 0 < inject_Z (n - 1)) by (change 0 with (inject_Z 0); rewrite <- Zlt_Qlt; lia).
  assert (I0 : 0 <= inject_Z i) by (change 0 with (inject_Z 0); rewrite <- Zle_Qle; lia). assert (I1 : inject_Z i <= inject_Z (n - 1)) by (rewrite <- Zle_Qle; lia).
  set (t := inject_Z i / inject_Z (n - 1)). assert (T0 : 0 <= t) by (apply Qle_shift_div_l; lra). assert (T1 : t <= 1) by (apply Qle_shift_div_r; lra). clearbody t. split; nra.
Qed.
Lemma lastq_in l : l <> [] -> exists z, lastq l = Ok z /\ In z l.
Proof.
  intro H. unfold lastq. destruct (rev l) as [|a r] eqn:E; [apply (f_equal (@rev Q)) in E; rewrite rev_involutive in E; now contradict H|].
  exists a. split; [reflexivity|]. apply in_rev. rewrite E. now left.
Qed.
(** the interpolated values stay between the extreme values of the curve *)
Lemma resample_ok c n lo hi : plottable c -> (1 <= n)%Z -> (forall y, In y (cy c) -> lo <= y /\ y <= hi) ->
  exists vals, resample (cx c) (cy c) n = Ok vals /\ length vals = Z.to_nat n /\ Forall (fun y => lo <= y /\ y <= hi) vals.
Proof.
  intros Pc Hn Hy. destruct (plottable_ends c Pc) as (x0 & x9 & E0 & E9 & Hx & _ & _ & B). destruct Pc as (L2 & Ly & R). unfold resample.
  destruct (Z.ltb_spec n 0); [lia|]. destruct (Z.eqb_spec (Z.of_nat (length (cy c))) n) as [En|Nn].
  - exists (cy c). split; [reflexivity|]. split; [lia|]. now apply Forall_forall.
  - rewrite E0, E9. cbn [bind].
    assert (Ny : cy c <> []) by (intro E; rewrite E in Ly; cbn in Ly; lia).
    destruct (lastq_in (cy c) Ny) as (y9 & Ey9 & Iy9). destruct (cy c) as [|y0 ys] eqn:Ey; [congruence|].
    assert (D : exists data, (if Nat.eqb (Z.to_nat n) 1 then Ok [0] else mapo (fun i => bin (cx c) (y0 :: ys) (inject_Z (Z.of_nat i) / (inject_Z n - 1) * (x9 - x0) + x0)) (seq 0 (Z.to_nat n))) = Ok data
      /\ length data = Z.to_nat n /\ (Z.to_nat n = 1%nat \/ Forall (fun y => lo <= y /\ y <= hi) data)).
    { destruct (Nat.eqb_spec (Z.to_nat n) 1) as [E1|N1]; [exists [0]; cbn; repeat split; [lia|now left]|].
      destruct (mapo_ok (fun i => bin (cx c) (y0 :: ys) (inject_Z (Z.of_nat i) / (inject_Z n - 1) * (x9 - x0) + x0)) (fun y => lo <= y /\ y <= hi) (seq 0 (Z.to_nat n))) as (bs & E & Lb & F).
      - intros i Hi. apply in_seq in Hi. destruct (sample_between n (Z.of_nat i) x0 x9) as (S0 & S9); try lia; try exact Hx. apply (bin_ok (cx c) R _ _ x0 x9); auto.
      - exists bs. split; [exact E|]. rewrite seq_length in Lb. auto. }
    destruct D as (data & Ed & Ld & Fd). rewrite Ed. cbn [bind]. change (firstq (y0 :: ys)) with (Ok y0). cbn [bind]. rewrite Ey9. cbn [bind].
    rewrite put_ok by lia. cbn [bind]. rewrite put_ok by (rewrite set_nth_length; lia). eexists. split; [reflexivity|]. split; [rewrite !set_nth_length; rewrite ?set_nth_length; lia|].
    assert (Y0 : lo <= y0 /\ y0 <= hi) by (apply Hy; now left). assert (Y9 : lo <= y9 /\ y9 <= hi) by now apply Hy.
    destruct Fd as [E1|Fd]; [|now repeat apply set_nth_forall].
    rewrite E1 in *. destruct data as [|d [|? ?]]; cbn in Ld; try lia. cbn. constructor; [exact Y9|constructor].
Qed.

(** ** drawing *)
Lemma Forall_nth_error {A} (P : A -> Prop) l i x : Forall P l -> nth_error l i = Some x -> P x.
Proof. intros F E. rewrite Forall_forall in F. apply F. now apply nth_error_In in E. Qed.
Lemma set_nth_in {A} i (v : A) l : In v (set_nth i v l).
Proof. unfold set_nth. apply in_or_app. right. now left. Qed.
Lemma set_nth_nth {A} i (v : A) l k : (i < length l)%nat -> nth_error (set_nth i v l) k = if Nat.eqb k i then Some v else nth_error l k.
Proof.
  intro H. unfold set_nth. revert l k H. induction i as [|i IH]; intros [|a l] k H; cbn in H; try lia.
  - destruct k as [|k]; reflexivity.
  - destruct k as [|k]; [reflexivity|]. cbn [firstn skipn app nth_error]. rewrite IH by lia. reflexivity.
Qed.
Lemma mark_ok w h i j c p ms : sized w h p -> (i < w)%nat -> (j < h)%nat -> only ms p -> In c ms ->
  exists p', mark i j c p = Ok p' /\ sized w h p' /\ only ms p' /\ drawn c i p' /\ forall k m, k <> i -> drawn m k p -> drawn m k p'.
Proof.
  intros (Lp & Fp) Hi Hj O Ic. unfold mark. destruct (nth_error p i) as [col|] eqn:E; [|apply nth_error_None in E; lia].
  assert (Lc : length col = h) by (exact (Forall_nth_error _ _ _ _ Fp E)). rewrite put_ok by lia. cbn [bind]. rewrite put_ok by lia.
  exists (set_nth i (set_nth j c col) p). split; [reflexivity|]. split; [|split; [|split]].
  - split; [rewrite set_nth_length; lia|]. apply set_nth_forall; [rewrite set_nth_length; lia|exact Fp].
  - apply set_nth_forall; [|exact O]. apply set_nth_forall; [now right|]. exact (Forall_nth_error _ _ _ _ O E).
  - exists (set_nth j c col). split; [rewrite set_nth_nth by lia; now rewrite Nat.eqb_refl|apply set_nth_in].
  - intros k m Hk (col' & Ec & Im). exists col'. split; [|exact Im]. rewrite set_nth_nth by lia. destruct (Nat.eqb_spec k i); [lia|exact Ec].
Qed.
Lemma clampi_ok z h : (1 <= h)%Z -> (0 <= clampi z h < h)%Z.
Proof. intro H. unfold clampi. destruct (Z.gtb_spec 0 z); [destruct (Z.ltb_spec 0 (h - 1))|destruct (Z.ltb_spec z (h - 1))]; lia. Qed.
Lemma to_int_ok v lo hi h : lo < hi -> lo <= v -> v <= hi -> (0 <= h < 2 ^ 31)%Z -> exists z, to_int ((v - lo) * inject_Z h / (hi - lo)) = Ok z.
Proof.
  intros Hl H1 H2 Hh. set (q := (v - lo) * inject_Z h / (hi - lo)).
  assert (Ih : 0 <= inject_Z h) by (change 0 with (inject_Z 0); rewrite <- Zle_Qle; lia).
  assert (E : q == (v - lo) / (hi - lo) * inject_Z h) by (unfold q; field; lra). set (t := (v - lo) / (hi - lo)) in *.
  assert (T0 : 0 <= t) by (apply Qle_shift_div_l; lra). assert (T1 : t <= 1) by (apply Qle_shift_div_r; lra).
  assert (Q0 : 0 <= q) by (rewrite E; clearbody t; nra). assert (Q1 : q <= inject_Z h) by (rewrite E; clearbody t; nra).
  unfold to_int, trunc. rewrite (proj2 (qlt_f q 0) Q0). exists (Qfloor q).
  assert (F0 : (0 <= Qfloor q)%Z) by (change 0%Z with (Qfloor (inject_Z 0)); now apply Qfloor_resp_le).
  assert (F1 : (Qfloor q <= h)%Z) by (rewrite <- (Qfloor_Z h); now apply Qfloor_resp_le).
  destruct (Z.leb_spec (- 2 ^ 31) (Qfloor q)); [|lia]. destruct (Z.ltb_spec (Qfloor q) (2 ^ 31)); [reflexivity|lia].
Qed.
Lemma draw_column_ok w h ymin ymax c ms : (1 <= h)%nat -> (Z.of_nat h < 2 ^ 31)%Z -> ymin < ymax -> In c ms -> forall vals first p, Forall (fun y => ymin <= y /\ y <= ymax) vals ->
  (first + length vals <= w)%nat -> sized w h p -> only ms p ->
  exists p', draw_column first vals ymin ymax h c p = Ok p' /\ sized w h p' /\ only ms p' /\ (forall k, (first <= k < first + length vals)%nat -> drawn c k p') /\
    (forall k m, (k < first)%nat -> drawn m k p -> drawn m k p').
Proof.
  intros Hh Hi Hy Ic. induction vals as [|v vals IH]; intros first p F Lw Sp O.
  - exists p. split; [reflexivity|]. split; [exact Sp|]. split; [exact O|]. split; [cbn; intros; lia|auto].
  - cbn [draw_column]. inversion F as [|? ? (V1 & V2) F']; subst. rewrite qeqb_false by lra.
    destruct (to_int_ok v ymin ymax (Z.of_nat h) Hy V1 V2 ltac:(lia)) as (z & ->). cbn [bind].
    pose proof (clampi_ok z (Z.of_nat h) ltac:(lia)) as Cl. set (j := clampi z (Z.of_nat h)) in *. destruct (Z.ltb_spec j 0); [lia|]. cbn [length] in Lw.
    destruct (mark_ok w h first (Z.to_nat j) c p ms Sp ltac:(lia) ltac:(lia) O Ic) as (p1 & -> & S1 & O1 & D1 & K1). cbn [bind].
    destruct (IH (S first) p1 F' ltac:(lia) S1 O1) as (p2 & E2 & S2 & O2 & D2 & K2).
    exists p2. split; [exact E2|]. split; [exact S2|]. split; [exact O2|]. cbn [length]. split.
    + intros k Hk. destruct (Nat.eq_dec k first) as [-> |Nk]; [apply K2; [lia|exact D1]|apply D2; lia].
    + intros k m Hk Dk. apply K2; [lia|]. apply K1; [lia|exact Dk].
Qed.
Lemma columns w xmin xmax x0 x9 : (1 <= w)%nat -> xmin < xmax -> xmin <= x0 -> x0 < x9 -> x9 <= xmax ->
  (0 <= nBefore w xmin xmax x0)%Z /\ (0 <= nAfter w xmin xmax x9)%Z /\ (1 <= Z.of_nat w - nBefore w xmin xmax x0 - nAfter w xmin xmax x9)%Z.
Proof.
  intros Hw Hx H1 H2 H3. unfold nBefore, nAfter. set (W := inject_Z (Z.of_nat w)). assert (Wp : 0 < W) by (unfold W; change 0 with (inject_Z 0); rewrite <- Zlt_Qlt; lia).
  set (a := W * (x0 - xmin) / (xmax - xmin)). set (b := W * (xmax - x9) / (xmax - xmin)).
  assert (A0 : 0 <= a) by (apply Qle_shift_div_l; [lra|]; rewrite Qmult_0_l; apply Qmult_le_0_compat; lra).
  assert (B0 : 0 <= b) by (apply Qle_shift_div_l; [lra|]; rewrite Qmult_0_l; apply Qmult_le_0_compat; lra).
  assert (S : a + b < W).
  { assert (E : a + b == W * ((x0 - xmin) + (xmax - x9)) / (xmax - xmin)) by (unfold a, b; field; lra). rewrite E. apply Qlt_shift_div_r; [lra|].
    apply (proj2 (Qmult_lt_l ((x0 - xmin) + (xmax - x9)) (xmax - xmin) W Wp)). lra. }
  pose proof (Qfloor_le a). pose proof (Qfloor_le b).
  assert (Fa : (0 <= Qfloor a)%Z) by (change 0%Z with (Qfloor (inject_Z 0)); now apply Qfloor_resp_le).
  assert (Fb : (0 <= Qfloor b)%Z) by (change 0%Z with (Qfloor (inject_Z 0)); now apply Qfloor_resp_le).
  split; [exact Fa|]. split; [exact Fb|]. assert (K : inject_Z (Qfloor a + Qfloor b) < inject_Z (Z.of_nat w)) by (rewrite inject_Z_plus; fold W; lra).
  rewrite <- Zlt_Qlt in K. lia.
Qed.
Lemma draw_ok w h xmin xmax ymin ymax c p ms : (1 <= w)%nat -> (1 <= h)%nat -> (Z.of_nat h < 2 ^ 31)%Z -> ymin < ymax -> plottable c -> In (cmark c) ms ->
  (forall x, In x (cx c) -> xmin <= x /\ x <= xmax) -> (forall y, In y (cy c) -> ymin <= y /\ y <= ymax) -> sized w h p -> only ms p ->
  exists p', draw w h xmin xmax ymin ymax c p = Ok p' /\ sized w h p' /\ only ms p' /\ exists k, drawn (cmark c) k p'.
Proof.
  intros Hw Hh Hi Hy Pc Im Bx By Sp O. destruct (plottable_ends c Pc) as (x0 & x9 & E0 & E9 & Hx & I0 & I9 & B). unfold draw. rewrite E0, E9. cbn [bind].
  destruct (Bx x0 I0). destruct (Bx x9 I9). rewrite qeqb_false by lra.
  destruct (columns w xmin xmax x0 x9) as (N1 & N2 & N3); try assumption; try lra.
  destruct (resample_ok c _ ymin ymax Pc N3 By) as (vals & -> & Lv & Fv). cbn [bind].
  destruct (draw_column_ok w h ymin ymax (cmark c) ms Hh Hi Hy Im vals (Z.to_nat (nBefore w xmin xmax x0)) p Fv ltac:(lia) Sp O) as (p' & -> & S' & O' & D & _).
  exists p'. split; [reflexivity|]. split; [exact S'|]. split; [exact O'|]. exists (Z.to_nat (nBefore w xmin xmax x0)). apply D. lia.
Qed.
Lemma draw_all_ok w h xmin xmax ymin ymax ms : (1 <= w)%nat -> (1 <= h)%nat -> (Z.of_nat h < 2 ^ 31)%Z -> ymin < ymax -> forall cs p, (forall c, In c cs -> plottable c /\ In (cmark c) ms) ->
  covers (xmin, xmax) (is_abscissa cs) -> covers (ymin, ymax) (is_value cs) -> sized w h p -> only ms p ->
  exists p', draw_all w h xmin xmax ymin ymax cs p = Ok p' /\ sized w h p' /\ only ms p' /\ (forall c l, cs = l ++ [c] -> exists k, drawn (cmark c) k p').
Proof.
  intros Hw Hh Hi Hy. induction cs as [|c cs IH]; intros p H Cx Cy Sp O.
  - exists p. repeat split; try apply Sp; try exact O. intros c l E. now destruct l.
  - destruct (H c (or_introl eq_refl)) as (Pc & Ic). cbn [draw_all].
    destruct (draw_ok w h xmin xmax ymin ymax c p ms Hw Hh Hi Hy Pc Ic) as (p1 & -> & S1 & O1 & D1); try assumption.
    + intros x Hx. apply (Cx x). exists c. split; [now left|exact Hx].
    + intros y Hv. apply (Cy y). exists c. split; [now left|exact Hv].
    + cbn [bind]. destruct (IH p1) as (p2 & E2 & S2 & O2 & D2); try assumption.
      * intros c' Hc. apply H. now right.
      * intros v (c' & Hc & Hv). apply Cx. exists c'. split; [now right|exact Hv].
      * intros v (c' & Hc & Hv). apply Cy. exists c'. split; [now right|exact Hv].
      * exists p2. split; [exact E2|]. split; [exact S2|]. split; [exact O2|]. intros c' l El. destruct l as [|d l].
        -- injection El as <- ->. cbn in E2. injection E2 as <-. exact D1.
        -- injection El as <- El. now apply (D2 c' l).
Qed.
Lemma blank_ok w h ms : sized w h (blank w h) /\ only ms (blank w h).
Proof.
  unfold blank. split; [split; [apply repeat_length|]|]; apply Forall_forall; intros col Hc; apply repeat_spec in Hc; subst col; [apply repeat_length|].
  apply Forall_forall. intros a Ha. apply repeat_spec in Ha. now left.
Qed.
Lemma addPlots_ok new : forall cs, (length cs + length new <= 10)%nat -> addPlots cs new = Ok (cs ++ new).
Proof.
  induction new as [|c new IH]; intros cs H; cbn [addPlots]; [now rewrite app_nil_r|]. cbn [length] in H. unfold addPlot.
  destruct (Nat.ltb_spec (length cs) MAX_CURVES) as [L|L]; [|unfold MAX_CURVES in L; lia]. cbn [bind]. rewrite IH by (rewrite app_length; cbn; lia). now rewrite <- app_assoc.
Qed.
Lemma addPlots_over new : forall cs, (length cs <= 10)%nat -> (10 < length cs + length new)%nat -> addPlots cs new = UB.
Proof.
  induction new as [|c new IH]; intros cs H1 H2; cbn [length] in H2; [lia|]. cbn [addPlots]. unfold addPlot.
  destruct (Nat.ltb_spec (length cs) MAX_CURVES) as [L|L]; unfold MAX_CURVES in L; [|reflexivity]. cbn [bind]. apply IH; rewrite app_length; cbn; lia.
Qed.
Lemma size_t_small z : (0 <= z < 2 ^ 64)%Z -> size_t z = z.
Proof. intro H. unfold size_t. now apply Z.mod_small. Qed.
Lemma title_ok w t : (t <= w)%nat -> (Z.of_nat w < 2 ^ 31)%Z -> title_pad w t = (9 + (Z.of_nat w - Z.of_nat t) / 2)%Z.
Proof.
  intros H1 H2. unfold title_pad. rewrite (size_t_small (Z.of_nat w - Z.of_nat t)) by lia. set (d := (Z.of_nat w - Z.of_nat t)%Z).
  assert (0 <= d / 2 <= d)%Z by (split; [apply Z.div_pos; lia|apply Z.div_le_upper_bound; lia]). rewrite size_t_small by lia. lia.
Qed.
(** a title two characters longer than the plot: about 2^63 blanks *)
Lemma title_huge w t : (w < t)%nat -> (Z.of_nat t < 2 ^ 31)%Z -> (2 ^ 62 < title_pad w t)%Z.
Proof.
  intros H1 H2. unfold title_pad, size_t at 2. rewrite <- (Z_mod_plus_full _ 1). rewrite Z.mod_small by lia.
  set (d := (Z.of_nat w - Z.of_nat t + 1 * 2 ^ 64)%Z). assert (2 ^ 64 - 2 ^ 31 <= d < 2 ^ 64)%Z by (unfold d; lia).
  assert (2 ^ 63 - 2 ^ 30 <= d / 2)%Z by (apply Z.div_le_lower_bound; lia). assert (d / 2 < 2 ^ 63)%Z by (apply Z.div_lt_upper_bound; lia). rewrite size_t_small by lia. lia.
Qed.
Lemma legend_ok w n : (n + 5 <= w)%nat -> (Z.of_nat w < 2 ^ 31)%Z -> legend_pad w n = (Z.of_nat w - Z.of_nat n - 5)%Z.
Proof. intros H1 H2. unfold legend_pad. rewrite (size_t_small (Z.of_nat w - Z.of_nat n)) by lia. rewrite size_t_small by lia. reflexivity. Qed.
Lemma legend_huge w n : (w < n + 5)%nat -> (Z.of_nat w < 2 ^ 31)%Z -> (Z.of_nat n < 2 ^ 31)%Z -> (2 ^ 62 < legend_pad w n)%Z.
Proof.
  intros H1 H2 H3. unfold legend_pad, size_t. rewrite Zminus_mod_idemp_l. rewrite <- (Z_mod_plus_full _ 1). rewrite Z.mod_small by lia. lia.
Qed.

Lemma show_ok w h title legend cs : (1 <= w)%nat -> (Z.of_nat w < 2 ^ 31)%Z -> (1 <= h)%nat -> (Z.of_nat h < 2 ^ 31)%Z -> cs <> [] -> (forall c, In c cs -> plottable c) -> not_flat cs ->
  exists r, show w h title legend cs = Ok r /\ covers (s_x r) (is_abscissa cs) /\ is_abscissa cs (fst (s_x r)) /\ is_abscissa cs (snd (s_x r)) /\ covers (s_y r) (is_value cs) /\
    (fst (s_y r) = fst y_start \/ is_value cs (fst (s_y r))) /\ (snd (s_y r) = snd y_start \/ is_value cs (snd (s_y r))) /\
    sized w h (s_plane r) /\ only (map cmark cs) (s_plane r) /\ (forall c l, cs = l ++ [c] -> exists k, drawn (cmark c) k (s_plane r)) /\
    s_title r = title_pad w title /\ s_legend r = if legend then map (fun c => legend_pad w (clabel c)) cs else [].
Proof.
  intros Hw Hwi Hh Hi Ne Hc (y & z & Vy & Vz & Hyz). destruct cs as [|c0 cs0] eqn:Ecs; [congruence|]. rewrite <- Ecs in *. clear Ne.
  assert (I0 : In c0 cs) by (rewrite Ecs; now left). destruct (plottable_ends c0 (Hc c0 I0)) as (a & b & Ea & Eb & Hab & Ia & Ib & _).
  destruct (x_range_ok cs Hc (a, b)) as (xr & Exr & Cx & _ & _ & Mx1 & Mx2).
  assert (Hy : forall c, In c cs -> cy c <> []) by (intros c Hin E; destruct (Hc c Hin) as (L2 & Ly & _); rewrite E in Ly; cbn in Ly; lia).
  destruct (y_range_ok cs y_start Hy) as (yr & Eyr & Cy & _ & _ & My1 & My2).
  assert (Ylt : fst yr < snd yr) by (pose proof (Cy y Vy); pose proof (Cy z Vz); lra).
  destruct (blank_ok w h (map cmark cs)) as (Sb & Ob).
  destruct (draw_all_ok w h (fst xr) (snd xr) (fst yr) (snd yr) (map cmark cs) Hw Hh Hi Ylt cs (blank w h)) as (p & Ep & Sp & Op & Dp); try assumption.
  { intros c Hin. split; [now apply Hc|now apply in_map]. }
  unfold show. rewrite Ecs. rewrite Ea, Eb. cbn [bind]. rewrite <- Ecs. rewrite Exr. cbn [bind]. rewrite Eyr. cbn [bind]. rewrite Ep. cbn [bind].
  eexists. split; [reflexivity|]. cbn [s_x s_y s_plane s_title s_legend]. split; [exact Cx|].
  split; [destruct Mx1 as [-> |M]; [exists c0; now split|exact M]|]. split; [destruct Mx2 as [-> |M]; [exists c0; now split|exact M]|].
  split; [exact Cy|]. split; [exact My1|]. split; [exact My2|]. split; [exact Sp|]. split; [exact Op|]. split; [exact Dp|]. now split.
Qed.
