From Coq Require Import Lqa Lia.
From Verif.Model Require Import Base Track.
From Verif.Spec Require Import TrackSpec.
Open Scope Q_scope.

Lemma Qltb_true a b : Qltb a b = true <-> a < b.
Proof.
  unfold Qltb. rewrite negb_true_iff. split; intro H.
  - apply Qnot_le_lt. intro L. apply Qle_bool_iff in L. congruence.
  - apply not_true_is_false. intro L. apply Qle_bool_iff in L. apply (Qlt_not_le _ _ H L).
Qed.
Lemma Qltb_false a b : Qltb a b = false <-> b <= a.
Proof. unfold Qltb. rewrite negb_false_iff. apply Qle_bool_iff. Qed.
Lemma Qle_bool_false a b : Qle_bool a b = false <-> b < a.
Proof.
  split; intro H.
  - apply Qnot_le_lt. intro L. apply Qle_bool_iff in L. congruence.
  - apply not_true_is_false. intro L. apply Qle_bool_iff in L. apply (Qlt_not_le _ _ H L).
Qed.
Lemma Qeq_bool_false a b : Qeq_bool a b = false <-> ~ a == b.
Proof.
  split; intro H.
  - intro L. apply Qeq_bool_iff in L. congruence.
  - apply not_true_is_false. intro L. apply Qeq_bool_iff in L. auto.
Qed.

(** signed distance along the tracking direction *)
Definition v (dir : bool) (x : Q) : Q := if dir then x else - x.

Lemma v_abs dir x : 0 <= v dir x -> Qabs x == v dir x.
Proof. unfold v. destruct dir; intro H; [now apply Qabs_pos|]. rewrite Qabs_neg; lra. Qed.
Lemma v_between dir a x b : v dir a <= v dir x <= v dir b -> between a x b.
Proof. unfold v, between. destruct dir; intros; [left|right]; lra. Qed.
Lemma between_v dir a x b : v dir a <= v dir b -> between a x b -> v dir a <= v dir x <= v dir b.
Proof. unfold v, between. destruct dir; intros; lra. Qed.
Lemma v_sub dir a b : v dir (a - b) == v dir a - v dir b.
Proof. unfold v. destruct dir; lra. Qed.
Lemma v_add dir a b : v dir (a + b) == v dir a + v dir b.
Proof. unfold v. destruct dir; lra. Qed.
Lemma v_red dir a : v dir (Qred a) == v dir a.
Proof. unfold v. destruct dir; now rewrite Qred_correct. Qed.
Lemma v_mul dir a c : v dir (a * c) == v dir a * c.
Proof. unfold v. destruct dir; lra. Qed.

Section Run.
Variable unprotected : bool.
Variables th init fin d0 : Q.
Variable oracle : nat -> Q -> Q -> probe.
Variable dir : bool.
Hypothesis th_pos : 0 < th.
Hypothesis d0_pos : 0 < v dir d0.
Hypothesis range : v dir init <= v dir fin.
Hypothesis dist_nonneg : forall k T d, 0 <= dist (oracle k T d).

Let D0 := v dir d0.

Lemma next_dt_range d ds : 0 < v dir d -> v dir d <= D0 -> 0 <= ds ->
  0 < v dir (next_dt th d0 d ds) <= D0.
Proof.
  intros Hd Hle Hds. unfold next_dt, D0 in *. destruct (Qeq_bool ds 0) eqn:E; [lra|].
  apply Qeq_bool_false in E. assert (Pds : 0 < ds) by lra.
  set (f := (1 # 2) * th / ds).
  assert (Pf : 0 < f) by (unfold f; apply Qlt_shift_div_l; lra).
  assert (P : 0 < v dir (Qred (d * f))) by (rewrite v_red, v_mul; apply Qmult_lt_0_compat; auto).
  cbv zeta. destruct (Qle_bool (Qabs d0) (Qabs (Qred (d * f)))) eqn:F; [lra|].
  apply Qle_bool_false in F. rewrite (v_abs dir) in F by lra. rewrite (v_abs dir d0) in F by lra. lra.
Qed.

Lemma loop_entered c d : 0 < v dir d -> v dir c <= v dir fin -> loop_cond fin c d = true.
Proof.
  intros Hd Hc. unfold loop_cond. destruct (Qeq_bool d 0) eqn:E.
  - apply Qeq_bool_iff in E. exfalso. unfold v in Hd. destruct dir; lra.
  - apply Qle_bool_iff. unfold v in *. destruct dir.
    + apply Qle_shift_div_l; lra.
    + setoid_replace ((fin - c) / d) with ((c - fin) / - d) by (field; lra).
      apply Qle_shift_div_l; lra.
Qed.

Lemma advance_spec s :
  0 < v dir (dt s) -> v dir (cur s) <= v dir fin ->
  (cur s == fin /\ advance fin s = Halt (rev (recs s))) \/
  (v dir (cur s) < v dir fin /\ exists s', advance fin s = Go s' /\ dt s' = dt s /\ in_min s' = in_min s /\ recs s' = recs s /\
     ((v dir (cur s') == v dir (cur s) + v dir (dt s) /\ v dir (cur s') < v dir fin) \/
      (cur s' = fin /\ v dir fin <= v dir (cur s) + v dir (dt s)))).
Proof.
  intros Hd Hc. unfold advance. destruct (Qeq_bool (cur s) fin) eqn:E.
  - left. apply Qeq_bool_iff in E. auto.
  - right. apply Qeq_bool_false in E.
    assert (v dir (cur s) < v dir fin) by (unfold v in *; destruct dir; lra). split; [auto|].
    assert (A1 : Qabs (dt s) == v dir (dt s)) by (apply v_abs; lra).
    assert (A2 : Qabs (fin - cur s) == v dir fin - v dir (cur s)) by (rewrite (v_abs dir); [apply v_sub|rewrite v_sub; lra]).
    destruct (Qltb (Qabs (dt s)) (Qabs (fin - cur s))) eqn:F.
    + apply Qltb_true in F. eexists. split; [reflexivity|]. cbn [cur dt in_min recs].
      do 3 (split; [reflexivity|]). left. rewrite v_red, v_add. split; lra.
    + apply Qltb_false in F. eexists. split; [reflexivity|]. cbn [cur dt in_min recs].
      do 3 (split; [reflexivity|]). right. split; [auto|lra].
Qed.

(** * C13, coarse bound: never beyond finalT, at most one initial step before initialT *)
Definition near (T : Q) : Prop := v dir init - D0 <= v dir T <= v dir fin.
Record inv (s : tstate) : Prop := {
  i_dt : 0 < v dir (dt s) <= D0;
  i_cur : v dir (cur s) <= v dir fin;
  i_back : v dir init - D0 <= v dir (cur s) - v dir (dt s);
  i_recs : Forall near (recs s) }.

Hypothesis zero_ok : forall k T d, zero_T (oracle k T d) <= 0 \/ between (T - d) (zero_T (oracle k T d)) T.

Lemma advance_inv s :
  0 < v dir (dt s) <= D0 -> v dir init - D0 <= v dir (cur s) <= v dir fin -> Forall near (recs s) ->
  match advance fin s with Halt l => Forall near l | Go s' => inv s' end.
Proof.
  intros Hd Hc Hr. destruct (advance_spec s) as [[E ->]|(L & s' & -> & E1 & E2 & E3 & C)]; try lra.
  - now apply Forall_rev.
  - split; rewrite ?E1, ?E3; auto.
    + destruct C as [[C1 C2]|[-> C]]; lra.
    + destruct C as [[C1 C2]|[-> C]]; lra.
Qed.

Lemma step_inv k s : inv s ->
  match track_step unprotected th init fin d0 (oracle k (cur s) (dt s)) s with
  | Halt l => Forall near l | Go s' => inv s' end.
Proof.
  intros [Hd Hc Hb Hr]. unfold track_step. set (p := oracle k (cur s) (dt s)).
  destruct (Qltb (Qabs (dt s)) min_step); [now apply Forall_rev|].
  assert (Nc : near (cur s)) by (unfold near; lra).
  destruct (grad_big p || Qltb th (dist p) || has_nan p).
  - destruct (Qeq_bool init (cur s)); [now apply Forall_rev|].
    apply advance_inv; cbn [dt cur recs]; auto.
    + rewrite v_red. unfold Qdiv. rewrite v_mul. split; [apply Qmult_lt_0_compat; [lra|reflexivity]|].
      change (/ 10) with (1 # 10). lra.
    + rewrite v_red, v_sub. lra.
  - destruct unprotected; [|destruct (neg_eig p)].
    + apply advance_inv; cbn [dt cur recs]; auto. apply next_dt_range; try lra. apply dist_nonneg.
    + destruct (in_min s); [|now apply Forall_rev]. destruct (Qltb 0 (zero_T p)) eqn:Z; [|now apply Forall_rev].
      apply Forall_rev. constructor; [|auto]. apply Qltb_true in Z. destruct (zero_ok k (cur s) (dt s)) as [Hz|Hz]; fold p in Hz; [lra|].
      apply (between_v dir) in Hz; [|rewrite v_sub; lra]. rewrite v_sub in Hz. unfold near. lra.
    + apply advance_inv; cbn [dt cur recs]; auto. apply next_dt_range; try lra. apply dist_nonneg.
Qed.

Lemma loop_near fuel : forall k s l, inv s ->
  track_loop unprotected th init fin d0 oracle fuel k s = Ok l -> Forall near l.
Proof.
  induction fuel as [|f IH]; intros k s l Hi H; [discriminate|]. cbn [track_loop] in H.
  destruct (loop_cond fin (cur s) (dt s)).
  - pose proof (step_inv k s Hi) as St. destruct (track_step _ _ _ _ _ _ _) as [s'|l'].
    + eapply IH; eauto.
    + injection H as <-. exact St.
  - injection H as <-. apply Forall_rev, Hi.
Qed.

(** * C13, exact: in range and monotone when the phase is followed at finalT *)
Hypothesis fin_ok : forall k T d, T == fin -> followed th (oracle k T d).
Definition fin_stable : Prop := forall k T d, T == fin -> unprotected = true \/ neg_eig (oracle k T d) = false.

(** newest-first list: monotone from init *)
Fixpoint mono (l : list Q) : Prop :=
  match l with
  | [] => True
  | x :: r => v dir (hd init r) <= v dir x /\ mono r
  end.
Definition base (s : tstate) : Q := hd init (recs s).

Record inv2 (s : tstate) : Prop := {
  j_dt : 0 < v dir (dt s) <= D0;
  j_cur : v dir (cur s) <= v dir fin;
  j_base : v dir init <= v dir (base s);
  j_mono : mono (recs s);
  j_in : in_min s = true -> recs s <> [];
  j_pos : (recs s = [] /\ cur s = init) \/
          (recs s <> [] /\ v dir (base s) < v dir (cur s) /\
           (v dir (cur s) == v dir (base s) + v dir (dt s) \/ cur s = fin)) }.

Definition fine (l : list Q) : Prop := mono (rev l) /\ Forall (fun T => v dir T <= v dir fin) l.

Lemma mono_bound l : mono l -> v dir init <= v dir (hd init l) .
Proof. induction l as [|x l IH]; cbn; [lra|]. intros [A B]. specialize (IH B). lra. Qed.
Lemma mono_all l : mono l -> v dir (hd init l) <= v dir fin -> Forall (fun T => v dir T <= v dir fin) l.
Proof.
  induction l as [|x l IH]; cbn [mono hd]; intros H H1; [constructor|]. constructor; [auto|].
  destruct H as [A B]. apply IH; [auto|]. lra.
Qed.
Lemma fine_rev l : mono l -> v dir (hd init l) <= v dir fin -> fine (rev l).
Proof. intros A B. split; [now rewrite rev_involutive|]. apply Forall_rev. now apply mono_all. Qed.

Lemma advance_after_record (s : tstate) d im :
  0 < v dir d <= D0 -> v dir (cur s) <= v dir fin -> mono (cur s :: recs s) ->
  match advance fin {| cur := cur s; dt := d; in_min := im; recs := cur s :: recs s |} with
  | Halt l => fine l | Go s' => inv2 s' end.
Proof.
  intros Hd Hc Hm. set (s1 := {| cur := cur s; dt := d; in_min := im; recs := cur s :: recs s |}).
  destruct (advance_spec s1) as [[E ->]|(L & s' & -> & E1 & E2 & E3 & C)]; cbn [s1 dt cur recs] in *; try lra.
  - now apply fine_rev.
  - pose proof (mono_bound _ Hm) as Hb. cbn [hd] in Hb. split; rewrite ?E1; auto.
    + destruct C as [[C1 C2]|[-> C]]; lra.
    + unfold base. rewrite E3. cbn [hd]. auto.
    + rewrite E3. exact Hm.
    + rewrite E3. discriminate.
    + right. unfold base. rewrite E3. cbn [hd]. split; [discriminate|].
      destruct C as [[C1 C2]|[-> C]]; split; try lra; auto.
Qed.

Lemma step_inv2 k s : inv2 s ->
  match track_step unprotected th init fin d0 (oracle k (cur s) (dt s)) s with
  | Halt l => fin_stable -> fine l | Go s' => inv2 s' end.
Proof.
  intros [Hd Hc Hb Hm Hin Hp]. unfold track_step.
  assert (Hfin : cur s == fin -> followed th (oracle k (cur s) (dt s))) by apply fin_ok.
  assert (Hst : fin_stable -> cur s == fin -> unprotected = true \/ neg_eig (oracle k (cur s) (dt s)) = false) by (intro X; apply X).
  pose proof (dist_nonneg k (cur s) (dt s)) as Hds. pose proof (zero_ok k (cur s) (dt s)) as Hz.
  set (p := oracle k (cur s) (dt s)) in *. clearbody p.
  assert (Hbf : v dir (base s) <= v dir fin).
  { destruct Hp as [[E1 E2]|(E1 & E2 & _)]; [|lra]. unfold base. rewrite E1. cbn. lra. }
  assert (Fr : fine (rev (recs s))) by (apply fine_rev; auto).
  assert (Mc : mono (cur s :: recs s)).
  { cbn [mono]. split; [|auto]. fold (base s). destruct Hp as [[E1 E2]|(E1 & E2 & _)]; [|lra]. unfold base. rewrite E1, E2. cbn. lra. }
  destruct (Qltb (Qabs (dt s)) min_step); [auto|].
  destruct (grad_big p || Qltb th (dist p) || has_nan p) eqn:Fl.
  - destruct (Qeq_bool init (cur s)) eqn:Ei; [auto|]. apply Qeq_bool_false in Ei.
    assert (Nf : ~ cur s == fin).
    { intro E. destruct (Hfin E) as (G1 & G2 & G3). rewrite G1, G2 in Fl. cbn [orb] in Fl. rewrite orb_false_r in Fl.
      apply Qltb_true in Fl. lra. }
    destruct Hp as [[E1 E2]|(E1 & E2 & Eb)]; [rewrite E2 in Ei; exfalso; apply Ei; reflexivity|].
    destruct Eb as [Eb|Eb]; [|exfalso; apply Nf; rewrite Eb; reflexivity].
    set (s1 := {| cur := Qred (cur s - dt s); dt := Qred (dt s / 10); in_min := in_min s; recs := recs s |}).
    assert (V1 : v dir (cur s1) == v dir (base s)) by (cbn [s1 cur]; rewrite v_red, v_sub; lra).
    assert (V2 : v dir (dt s1) == v dir (dt s) * (1 # 10)) by (cbn [s1 dt]; rewrite v_red; unfold Qdiv; rewrite v_mul; reflexivity).
    destruct (advance_spec s1) as [[E ->]|(L & s' & -> & E3 & E4 & E5 & C)]; try lra; [intros _; exact Fr|].
    assert (Bs : base s' = base s) by (unfold base; rewrite E5; reflexivity).
    split; rewrite ?E3, ?Bs; [lra| |lra| | |].
    + destruct C as [[C1 C2]|[Ef C]]; [lra|rewrite Ef; lra].
    + rewrite E5. exact Hm.
    + rewrite E5. intros _. exact E1.
    + right. rewrite E5. split; [exact E1|]. destruct C as [[C1 C2]|[-> C]]; split; try lra; auto.
  - destruct unprotected; [|destruct (neg_eig p) eqn:Ne].
    + pose proof (advance_after_record s (next_dt th d0 (dt s) (dist p)) (in_min s) ltac:(apply next_dt_range; lra) Hc Mc) as R.
      destruct (advance _ _); auto.
    + destruct (in_min s) eqn:Im; [|auto]. destruct (Qltb 0 (zero_T p)) eqn:Z; [|auto].
      intro Hfs. apply Qltb_true in Z. destruct Hz as [Hz|Hz]; [lra|].
      assert (Nf : ~ cur s == fin) by (intro E; destruct (Hst Hfs E) as [X|X]; discriminate).
      apply (between_v dir) in Hz; [|rewrite v_sub; lra]. rewrite v_sub in Hz.
      destruct Hp as [[E1 E2]|(E1 & E2 & Eb)].
      * exfalso. apply Hin; auto.
      * destruct Eb as [Eb|Eb]; [|exfalso; apply Nf; rewrite Eb; reflexivity].
        apply fine_rev; cbn [hd mono]; [|lra]. split; [|auto]. fold (base s). lra.
    + pose proof (advance_after_record s (next_dt th d0 (dt s) (dist p)) true ltac:(apply next_dt_range; lra) Hc Mc) as R.
      destruct (advance _ _); auto.
Qed.

Lemma loop_fine fuel : forall k s l, fin_stable -> inv2 s ->
  track_loop unprotected th init fin d0 oracle fuel k s = Ok l -> fine l.
Proof.
  induction fuel as [|f IH]; intros k s l Hst Hi H; [discriminate|]. cbn [track_loop] in H.
  rewrite loop_entered in H by apply Hi.
  pose proof (step_inv2 k s Hi) as St. destruct (track_step _ _ _ _ _ _ _) as [s'|l'].
  - eapply IH; eauto.
  - injection H as <-. auto.
Qed.

(** * C14: termination when the phase is followed at finalT *)
Definition mA (s : tstate) : nat :=
  (Z.to_nat (Qfloor ((v dir fin - v dir (base s)) * 100000)) + match recs s with [] => 1 | _ => 0 end)%nat.
Definition mB (s : tstate) : nat := Z.to_nat (Qfloor (v dir (dt s) * 100000)).

Lemma floor_drop x y : 0 <= y -> y + 1 <= x -> (Z.to_nat (Qfloor y) < Z.to_nat (Qfloor x))%nat.
Proof.
  intros Hy Hx. assert (0 <= Qfloor y)%Z by (change 0%Z with (Qfloor 0); now apply Qfloor_resp_le).
  assert (Qfloor y + 1 <= Qfloor x)%Z; [|lia].
  assert (E : (Qfloor (inject_Z (Qfloor y + 1)) <= Qfloor x)%Z).
  { apply Qfloor_resp_le. rewrite inject_Z_plus. pose proof (Qfloor_le y). change (inject_Z 1) with 1. lra. }
  now rewrite Qfloor_Z in E.
Qed.
Lemma floor_tenth x : 1 <= x -> (Z.to_nat (Qfloor (x * (1 # 10))) < Z.to_nat (Qfloor x))%nat.
Proof.
  intro Hx. assert (1 <= Qfloor x)%Z by (change 1%Z with (Qfloor 1); now apply Qfloor_resp_le).
  assert (Qfloor (x * (1 # 10)) < Qfloor x)%Z; [|lia].
  pose proof (Qfloor_le (x * (1 # 10))) as A. pose proof (Qlt_floor x) as B.
  rewrite inject_Z_plus in B. change (inject_Z 1) with 1 in B.
  assert (C : inject_Z (Qfloor (x * (1 # 10))) < inject_Z (Qfloor x)).
  { assert (D : 1 <= inject_Z (Qfloor x)) by (change 1 with (inject_Z 1); rewrite <- Zle_Qle; lia). lra. }
  now rewrite <- Zlt_Qlt in C.
Qed.

Lemma mA_eq s s' : recs s' = recs s -> mA s' = mA s.
Proof. intro E. unfold mA, base. now rewrite E. Qed.

Lemma step_measure k s s' : inv2 s ->
  track_step unprotected th init fin d0 (oracle k (cur s) (dt s)) s = Go s' ->
  (mA s' < mA s)%nat \/ (mA s' = mA s /\ (mB s' < mB s)%nat).
Proof.
  intros [Hd Hc Hb Hm Hin Hp] H. unfold track_step in H.
  assert (Hfin : cur s == fin -> followed th (oracle k (cur s) (dt s))) by apply fin_ok.
  pose proof (dist_nonneg k (cur s) (dt s)) as Hds.
  set (p := oracle k (cur s) (dt s)) in *. clearbody p.
  destruct (Qltb (Qabs (dt s)) min_step) eqn:Hmin; [discriminate|].
  apply Qltb_false in Hmin. rewrite (v_abs dir) in Hmin by lra. unfold min_step in Hmin.
  assert (Rec : forall d im, 0 < v dir d <= D0 ->
    advance fin {| cur := cur s; dt := d; in_min := im; recs := cur s :: recs s |} = Go s' -> (mA s' < mA s)%nat).
  { intros d im Hdd Ha. set (s1 := {| cur := cur s; dt := d; in_min := im; recs := cur s :: recs s |}) in *.
    destruct (advance_spec s1) as [[_ E]|(L & s2 & E & E1 & E2 & E3 & C)]; cbn [s1 cur dt] in *; try lra; [congruence|].
    rewrite E in Ha. injection Ha as ->. unfold mA, base. rewrite E3. cbn [s1 recs hd].
    destruct Hp as [[F1 F2]|(F1 & F2 & Fb)].
    - rewrite F1. cbn [hd]. rewrite F2. lia.
    - destruct (recs s) as [|r0 rs] eqn:Er; [congruence|]. unfold base in *. rewrite Er in *. cbn [hd] in *. 
      rewrite !Nat.add_0_r.
      destruct Fb as [Fb|Fb]; [|rewrite Fb in L; lra].
      apply floor_drop; [apply Qmult_le_0_compat; [lra|discriminate]|]. lra. }
  destruct (grad_big p || Qltb th (dist p) || has_nan p) eqn:Fl.
  - destruct (Qeq_bool init (cur s)) eqn:Ei; [discriminate|]. right.
    set (s1 := {| cur := Qred (cur s - dt s); dt := Qred (dt s / 10); in_min := in_min s; recs := recs s |}) in *.
    assert (V2 : v dir (dt s1) == v dir (dt s) * (1 # 10)) by (cbn [s1 dt]; rewrite v_red; unfold Qdiv; rewrite v_mul; reflexivity).
    assert (V1 : v dir (cur s1) == v dir (cur s) - v dir (dt s)) by (cbn [s1 cur]; rewrite v_red, v_sub; lra).
    destruct (advance_spec s1) as [[_ E]|(L & s2 & E & E1 & E2 & E3 & C)]; try lra; [congruence|].
    rewrite E in H. injection H as ->. split; [now apply mA_eq|]. unfold mB. rewrite E1.
    assert (X : v dir (dt s1) * 100000 == v dir (dt s) * 100000 * (1 # 10)) by (rewrite V2; ring).
    rewrite (Qfloor_comp _ _ X). apply floor_tenth. lra.
  - left. destruct unprotected; [|destruct (neg_eig p)].
    + eapply Rec; [|exact H]. apply next_dt_range; lra.
    + destruct (in_min s); [destruct (Qltb 0 (zero_T p))|]; discriminate.
    + eapply Rec; [|exact H]. apply next_dt_range; lra.
Qed.

Lemma loop_terminates : forall a b s k, inv2 s -> (mA s < a)%nat -> (mB s < b)%nat ->
  exists fuel l, track_loop unprotected th init fin d0 oracle fuel k s = Ok l.
Proof.
  induction a as [|a IHa]; intros b s k Hi Ha Hb; [lia|]. revert b s k Hi Ha Hb.
  induction b as [|b IHb]; intros s k Hi Ha Hb; [lia|].
  pose proof (step_inv2 k s Hi) as St. pose proof (step_measure k s) as Me.
  destruct (track_step unprotected th init fin d0 (oracle k (cur s) (dt s)) s) as [s'|l] eqn:E.
  - destruct (Me s' Hi eq_refl) as [L|[L1 L2]].
    + destruct (IHa (S (mB s')) s' (S k) St) as (f & l & Hf); try lia.
      exists (S f), l. cbn [track_loop]. rewrite loop_entered by apply Hi. now rewrite E.
    + destruct (IHb s' (S k) St) as (f & l & Hf); try lia.
      exists (S f), l. cbn [track_loop]. rewrite loop_entered by apply Hi. now rewrite E.
  - exists 1%nat, l. cbn [track_loop]. rewrite loop_entered by apply Hi. now rewrite E.
Qed.
End Run.

(** * TrackPhase *)
Lemma direction init fin dT : ~ dT == 0 ->
  let d0 := if wrong_sign fin init dT then - dT else dT in
  exists dir, 0 < v dir d0 /\ v dir init <= v dir fin /\ Qabs d0 == Qabs dT.
Proof.
  intros Hz. assert (Ez : Qeq_bool dT 0 = false) by now apply Qeq_bool_false.
  unfold wrong_sign. rewrite Ez. cbn zeta.
  assert (Hab : Qabs (if Qltb ((fin - init) / dT) 0 then - dT else dT) == Qabs dT)
    by (destruct (Qltb _ _); [apply Qabs_opp|reflexivity]).
  destruct (Q_dec dT 0) as [[Hn|Hp]|He]; [| |contradiction].
  - destruct (Qltb ((fin - init) / dT) 0) eqn:E.
    + apply Qltb_true in E. exists true. cbn. split; [lra|]. split; [|auto].
      apply Qnot_lt_le. intro L. assert (0 < (fin - init) / dT); [|lra].
      setoid_replace ((fin - init) / dT) with ((init - fin) / - dT) by (field; auto).
      apply Qlt_shift_div_l; lra.
    + apply Qltb_false in E. exists false. cbn. split; [lra|]. split; [|auto].
      apply Qnot_lt_le. intro L. assert ((fin - init) / dT < 0); [|lra].
      setoid_replace ((fin - init) / dT) with ((init - fin) / - dT) by (field; auto).
      apply Qlt_shift_div_r; lra.
  - destruct (Qltb ((fin - init) / dT) 0) eqn:E.
    + apply Qltb_true in E. exists false. cbn. split; [lra|]. split; [|auto].
      apply Qnot_lt_le. intro L. assert (0 < (fin - init) / dT); [|lra].
      apply Qlt_shift_div_l; lra.
    + apply Qltb_false in E. exists true. cbn. split; [lra|]. split; [|auto].
      apply Qnot_lt_le. intro L. assert ((fin - init) / dT < 0); [|lra].
      apply Qlt_shift_div_r; lra.
Qed.

Lemma zero_step unprotected th oracle fuel init fin dT l : dT == 0 ->
  TrackPhase unprotected th oracle fuel init fin dT = Ok l -> l = [].
Proof.
  intros Hz H. unfold TrackPhase in H. set (d0 := if wrong_sign _ _ _ then _ else _) in H.
  assert (Z0 : d0 == 0) by (unfold d0; destruct (wrong_sign _ _ _); lra).
  destruct fuel; [discriminate|]. cbn [track_loop cur dt recs] in H.
  destruct (loop_cond fin init d0); [|injection H as <-; reflexivity].
  unfold track_step in H. cbn [dt recs cur] in H.
  assert (E : Qltb (Qabs d0) min_step = true) by (apply Qltb_true; rewrite Z0; reflexivity).
  rewrite E in H. injection H as <-. reflexivity.
Qed.

Lemma zero_step_ends unprotected th oracle f init fin dT : dT == 0 ->
  exists l, TrackPhase unprotected th oracle (S f) init fin dT = Ok l.
Proof.
  intros Hz. unfold TrackPhase. set (d0 := if wrong_sign _ _ _ then _ else _).
  assert (Z0 : d0 == 0) by (unfold d0; destruct (wrong_sign _ _ _); lra).
  cbn [track_loop cur dt recs]. destruct (loop_cond fin init d0); [|eauto].
  unfold track_step. cbn [dt recs cur].
  assert (E : Qltb (Qabs d0) min_step = true) by (apply Qltb_true; rewrite Z0; reflexivity).
  rewrite E. eauto.
Qed.

Lemma track_bounds unprotected th oracle fuel init fin dT l :
  0 < th -> sane oracle ->
  TrackPhase unprotected th oracle fuel init fin dT = Ok l ->
  exists d, Qabs d == Qabs dT /\ between (init - d) init fin /\ Forall (fun T => between (init - d) T fin) l.
Proof.
  intros Hth Hs H. destruct (Qeq_bool dT 0) eqn:E.
  - apply Qeq_bool_iff in E. rewrite (zero_step _ _ _ _ _ _ _ _ E H). exists 0.
    split; [now rewrite E|]. split; [|constructor]. unfold between. destruct (Qlt_le_dec init fin); [left|right]; lra.
  - apply Qeq_bool_false in E. destruct (direction init fin dT E) as (dir & P & R & A).
    set (d0 := if wrong_sign fin init dT then - dT else dT) in *. exists d0. split; [exact A|].
    split; [apply (v_between dir); rewrite v_sub; lra|].
    unfold TrackPhase in H. fold d0 in H.
    apply (loop_near unprotected th init fin d0 oracle dir Hth P R (fun k T d => proj1 (Hs k T d)) (fun k T d => proj2 (Hs k T d))) in H.
    + eapply Forall_impl; [|exact H]. intros T HT. apply (v_between dir). rewrite v_sub. exact HT.
    + split; cbn [cur dt recs]; try lra. constructor.
Qed.

Lemma mono_towards dir init fin l : mono init dir l -> Forall (fun T => v dir T <= v dir fin) l ->
  v dir init <= v dir fin -> towards init fin (rev l).
Proof.
  assert (App : forall l a x, towards a fin (l ++ [x]) <-> towards a fin l /\ between (last l a) x fin).
  { clear. induction l as [|y l IH]; intros a x; cbn [app towards].
    - cbn. tauto.
    - rewrite IH. assert (E : last (y :: l) a = last l y).
      { clear. revert y. induction l as [|z l IH]; intro y; [reflexivity|].
        change (last (y :: z :: l) a) with (last (z :: l) a). rewrite IH.
        destruct l; [reflexivity|]. change (last (z :: q :: l) y) with (last (q :: l) y). symmetry. rewrite <- (IH y). 
        clear. revert q. induction l as [|w l IHl]; intro q; [reflexivity|]. apply (IHl w). }
      rewrite E. tauto. }
  intros Hm Hf Hr. induction l as [|x l IH]; [exact I|]. cbn [rev]. rewrite App.
  cbn [mono] in Hm. destruct Hm as [Hx Hm]. inversion Hf as [|? ? Hxf Hl]; subst. split; [auto|].
  assert (E : last (rev l) init = hd init l) by (destruct l; [reflexivity|cbn [rev hd]; apply last_last]).
  rewrite E. apply (v_between dir). lra.
Qed.

Lemma inv2_init fin init d0 dir : 0 < v dir d0 -> v dir init <= v dir fin ->
  inv2 init fin d0 dir {| cur := init; dt := d0; in_min := false; recs := [] |}.
Proof.
  intros P R. split; cbn [cur dt in_min recs]; unfold base; cbn [recs hd]; try lra; try exact I; try discriminate.
  left. auto.
Qed.

Lemma track_monotone unprotected th oracle fuel init fin dT l :
  0 < th -> sane oracle ->
  (forall k T d, T == fin -> followed th (oracle k T d) /\
                 (unprotected = true \/ neg_eig (oracle k T d) = false)) ->
  TrackPhase unprotected th oracle fuel init fin dT = Ok l ->
  towards init fin l.
Proof.
  intros Hth Hs Hf H. destruct (Qeq_bool dT 0) eqn:E.
  - apply Qeq_bool_iff in E. rewrite (zero_step _ _ _ _ _ _ _ _ E H). exact I.
  - apply Qeq_bool_false in E. destruct (direction init fin dT E) as (dir & P & R & A).
    set (d0 := if wrong_sign fin init dT then - dT else dT) in *.
    unfold TrackPhase in H. fold d0 in H.
    apply (loop_fine unprotected th init fin d0 oracle dir Hth P R (fun k T d => proj1 (Hs k T d)) (fun k T d => proj2 (Hs k T d))
             (fun k T d h => proj1 (Hf k T d h))) in H.
    + destruct H as [H1 H2]. rewrite <- (rev_involutive l). eapply (mono_towards dir); eauto.
      now apply Forall_rev.
    + intros k T d h. apply Hf, h.
    + now apply inv2_init.
Qed.

Lemma track_terminates unprotected th oracle init fin dT :
  0 < th -> sane oracle ->
  (forall k T d, T == fin -> followed th (oracle k T d)) ->
  exists fuel l, TrackPhase unprotected th oracle fuel init fin dT = Ok l.
Proof.
  intros Hth Hs Hf. destruct (Qeq_bool dT 0) eqn:E.
  - apply Qeq_bool_iff in E. exists 1%nat. now apply zero_step_ends.
  - apply Qeq_bool_false in E. destruct (direction init fin dT E) as (dir & P & R & A).
    unfold TrackPhase. set (d0 := if wrong_sign fin init dT then - dT else dT) in *.
    eapply (loop_terminates unprotected th init fin d0 oracle dir Hth P R (fun k T d => proj1 (Hs k T d))
             (fun k T d => proj2 (Hs k T d)) Hf); [now apply inv2_init|apply Nat.lt_succ_diag_r|apply Nat.lt_succ_diag_r].
Qed.

(** * the looping witness *)
Definition stuck_oracle (k : nat) (T d : Q) : probe :=
  {| grad_big := Qeq_bool T (1 # 2); has_nan := false; dist := 0; neg_eig := false; zero_T := -1 |}.

Lemma stuck_loop fuel : forall k l,
  track_loop false 1 0 (1 # 2) 1 stuck_oracle fuel k {| cur := 1 # 2; dt := 1; in_min := true; recs := l |} = OutOfFuel.
Proof.
  induction fuel as [fuel IH] using lt_wf_ind. intros k l.
  destruct fuel as [|[|f]]; [reflexivity|reflexivity|].
  change (track_loop false 1 0 (1 # 2) 1 stuck_oracle (S (S f)) k {| cur := 1 # 2; dt := 1; in_min := true; recs := l |})
    with (track_loop false 1 0 (1 # 2) 1 stuck_oracle f (S (S k)) {| cur := 1 # 2; dt := 1; in_min := true; recs := (-2 # 5) :: l |}).
  apply IH. lia.
Qed.

Lemma stuck fuel : TrackPhase false 1 stuck_oracle fuel 0 (1 # 2) 1 = OutOfFuel.
Proof. destruct fuel as [|f]; [reflexivity|]. apply (stuck_loop f 1 [0]). Qed.

(** * FindZeroSmallestEigenvalue *)
Lemma between_mid a b : between a (Qred ((a + b) / 2)) b.
Proof. unfold between. rewrite Qred_correct. destruct (Qlt_le_dec a b); [left|right]; split;
  (apply Qle_shift_div_l || apply Qle_shift_div_r); lra. Qed.
Lemma between_trans a x y b : between a x b -> between a y b -> forall z, between x z y -> between a z b.
Proof. unfold between. intros; lra. Qed.
Lemma between_l a b : between a a b. Proof. unfold between. destruct (Qlt_le_dec a b); [left|right]; lra. Qed.
Lemma between_r a b : between a b b. Proof. unfold between. destruct (Qlt_le_dec a b); [left|right]; lra. Qed.

Lemma zero_loop_between oracle a b fuel : forall k T1 T2 c r,
  between a T1 b -> between a T2 b -> between a c b ->
  zero_loop oracle fuel k T1 T2 c = Ok r -> between a r b.
Proof.
  induction fuel as [|f IH]; intros k T1 T2 c r H1 H2 Hc H; [discriminate|]. cbn [zero_loop] in H.
  destruct (zero_wide T1 T2); [|injection H as <-; auto].
  set (Tm := Qred ((T1 + T2) / 2)) in *. assert (Hm : between a Tm b) by (eapply between_trans; [exact H1|exact H2|apply between_mid]).
  destruct (oracle k Tm) as [fr l1 l2]; cbn [far like_1 like_2] in H.
  destruct fr, l1, l2; cbn [negb andb] in H;
    solve [eapply IH; [| | |exact H]; auto | injection H as <-; auto].
Qed.

Lemma find_zero_bracket oracle fuel T1 T2 r :
  FindZero false oracle fuel T1 T2 = Ok r -> between T1 r T2.
Proof. unfold FindZero. apply zero_loop_between; auto using between_l, between_r. Qed.

Lemma mid_half a b : Qabs (a - Qred ((a + b) / 2)) == Qabs (a - b) * (1 # 2) /\
  Qabs (Qred ((a + b) / 2) - b) == Qabs (a - b) * (1 # 2).
Proof.
  rewrite Qred_correct. split.
  - setoid_replace (a - (a + b) / 2) with ((a - b) * (1 # 2)) by field. now rewrite Qabs_Qmult.
  - setoid_replace ((a + b) / 2 - b) with ((a - b) * (1 # 2)) by field. now rewrite Qabs_Qmult.
Qed.

Lemma zero_loop_terminates oracle m : 0 < m -> forall n k T1 T2 c,
  m <= T1 -> m <= T2 -> Qabs (T1 - T2) <= inject_Z (2 ^ Z.of_nat n) * (m * (1 # 100000000)) ->
  exists r, zero_loop oracle (S (S n)) k T1 T2 c = Ok r.
Proof.
  intros Hm. induction n as [|n IH]; intros k T1 T2 c H1 H2 Hd.
  - cbn [zero_loop]. assert (E : zero_wide T1 T2 = false).
    { unfold zero_wide. assert (N : ~ T2 == 0) by lra. rewrite (proj2 (Qeq_bool_false _ _) N). apply Qltb_false.
      setoid_replace (T1 / T2 - 1) with ((T1 - T2) / T2) by (field; auto).
      unfold Qdiv. rewrite Qabs_Qmult, Qabs_Qinv, (Qabs_pos T2) by lra.
      apply Qle_shift_div_r; [lra|]. change (inject_Z (2 ^ Z.of_nat 0)) with 1 in Hd. lra. }
    rewrite E. eauto.
  - remember (S n) as n1. cbn [zero_loop]. subst n1. destruct (zero_wide T1 T2); [|eauto].
    pose proof (mid_half T1 T2) as [M1 M2]. pose proof (between_mid T1 T2) as B.
    set (Tm := Qred ((T1 + T2) / 2)) in *.
    assert (Hm1 : m <= Tm) by (unfold between in B; lra).
    assert (P : inject_Z (2 ^ Z.of_nat (S n)) == 2 * inject_Z (2 ^ Z.of_nat n)).
    { rewrite Nat2Z.inj_succ, Z.pow_succ_r by lia. rewrite inject_Z_mult. reflexivity. }
    rewrite P in Hd. assert (Z : Qabs (Tm - Tm) == 0) by (setoid_replace (Tm - Tm) with 0 by ring; reflexivity).
    assert (Pw : 0 <= inject_Z (2 ^ Z.of_nat n) * (m * (1 # 100000000))).
    { apply Qmult_le_0_compat; [|lra]. change 0 with (inject_Z 0). rewrite <- Zle_Qle. apply Z.pow_nonneg. lia. }
    destruct (oracle k Tm) as [fr l1 l2]; cbn [far like_1 like_2].
    destruct fr, l1, l2; cbn [negb andb]; try solve [eauto]; apply IH; auto; try lra.
Qed.

Lemma pow2_unbounded (x : Q) : exists n, x <= inject_Z (2 ^ Z.of_nat n).
Proof.
  exists (Z.to_nat (Qceiling x)). apply Qle_trans with (inject_Z (Qceiling x)); [apply Qle_ceiling|].
  rewrite <- Zle_Qle. destruct (Z_le_gt_dec 0 (Qceiling x)) as [H|H].
  - rewrite Z2Nat.id by lia. assert (forall z, 0 <= z -> z <= 2 ^ z)%Z; [|auto].
    apply natlike_ind; [lia|]. intros z Hz Hi. rewrite Z.pow_succ_r by lia.
    assert (1 <= 2 ^ z)%Z by (pose proof (Z.pow_pos_nonneg 2 z); lia). lia.
  - assert (0 <= 2 ^ Z.of_nat (Z.to_nat (Qceiling x)))%Z by (apply Z.pow_nonneg; lia). lia.
Qed.

Lemma find_zero_terminates ss oracle T1 T2 : 0 < T1 -> 0 < T2 ->
  exists fuel r, FindZero ss oracle fuel T1 T2 = Ok r.
Proof.
  intros H1 H2. unfold FindZero. destruct ss; [exists O; eauto|].
  set (m := if Qle_bool T1 T2 then T1 else T2).
  assert (Hm : 0 < m) by (unfold m; destruct (Qle_bool T1 T2); auto).
  assert (Hm1 : m <= T1 /\ m <= T2).
  { unfold m. destruct (Qle_bool T1 T2) eqn:E; [apply Qle_bool_iff in E; lra|apply Qle_bool_false in E; lra]. }
  destruct (pow2_unbounded (Qabs (T1 - T2) / (m * (1 # 100000000)))) as [n Hn].
  destruct (zero_loop_terminates oracle m Hm n 0 T1 T2 T1) as [r Hr]; try apply Hm1.
  - assert (Hp : 0 < m * (1 # 100000000)) by lra.
    setoid_replace (Qabs (T1 - T2)) with (Qabs (T1 - T2) / (m * (1 # 100000000)) * (m * (1 # 100000000))) by (field; lra).
    apply Qmult_le_compat_r; lra.
  - exists (S (S n)), r. exact Hr.
Qed.

Lemma find_zero_same_sign oracle fuel T1 T2 : FindZero true oracle fuel T1 T2 = Ok (-1).
Proof. reflexivity. Qed.

Lemma zero_loop_side oracle fuel : forall k T1 T2 c r,
  zero_loop oracle fuel k T1 T2 c = Ok r ->
  r = c \/ exists j, far (oracle j r) = false /\ like_1 (oracle j r) = true.
Proof.
  induction fuel as [|f IH]; intros k T1 T2 c r H; [discriminate|]. cbn [zero_loop] in H.
  destruct (zero_wide T1 T2); [|injection H as <-; auto].
  set (Tm := Qred ((T1 + T2) / 2)) in *. cbv zeta in H.
  assert (S : (if negb (far (oracle k Tm)) && like_1 (oracle k Tm) then Tm else c) = c \/
              exists j, let r := (if negb (far (oracle k Tm)) && like_1 (oracle k Tm) then Tm else c) in
                        far (oracle j r) = false /\ like_1 (oracle j r) = true).
  { destruct (far (oracle k Tm)) eqn:F, (like_1 (oracle k Tm)) eqn:L; cbn [negb andb]; auto.
    right. exists k. auto. }
  destruct (like_1 (oracle k Tm)); [|destruct (like_2 (oracle k Tm))].
  - apply IH in H as [->|H]; [exact S|auto].
  - apply IH in H as [->|H]; [exact S|auto].
  - injection H as <-. exact S.
Qed.

Lemma find_zero_side oracle fuel T1 T2 r :
  FindZero false oracle fuel T1 T2 = Ok r ->
  r = T1 \/ exists k, far (oracle k r) = false /\ like_1 (oracle k r) = true.
Proof. apply zero_loop_side. Qed.

Lemma narrow_end T1 T2 : 0 < T2 -> zero_wide T1 T2 = false -> Qabs (T1 - T2) <= (1 # 100000000) * T2.
Proof.
  intros H2 H. unfold zero_wide in H. destruct (Qeq_bool T2 0) eqn:E; [apply Qeq_bool_iff in E; lra|].
  apply Qltb_false in H.
  setoid_replace (T1 - T2) with (T2 * (T1 / T2 - 1)) by (field; lra).
  rewrite Qabs_Qmult, (Qabs_pos T2) by lra. rewrite Qmult_comm. apply Qmult_le_compat_r; lra.
Qed.

Lemma find_zero_accurate oracle fuel T1 T2 Tz r :
  0 < T1 -> 0 < T2 -> between T1 Tz T2 ->
  (forall k T, between T1 T T2 ->
     far (oracle k T) = false /\
     (like_1 (oracle k T) = true /\ between T1 T Tz \/
      like_1 (oracle k T) = false /\ like_2 (oracle k T) = true /\ between Tz T T2)) ->
  FindZero false oracle fuel T1 T2 = Ok r ->
  between T1 r Tz /\ (Qabs (r - Tz) <= (1 # 100000000) * T1 \/ Qabs (r - Tz) <= (1 # 100000000) * T2).
Proof.
  intros P1 P2 Hz Ho. unfold FindZero.
  assert (G : forall f k a b, between T1 a Tz -> between Tz b T2 -> zero_loop oracle f k a b a = Ok r ->
    between T1 r Tz /\ exists b', between Tz b' T2 /\ Qabs (r - b') <= (1 # 100000000) * b').
  { induction f as [|f IH]; intros k a b Ha Hb H; [discriminate|]. cbn [zero_loop] in H.
    assert (Pb : 0 < b) by (unfold between in *; lra).
    destruct (zero_wide a b) eqn:W.
    - set (Tm := Qred ((a + b) / 2)) in *. cbv zeta in H.
      assert (Bm : between T1 Tm T2).
      { pose proof (between_mid a b) as M. fold Tm in M. unfold between in *. lra. }
      destruct (Ho k Tm Bm) as (F & [[L B]|(L & L2 & B)]); rewrite F, L in H; cbn [negb andb] in H.
      + apply (IH (S k) Tm b); auto.
      + rewrite L2 in H. apply (IH (S k) a Tm); auto.
    - injection H as <-. split; [exact Ha|]. exists b. split; [exact Hb|]. now apply narrow_end. }
  intro H. destruct (G fuel O T1 T2) as (A & b & B & C); auto.
  { apply between_l. } { apply between_r. }
  split; [exact A|].
  assert (Q : Qabs (r - Tz) <= Qabs (r - b)).
  { unfold between in *. destruct (Qlt_le_dec T1 T2).
    - rewrite !Qabs_neg by lra. lra.
    - rewrite !Qabs_pos by lra. lra. }
  unfold between in B, Hz. destruct (Qlt_le_dec T1 T2); [right|left]; lra.
Qed.
