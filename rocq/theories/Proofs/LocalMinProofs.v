From Coq Require Import Reals Lra.
From Verif.Model Require Import Base Plane LocalMin.
From Verif.Spec Require Import LocalMinSpec.
Open Scope R_scope.

Lemma bounds_good v : -300 <= v -> lower v = - upper v /\ 300 <= upper v /\ Rabs v <= upper v.
Proof.
  intros H. unfold lower, upper. destruct (Rlt_dec 300 (Rabs v)) as [A|A]; destruct (Rlt_dec (- Rabs v) (-300)) as [B|B]; try lra.
  - assert (P : 0 < v). { destruct (Rle_or_lt v 0) as [L|L]; [|exact L]. rewrite Rabs_left1 in A by exact L. lra. }
    rewrite Rabs_right in * by lra. lra.
Qed.
Lemma bounds_bad v : v < -300 -> lower v = 1.5 * v /\ upper v = 1.5 * v.
Proof. intros H. unfold lower, upper. rewrite !Rabs_left by lra. destruct (Rlt_dec 300 (- v)); [|lra]. destruct (Rlt_dec (- - v) (-300)); lra. Qed.

Lemma nth_box vev i l u : nth_error (box vev) i = Some (l, u) -> exists v, nth_error vev i = Some v /\ l = lower v /\ u = upper v.
Proof.
  unfold box. rewrite nth_error_map. destruct (nth_error vev i) as [v|]; [|discriminate]. cbn. intros H. injection H as <- <-. now exists v.
Qed.
Lemma box_contains vev : Forall (fun v => -300 <= v) vev -> forall x, same_moduli x vev -> contains (box vev) x.
Proof.
  intros F x (L & M). split; [unfold box; rewrite map_length; congruence|]. intros i l u N. apply nth_box in N as (v & N & -> & ->).
  rewrite Forall_forall in F. destruct (bounds_good v) as (A & B & C); [apply F; eapply nth_error_In; exact N|].
  specialize (M i). rewrite (nth_error_nth _ _ 0 N) in M. rewrite <- M in C. rewrite A.
  pose proof (Rle_abs (nth i x 0)). pose proof (Rle_abs (- nth i x 0)) as Q. rewrite Rabs_Ropp in Q. lra.
Qed.
Lemma box_default vev : Forall (fun v => -300 <= v) vev -> forall x, length x = length vev -> (forall i, Rabs (nth i x 0) <= 300) -> contains (box vev) x.
Proof.
  intros F x L M. split; [unfold box; rewrite map_length; congruence|]. intros i l u N. apply nth_box in N as (v & N & -> & ->).
  rewrite Forall_forall in F. destruct (bounds_good v) as (A & B & C); [apply F; eapply nth_error_In; exact N|].
  specialize (M i). pose proof (Rle_abs (nth i x 0)). pose proof (Rle_abs (- nth i x 0)) as Q. rewrite Rabs_Ropp in Q. lra.
Qed.
Lemma box_fails vev i v : nth_error vev i = Some v -> v < -300 ->
  nth_error (box vev) i = Some (1.5 * v, 1.5 * v) /\ (forall x, contains (box vev) x -> nth i x 0 = 1.5 * v).
Proof.
  intros N H. destruct (bounds_bad v H) as (A & B). assert (E : nth_error (box vev) i = Some (1.5 * v, 1.5 * v)) by (unfold box; rewrite nth_error_map, N; cbn; now rewrite A, B).
  split; [exact E|]. intros x (_ & C). specialize (C i _ _ E). lra.
Qed.

Lemma inside1_spec p y : inside1 p y = true <-> fst p <= y <= snd p.
Proof. unfold inside1. destruct (Rle_dec (fst p) y); [|split; [discriminate|lra]]. destruct (Rle_dec y (snd p)); split; try discriminate; try reflexivity; lra. Qed.
Lemma insideb_spec b : forall x, insideb b x = true <-> contains b x.
Proof.
  induction b as [|p b IH]; intros [|y x]; cbn [insideb].
  - split; [intros _; split; [reflexivity|intros [|] ? ? H; discriminate]|reflexivity].
  - split; [discriminate|intros (L & _); discriminate].
  - split; [discriminate|intros (L & _); discriminate].
  - rewrite andb_true_iff, inside1_spec, IH. split.
    + intros (A & L & C). split; [cbn; congruence|]. intros [|i] l u H; cbn in H |- *; [injection H as ->; exact A|now apply C].
    + intros (L & C). destruct p as [l u]. split; [exact (C 0%nat l u eq_refl)|]. split; [cbn in L; congruence|]. intros i l' u' H. exact (C (S i) l' u' H).
Qed.
Lemma zeros_nth n i : nth i (repeat 0 n) 0 = 0.
Proof. revert i. induction n as [|n IH]; intros [|i]; cbn; auto. Qed.
Lemma zeros_inside vev : Forall (fun v => -300 <= v) vev <-> insideb (box vev) (repeat 0 (length vev)) = true.
Proof.
  rewrite insideb_spec. split.
  - intros F. apply box_default; [exact F|apply repeat_length|]. intro i. rewrite zeros_nth, Rabs_R0. lra.
  - intros C. apply Forall_forall. intros v I. apply In_nth_error in I as (i & N). destruct (Rle_or_lt (-300) v) as [|H]; [assumption|].
    destruct (box_fails vev i v N H) as (_ & G). specialize (G _ C). rewrite zeros_nth in G. lra.
Qed.

(** the plane *)
Lemma plane_box_above Index : forall vev i, (Index < i)%nat -> plane_box i Index vev = box vev.
Proof.
  induction vev as [|v vev IH]; intros i H; [reflexivity|]. cbn [plane_box box map]. destruct (Nat.ltb_spec i Index); [lia|]. destruct (Nat.ltb_spec Index i); [|lia].
  cbn [app]. rewrite IH by lia. reflexivity.
Qed.
Lemma plane_box_spec : forall vev i d, plane_box i (i + d) vev = box (without d vev).
Proof.
  unfold without. induction vev as [|v vev IH]; intros i d; [destruct d; reflexivity|]. cbn [plane_box]. destruct d as [|d].
  - rewrite Nat.add_0_r. destruct (Nat.ltb_spec i i); [lia|]. cbn [app firstn skipn]. rewrite plane_box_above by lia. reflexivity.
  - destruct (Nat.ltb_spec i (i + S d)); [|lia]. replace (i + S d)%nat with (S i + d)%nat by lia. rewrite IH. reflexivity.
Qed.
Lemma without_length {A} d (l : list A) : (d < length l)%nat -> length (without d l) = (length l - 1)%nat.
Proof. intros H. unfold without. rewrite app_length, firstn_length, skipn_length. lia. Qed.

Section Nlopt.
Variable run : list (R * R) -> rvec -> (rvec -> R) -> option (nlopt_result * rvec * R).
(** what is known of the library: the result is a point of the box, with the value of the function there *)
Hypothesis run_ok : forall b s f code x m, run b s f = Some (code, x, m) -> contains b x /\ m = f x.
Lemma nlopt_result_spec vev V : let r := MinimizeUsingNLOPT run vev V in r_Success r = true ->
  contains (box vev) (r_Minimum r) /\ r_PotVal r = V (r_Minimum r) /\ (r_Result r = N_SUCCESS \/ r_Result r = FTOL_REACHED \/ r_Result r = XTOL_REACHED).
Proof.
  unfold MinimizeUsingNLOPT, optimize. destruct (insideb _ _); [|discriminate]. destruct (run _ _ _) as [[[code x] m]|] eqn:E; [|discriminate]. cbn.
  intros H. apply run_ok in E as (A & B). split; [exact A|]. split; [exact B|]. destruct code; try discriminate; auto.
Qed.
End Nlopt.
Lemma nlopt_works run vev V r : Forall (fun v => -300 <= v) vev -> run (box vev) (repeat 0 (length vev)) V = Some r ->
  MinimizeUsingNLOPT run vev V = {| r_Minimum := snd (fst r); r_PotVal := snd r; r_Result := fst (fst r); r_Success := is_success (fst (fst r)) |}.
Proof. intros F E. apply zeros_inside in F. unfold MinimizeUsingNLOPT, optimize. rewrite F, E. destruct r as [[c x] m]. reflexivity. Qed.
Lemma nlopt_fails run vev V : Exists (fun v => v < -300) vev -> r_Success (MinimizeUsingNLOPT run vev V) = false /\ r_Minimum (MinimizeUsingNLOPT run vev V) = [].
Proof.
  intros F. unfold MinimizeUsingNLOPT, optimize. destruct (insideb (box vev) (repeat 0 (length vev))) eqn:I; [|split; reflexivity].
  apply zeros_inside in I. rewrite Forall_forall in I. apply Exists_exists in F as (v & J & L). specialize (I v J). lra.
Qed.
Lemma plane_fails run vev k plane V : (k < length vev)%nat -> Exists (fun v => v < -300) (without k vev) -> MinimizePlaneUsingNLOPT run vev k plane V = Throw InvalidArgument.
Proof.
  intros K F. unfold MinimizePlaneUsingNLOPT, optimize. rewrite (plane_box_spec vev 0 k : plane_box 0 k vev = _), <- (without_length k vev K).
  destruct (insideb (box (without k vev)) (repeat 0 (length (without k vev)))) eqn:I; [|reflexivity].
  apply zeros_inside in I. rewrite Forall_forall in I. apply Exists_exists in F as (v & J & L). specialize (I v J). lra.
Qed.
Lemma plane_works run vev k plane V c x m : (k < length vev)%nat -> Forall (fun v => -300 <= v) (without k vev) ->
  run (box (without k vev)) (repeat 0 (length vev - 1)) (fun y => V (plane y)) = Some (c, x, m) ->
  MinimizePlaneUsingNLOPT run vev k plane V = Ok {| r_Minimum := plane x; r_PotVal := m; r_Result := c; r_Success := is_success c |}.
Proof.
  intros K F E. unfold MinimizePlaneUsingNLOPT, optimize. rewrite (plane_box_spec vev 0 k : plane_box 0 k vev = _). rewrite <- (without_length k vev K) in *.
  apply zeros_inside in F. rewrite F, E. reflexivity.
Qed.

(** GSL *)
Section GSL.
Variables iterate small : nat -> bool.
Variable x : nat -> rvec.
Definition done (k : nat) : bool := negb (iterate (S k)) || small (S k).
Lemma gsl_loop_spec : forall f k, (f + k = 600)%nat -> (0 < f)%nat -> (forall j, (j < k)%nat -> done j = false) ->
  (exists m, (m < 600)%nat /\ first_such done m /\ gsl_loop iterate small f k = Ok (if iterate (S m) then GSL_SUCCESS else GSL_ERROR, S m)) \/
  ((forall j, (j < 600)%nat -> done j = false) /\ gsl_loop iterate small f k = Ok (GSL_CONTINUE, 600%nat)).
Proof.
  induction f as [|f IH]; intros k E P Q; [lia|]. cbn [gsl_loop]. destruct (done k) eqn:D.
  - left. exists k. split; [lia|]. split; [split; [exact D|exact Q]|]. unfold done in D. destruct (iterate (S k)); cbn in D |- *; [now rewrite D|reflexivity].
  - assert (I : iterate (S k) = true /\ small (S k) = false) by (unfold done in D; destruct (iterate (S k)), (small (S k)); try discriminate; auto).
    destruct I as (-> & ->). cbn [negb]. assert (Q' : forall j, (j < S k)%nat -> done j = false) by (intros j J; destruct (Nat.eq_dec j k) as [->|]; [exact D|apply Q; lia]).
    destruct (Nat.ltb_spec (S k) 600).
    + apply IH; [lia|lia|exact Q'].
    + right. split; [intros j J; apply Q'; lia|]. repeat f_equal. lia.
Qed.
Lemma gsl_spec dim : exists s p, GSL_Minimize_From_S iterate small x dim = Ok (s, p) /\
  (s = GSL_SUCCESS -> exists m, (1 <= m <= 600)%nat /\ (forall j, (1 <= j <= m)%nat -> iterate j = true) /\ small m = true /\ (forall j, (1 <= j < m)%nat -> small j = false) /\ p = x m) /\
  (s <> GSL_SUCCESS -> p = repeat 0 dim) /\
  ((exists m, (1 <= m <= 600)%nat /\ (forall j, (1 <= j <= m)%nat -> iterate j = true) /\ small m = true) -> s = GSL_SUCCESS).
Proof.
  unfold GSL_Minimize_From_S. destruct (gsl_loop_spec 600 0) as [(m & L & (D & Q) & E)|(Q & E)]; try lia; rewrite E; cbn [bind].
  - destruct (iterate (S m)) eqn:I.
    + eexists _, _. split; [reflexivity|]. split; [|split; [congruence|reflexivity]]. intros _. exists (S m). split; [lia|].
      assert (G : forall j, (1 <= j < S m)%nat -> iterate j = true /\ small j = false).
      { intros j J. specialize (Q (j - 1)%nat ltac:(lia)). unfold done in Q. replace (S (j - 1)) with j in Q by lia. destruct (iterate j), (small j); try discriminate; auto. }
      split; [intros j J; destruct (Nat.eq_dec j (S m)) as [->|]; [exact I|apply G; lia]|]. split; [unfold done in D; rewrite I in D; exact D|]. split; [intros j J; apply G; lia|reflexivity].
    + eexists _, _. split; [reflexivity|]. split; [discriminate|]. split; [reflexivity|]. intros (n & N & A & B). exfalso.
      destruct (Nat.le_gt_cases (S m) n) as [H|H]; [rewrite (A (S m)) in I by lia; discriminate|].
      specialize (Q (n - 1)%nat ltac:(lia)). unfold done in Q. replace (S (n - 1)) with n in Q by lia. rewrite B, orb_true_r in Q. discriminate.
  - eexists _, _. split; [reflexivity|]. split; [discriminate|]. split; [reflexivity|]. intros (n & N & A & B). exfalso.
    specialize (Q (n - 1)%nat ltac:(lia)). unfold done in Q. replace (S (n - 1)) with n in Q by lia. rewrite B, orb_true_r in Q. discriminate.
Qed.
End GSL.
Definition succeeded (r : gsl_status * rvec) : bool := match fst r with GSL_SUCCESS => true | _ => false end.
Section Next.
Variable gsl : nat -> gsl_status * rvec.
Lemma tries_spec : forall f k, (f + k = 600)%nat -> (0 < f)%nat -> (forall j, (j < k)%nat -> succeeded (gsl j) = false) ->
  (exists m, (m < 600)%nat /\ first_such (fun j => succeeded (gsl j)) m /\ tries_loop gsl f k = Ok (gsl m, S m)) \/
  ((forall j, (j < 600)%nat -> succeeded (gsl j) = false) /\ exists r, succeeded r = false /\ tries_loop gsl f k = Ok (r, 600%nat)).
Proof.
  induction f as [|f IH]; intros k E P Q; [lia|]. cbn [tries_loop]. destruct (succeeded (gsl k)) eqn:D.
  - left. exists k. split; [lia|]. split; [split; [exact D|exact Q]|]. unfold succeeded in D. destruct (fst (gsl k)); try discriminate. reflexivity.
  - assert (Q' : forall j, (j < S k)%nat -> succeeded (gsl j) = false) by (intros j J; destruct (Nat.eq_dec j k) as [->|]; [exact D|apply Q; lia]).
    assert (G : tries_loop gsl (S f) k = if (S k <? 600)%nat then tries_loop gsl f (S k) else Ok (gsl k, S k)) by (cbn [tries_loop]; unfold succeeded in D; destruct (fst (gsl k)); try discriminate; reflexivity).
    cbn [tries_loop] in G. rewrite G. destruct (Nat.ltb_spec (S k) 600).
    + apply IH; [lia|lia|exact Q'].
    + right. split; [intros j J; apply Q'; lia|]. exists (gsl k). split; [exact D|]. repeat f_equal. lia.
Qed.
Lemma next_spec nlopt useGSL useNLopt : exists g n, FindNextLocalMinima gsl nlopt useGSL useNLopt = Ok (g ++ n) /\
  (n = if useNLopt && r_Success nlopt then [r_Minimum nlopt] else []) /\
  ((exists m, useGSL = true /\ (m < 600)%nat /\ first_such (fun j => succeeded (gsl j)) m /\ g = [snd (gsl m)]) \/
   ((useGSL = false \/ forall j, (j < 600)%nat -> succeeded (gsl j) = false) /\ g = [])).
Proof.
  unfold FindNextLocalMinima. destruct useGSL; cbn [bind].
  - destruct (tries_spec 600 0) as [(m & L & F & E)|(Q & r & R & E)]; try lia; rewrite E; cbn [bind].
    + pose proof (proj1 F) as D. unfold succeeded in D. destruct (fst (gsl m)); try discriminate. cbn [bind]. eexists _, _. split; [reflexivity|].
      split; [destruct useNLopt, (r_Success nlopt); reflexivity|]. left. exists m. auto.
    + unfold succeeded in R. assert (X : (match fst r with GSL_SUCCESS => Ok [snd r] | _ => Ok [] end) = Ok ([] : list rvec)) by (destruct (fst r); [discriminate|reflexivity|reflexivity]).
      rewrite X. cbn [bind]. eexists [], _. split; [reflexivity|]. split; [destruct useNLopt, (r_Success nlopt); reflexivity|]. right. auto.
  - eexists [], _. split; [reflexivity|]. split; [destruct useNLopt, (r_Success nlopt); reflexivity|]. right. auto.
Qed.
End Next.
