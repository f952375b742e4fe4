(** Proofs for the wall thickness. *)
From Coq Require Import Reals List Lra Lia.
From Verif Require Import Base Model.KFunctions Model.WallThickness Spec.WallThicknessSpec Proofs.KProofs Proofs.DerivLib Proofs.WallProfileProofs.
Import ListNotations.
Open Scope R_scope.

(** * points *)
Lemma mix_0 : forall a b, length a = length b -> mix (1 / 10 * INR 0) a b = a.
Proof.
  induction a as [|x a IH]; intros [|y b] H; try discriminate H; [reflexivity|]. unfold mix in *. cbn [combine map fst snd]. injection H as H.
  rewrite (IH b H). f_equal. cbn [INR]. ring.
Qed.
Lemma mix_1 : forall a b, length a = length b -> mix (1 / 10 * INR 10) a b = b.
Proof.
  induction a as [|x a IH]; intros [|y b] H; try discriminate H; [reflexivity|]. unfold mix in *. cbn [combine map fst snd]. injection H as H.
  rewrite (IH b H). f_equal. replace (INR 10) with 10 by (cbn; ring). field.
Qed.
Lemma basepoints_ok : forall vs vc, length (basepoints vs vc) = 11%nat /\
  (forall k, (k < 11)%nat -> nth k (basepoints vs vc) [] = mix (1 / 10 * INR k) vs vc) /\
  (length vs = length vc -> nth 0 (basepoints vs vc) [] = vs /\ nth 10 (basepoints vs vc) [] = vc).
Proof.
  intros vs vc. split; [reflexivity|]. assert (N : forall k, (k < 11)%nat -> nth k (basepoints vs vc) [] = mix (1 / 10 * INR k) vs vc).
  { intros k H. unfold basepoints. set (f := fun k : nat => mix (1 / 10 * INR k) vs vc). rewrite (nth_indep _ [] (f 0%nat)) by (rewrite map_length, seq_length; exact H).
    rewrite map_nth, seq_nth by exact H. reflexivity. }
  split; [exact N|]. intro H. rewrite !N by lia. split; [apply mix_0; exact H|apply mix_1; exact H].
Qed.

(** * threads *)
Lemma set_thread_nth : forall l i p j, (i < length l)%nat -> nth_error (set_thread l i p) j = if Nat.eqb j i then Some p else nth_error l j.
Proof.
  intros l i p j H. unfold set_thread. assert (FL : length (firstn i l) = i) by (apply firstn_length_le; lia).
  destruct (Nat.eqb_spec j i) as [->|N].
  - rewrite nth_error_app2 by lia. rewrite FL, Nat.sub_diag. reflexivity.
  - destruct (Nat.lt_ge_cases j i) as [L|L].
    + rewrite nth_error_app1 by lia. rewrite <- (firstn_skipn i l) at 2. rewrite nth_error_app1 by lia. reflexivity.
    + rewrite nth_error_app2 by lia. rewrite FL. replace (j - i)%nat with (S (j - S i)) by lia. cbn [nth_error].
      rewrite <- (firstn_skipn (S i) l) at 2. rewrite nth_error_app2; rewrite firstn_length_le by lia; [reflexivity|lia].
Qed.
Lemma set_thread_length : forall l i p, (i < length l)%nat -> length (set_thread l i p) = length l.
Proof. intros l i p H. unfold set_thread. rewrite app_length, firstn_length_le by lia. cbn [length]. rewrite skipn_length. lia. Qed.

Section Threads.
Variable n : nat.
Variable value : nat -> R.

Definition tinv (m : nat) (s : tstate) : Prop :=
  length (t_threads s) = m /\ length (t_data s) = n /\
  (t_terminated s = false ->
   (forall i k, nth_error (t_threads s) i = Some (TWork k) -> (k < n)%nat) /\
   (forall k, (k < t_index s)%nat -> (k < n)%nat -> nth k (t_data s) 0 = value k \/ exists i, nth_error (t_threads s) i = Some (TWork k)) /\
   (forall i, nth_error (t_threads s) i = Some TDone -> (n <= t_index s)%nat)).

Lemma nth_some_lt : forall (l : list tpc) i p, nth_error l i = Some p -> (i < length l)%nat.
Proof. intros l i p H. apply nth_error_Some. congruence. Qed.

Lemma tstep_inv : forall m i s, tinv m s -> tinv m (tstep n value i s).
Proof.
  intros m i s [L [D I]]. unfold tstep. destruct (t_terminated s) eqn:T; [split; [exact L|split; [exact D|intro X; congruence]]|].
  destruct (I eq_refl) as [W [DONE FIN]]. clear I.
  destruct (nth_error (t_threads s) i) as [[| |k|]|] eqn:E.
  - (* check *) pose proof (nth_some_lt _ _ _ E) as B. split; [cbn; rewrite set_thread_length by exact B; exact L|]. split; [exact D|]. intros _. cbn [t_threads t_data t_index].
    split; [|split].
    + intros j k J. rewrite set_thread_nth in J by exact B. destruct (Nat.eqb_spec j i); [destruct (Nat.ltb _ _); discriminate J|exact (W j k J)].
    + intros k K KN. destruct (DONE k K KN) as [A|[j A]]; [left; exact A|]. right. exists j. rewrite set_thread_nth by exact B. destruct (Nat.eqb_spec j i); [congruence|exact A].
    + intros j J. rewrite set_thread_nth in J by exact B. destruct (Nat.eqb_spec j i); [|exact (FIN j J)].
      destruct (Nat.ltb_spec (t_index s) n); [discriminate J|assumption].
  - (* fetch *) pose proof (nth_some_lt _ _ _ E) as B. destruct (Nat.ltb_spec (t_index s) n) as [LT|GE].
    + split; [cbn; rewrite set_thread_length by exact B; exact L|]. split; [exact D|]. intros _. cbn [t_threads t_data t_index]. split; [|split].
      * intros j k J. rewrite set_thread_nth in J by exact B. destruct (Nat.eqb_spec j i); [injection J as <-; exact LT|exact (W j k J)].
      * intros k K KN. destruct (Nat.eq_dec k (t_index s)) as [->|NE].
        { right. exists i. rewrite set_thread_nth by exact B. rewrite Nat.eqb_refl. reflexivity. }
        destruct (DONE k ltac:(lia) KN) as [A|[j A]]; [left; exact A|]. right. exists j. rewrite set_thread_nth by exact B. destruct (Nat.eqb_spec j i); [congruence|exact A].
      * intros j J. rewrite set_thread_nth in J by exact B. destruct (Nat.eqb_spec j i); [discriminate J|]. pose proof (FIN j J). lia.
    + split; [exact L|]. split; [exact D|]. intro X. discriminate X.
  - (* work *) pose proof (nth_some_lt _ _ _ E) as B. pose proof (W i k E) as KN.
    destruct (set_at_ok (t_data s) k (value k) ltac:(rewrite D; exact KN)) as [d [SE [SL [SV SO]]]]. rewrite SE.
    split; [cbn; rewrite set_thread_length by exact B; exact L|]. split; [cbn; rewrite SL; exact D|]. intros _. cbn [t_threads t_data t_index]. split; [|split].
    + intros j q J. rewrite set_thread_nth in J by exact B. destruct (Nat.eqb_spec j i); [discriminate J|exact (W j q J)].
    + intros q Q QN. destruct (Nat.eq_dec q k) as [->|NE]; [left; exact SV|].
      destruct (DONE q Q QN) as [A|[j A]]; [left; rewrite SO by exact NE; exact A|]. right. exists j. rewrite set_thread_nth by exact B. destruct (Nat.eqb_spec j i); [congruence|exact A].
    + intros j J. rewrite set_thread_nth in J by exact B. destruct (Nat.eqb_spec j i); [discriminate J|exact (FIN j J)].
  - split; [exact L|]. split; [exact D|]. intros _. split; [exact W|split; assumption].
  - split; [exact L|]. split; [exact D|]. intros _. split; [exact W|split; assumption].
Qed.
Lemma trun_inv : forall m sched s, tinv m s -> tinv m (trun n value sched s).
Proof. intros m sched. induction sched as [|i sched IH]; intros s H; [exact H|]. cbn [trun fold_left]. apply IH. apply tstep_inv. exact H. Qed.
Lemma start_inv : forall m, tinv m (tstart m n).
Proof.
  intro m. split; [apply repeat_length|]. split; [apply repeat_length|]. intros _. cbn [tstart t_threads t_index]. 
  assert (R : forall i p, nth_error (repeat TCheck m) i = Some p -> p = TCheck).
  { intros i p H. apply nth_error_In in H. apply repeat_spec in H. exact H. }
  split; [|split].
  - intros i k H. apply R in H. discriminate H.
  - intros k K. lia.
  - intros i H. apply R in H. discriminate H.
Qed.

Lemma all_done : forall m sched, (0 < m)%nat -> let s := trun n value sched (tstart m n) in
  t_terminated s = false -> (forall i, (i < m)%nat -> nth_error (t_threads s) i = Some TDone) -> t_data s = map value (seq 0 n).
Proof.
  intros m sched M s T A. destruct (trun_inv m sched _ (start_inv m)) as [L [D I]]. fold s in L, D, I. destruct (I T) as [W [DONE FIN]].
  pose proof (FIN 0%nat (A 0%nat M)) as F.
  apply (nth_ext _ _ 0 (value 0%nat)).
  - rewrite map_length, seq_length. exact D.
  - intros k K. rewrite D in K. rewrite map_nth, seq_nth by exact K. cbn [Nat.add].
    destruct (DONE k ltac:(lia) K) as [E|[i E]]; [exact E|]. pose proof (nth_some_lt _ _ _ E) as B. rewrite L in B. rewrite (A i B) in E. discriminate E.
Qed.

(** thread 0 alone, whatever other threads wait *)
Lemma trun_app : forall a b s, trun n value (a ++ b) s = trun n value b (trun n value a s).
Proof. intros. unfold trun. apply fold_left_app. Qed.
Lemma one_round : forall k d ts, (k < n)%nat -> length d = n ->
  exists d', trun n value [0; 0; 0]%nat (TState k d (TCheck :: ts) false) = TState (S k) d' (TCheck :: ts) false /\ length d' = n.
Proof.
  intros k d ts K D. unfold trun. cbn [fold_left]. unfold tstep at 3. cbn [t_terminated t_threads nth_error t_index t_data].
  destruct (Nat.ltb_spec k n); [|lia]. cbn [set_thread firstn skipn app]. unfold tstep at 2. cbn [t_terminated t_threads nth_error t_index t_data].
  destruct (Nat.ltb_spec k n); [|lia]. cbn [set_thread firstn skipn app]. unfold tstep. cbn [t_terminated t_threads nth_error t_index t_data].
  destruct (set_at_ok d k (value k) ltac:(lia)) as [d' [E [L _]]]. rewrite E. exists d'. split; [reflexivity|congruence].
Qed.
Fixpoint rounds (q : nat) : list nat := match q with O => [] | S q => [0; 0; 0]%nat ++ rounds q end.
Lemma many_rounds : forall q k d ts, (k + q <= n)%nat -> length d = n ->
  exists d', trun n value (rounds q) (TState k d (TCheck :: ts) false) = TState (k + q) d' (TCheck :: ts) false /\ length d' = n.
Proof.
  induction q as [|q IH]; intros k d ts H D; [exists d; cbn; rewrite Nat.add_0_r; split; [reflexivity|exact D]|].
  cbn [rounds]. rewrite trun_app. destruct (one_round k d ts ltac:(lia) D) as [d1 [E L]]. rewrite E.
  destruct (IH (S k) d1 ts ltac:(lia) L) as [d2 [E2 L2]]. exists d2. rewrite E2. split; [f_equal; lia|exact L2].
Qed.
Lemma alone : exists sched, let s := trun n value sched (tstart 1 n) in t_terminated s = false /\ nth_error (t_threads s) 0 = Some TDone.
Proof.
  exists (rounds n ++ [0%nat]). rewrite trun_app. destruct (many_rounds n 0 (repeat 0 n) [] ltac:(lia) (repeat_length 0 n)) as [d [E L]].
  unfold tstart. cbn [repeat]. rewrite E. rewrite Nat.add_0_l. unfold trun. cbn [fold_left]. unfold tstep. cbn [t_terminated t_threads nth_error t_index t_data].
  rewrite Nat.ltb_irrefl. split; reflexivity.
Qed.
Lemma alone_safe : forall sched, t_terminated (trun n value sched (tstart 1 n)) = false.
Proof.
  intro sched. assert (G : forall s, length (t_data s) = n -> t_terminated s = false ->
    (exists p, t_threads s = [p] /\ (p = TFetch -> t_index s < n)%nat /\ (forall k, p = TWork k -> k < n)%nat) ->
    t_terminated (trun n value sched s) = false).
  { induction sched as [|i sched IH]; intros s D T [p [P [PF PW]]]; [exact T|]. cbn [trun fold_left]. unfold tstep at 2. rewrite T, P.
    destruct i as [|i].
    - cbn [nth_error]. destruct p as [| |k|].
      + apply IH; [exact D|reflexivity|]. exists (if Nat.ltb (t_index s) n then TFetch else TDone). split; [reflexivity|]. cbn [t_index].
        destruct (Nat.ltb_spec (t_index s) n); split; intros; try discriminate; assumption.
      + specialize (PF eq_refl). destruct (Nat.ltb_spec (t_index s) n); [|lia]. apply IH; [exact D|reflexivity|].
        exists (TWork (t_index s)). split; [reflexivity|]. split; [discriminate|]. intros k E. injection E as <-. assumption.
      + specialize (PW k eq_refl). destruct (set_at_ok (t_data s) k (value k) ltac:(lia)) as [d [E [L _]]]. rewrite E.
        apply IH; [cbn; congruence|reflexivity|]. exists TCheck. split; [reflexivity|]. split; discriminate.
      + apply IH; [exact D|exact T|]. exists TDone. split; [exact P|]. split; discriminate.
    - cbn [nth_error]. assert (NE : nth_error (@nil tpc) i = None) by (destruct i; reflexivity). rewrite NE. apply IH; [exact D|exact T|]. exists p. split; [exact P|]. split; assumption. }
  apply G; [apply repeat_length|reflexivity|]. exists TCheck. split; [reflexivity|]. split; discriminate.
Qed.
Lemma race : forall m, (2 <= m)%nat -> (0 < n)%nat -> exists sched, t_terminated (trun n value sched (tstart m n)) = true.
Proof.
  intros m M N. exists (rounds (n - 1) ++ [0; 1; 0; 1]%nat). rewrite trun_app. unfold tstart.
  destruct m as [|[|m]]; [lia|lia|]. cbn [repeat].
  destruct (many_rounds (n - 1) 0 (repeat 0 n) (TCheck :: repeat TCheck m) ltac:(lia) (repeat_length 0 n)) as [d [E L]]. rewrite E. rewrite Nat.add_0_l.
  unfold trun. cbn [fold_left]. unfold tstep at 4. cbn [t_terminated t_threads nth_error t_index t_data].
  destruct (Nat.ltb_spec (n - 1) n); [|lia]. cbn [set_thread firstn skipn app].
  unfold tstep at 3. cbn [t_terminated t_threads nth_error t_index t_data].
  destruct (Nat.ltb_spec (n - 1) n); [|lia]. cbn [set_thread firstn skipn app].
  unfold tstep at 2. cbn [t_terminated t_threads nth_error t_index t_data].
  destruct (Nat.ltb_spec (n - 1) n); [|lia]. cbn [set_thread firstn skipn app].
  unfold tstep. cbn [t_terminated t_threads nth_error t_index t_data].
  destruct (Nat.ltb_spec (S (n - 1)) n); [lia|]. reflexivity.
Qed.
End Threads.

(** * barrier *)
Lemma plane_barrier : forall spline lowest vc data f b,
  (forall t, spline data t = - f t) ->
  (exists t, 0 <= t <= 1 /\ lowest (spline data) = spline data t /\ forall u, 0 <= u <= 1 -> spline data t <= spline data u) ->
  barrier f b -> plane_thickness spline lowest vc data = over_root vc b.
Proof.
  intros spline lowest vc data f b S [t [T [L M]]] [t' [T' [M' B]]]. unfold plane_thickness. cbv zeta. f_equal.
  rewrite L, !S. rewrite B. assert (E : f t = f t').
  { apply Rle_antisym; [apply M'; exact T|]. specialize (M t' T'). rewrite !S in M. lra. }
  rewrite !Ropp_involutive. rewrite E. reflexivity.
Qed.
Lemma barrier_nonneg : forall f b, barrier f b -> 0 <= b.
Proof.
  intros f b [t [T [M ->]]]. pose proof (M 0 ltac:(lra)). pose proof (Rmin_l (f 0) (f 1)). lra.
Qed.

Lemma quartic_barrier : forall lam v, 0 < lam -> 0 < v -> barrier (fun t => quartic lam v (t * v)) (lam * v ^ 4 / 64).
Proof.
  intros lam v L V. exists (1 / 2). split; [lra|]. split.
  - intros u U. unfold quartic.
    assert (P : 0 <= u * (1 - u) <= 1 / 4) by (split; [apply Rmult_le_pos; lra|pose proof (pow2_ge_0 (u - 1 / 2)); nra]).
    assert (Q : (u * (1 - u)) ^ 2 <= (1 / 4) ^ 2) by (apply pow_incr; exact P).
    assert (K : 0 <= lam / 4 * v ^ 4) by (apply Rmult_le_pos; [lra|left; apply pow_lt; exact V]).
    replace (lam / 4 * (u * v) ^ 2 * (u * v - v) ^ 2) with (lam / 4 * v ^ 4 * (u * (1 - u)) ^ 2) by ring.
    replace (lam / 4 * (1 / 2 * v) ^ 2 * (1 / 2 * v - v) ^ 2) with (lam / 4 * v ^ 4 * (1 / 4) ^ 2) by field.
    apply Rmult_le_compat_l; assumption.
  - unfold quartic. replace (lam / 4 * (0 * v) ^ 2 * (0 * v - v) ^ 2) with 0 by ring. replace (lam / 4 * (1 * v) ^ 2 * (1 * v - v) ^ 2) with 0 by ring.
    rewrite Rmin_left by lra. field.
Qed.
Lemma quartic_wall : forall lam v L, 0 < lam -> 0 < v -> over_root v (lam * v ^ 4 / 64) = Finite L ->
  static_wall (quartic lam v) (fun z => 1 / 2 * v * (1 - tanh (z / L))).
Proof.
  intros lam v L HL HV E. unfold over_root in E. pose proof (pow_lt v 4 HV) as V4.
  assert (BP : 0 < lam * v ^ 4 / 64) by (apply Rdiv_lt_0_compat; [apply Rmult_lt_0_compat; assumption|lra]).
  destruct (Rlt_dec 0 (lam * v ^ 4 / 64)); [|contradiction].
  apply (f_equal (fun x => match x with Finite r => r | _ => L end)) in E.
  assert (SP : 0 < sqrt (8 * (lam * v ^ 4 / 64))) by (apply sqrt_lt_R0; lra).
  assert (LP : 0 < L) by (rewrite <- E; apply Rdiv_lt_0_compat; assumption).
  assert (L2 : lam * v ^ 2 * L ^ 2 = 8).
  { rewrite <- E. assert (S2 : sqrt (8 * (lam * v ^ 4 / 64)) ^ 2 = 8 * (lam * v ^ 4 / 64)) by (apply pow2_sqrt; lra).
    set (s := sqrt (8 * (lam * v ^ 4 / 64))) in *. replace (lam * v ^ 2 * (v / s) ^ 2) with (lam * v ^ 4 / s ^ 2) by (field; lra). rewrite S2. field. split; lra. }
  exists (fun z => 1 / 2 * v * - ((1 - tanh (z / L) * tanh (z / L)) / L)), (fun p => lam / 4 * (2 * p * (p - v) ^ 2 + p ^ 2 * (2 * (p - v)))).
  intro z. split; [|split].
  - eapply dl_eq; [apply (dl_mult (fun _ => 1 / 2 * v) (fun z => 1 - tanh (z / L))); [apply dl_const|apply dl_minus; [apply dl_const|apply (dl_scaled L); lra]]|]. ring.
  - eapply dl_eq.
    + unfold quartic. apply (dl_mult (fun p => lam / 4 * p ^ 2) (fun p => (p - v) ^ 2)).
      * apply (dl_mult (fun _ => lam / 4) (fun p => p ^ 2)); [apply dl_const|apply (dl_pow (fun p => p)); apply dl_id].
      * apply (dl_pow (fun p => p - v)). apply dl_minus; [apply dl_id|apply dl_const].
    + cbn [INR pred pow]. ring.
  - eapply dl_eq.
    + apply (dl_mult (fun _ => 1 / 2 * v) (fun z => - ((1 - tanh (z / L) * tanh (z / L)) / L))); [apply dl_const|].
      apply (dl_opp (fun z => (1 - tanh (z / L) * tanh (z / L)) / L)).
      apply (dl_div (fun z => 1 - tanh (z / L) * tanh (z / L)) (fun _ => L)); [|apply dl_const|lra].
      apply dl_minus; [apply dl_const|]. apply (dl_mult (fun z => tanh (z / L)) (fun z => tanh (z / L))); apply (dl_scaled L); lra.
    + set (t := tanh (z / L)).
      replace (lam / 4 * (2 * (1 / 2 * v * (1 - t)) * (1 / 2 * v * (1 - t) - v) ^ 2 + (1 / 2 * v * (1 - t)) ^ 2 * (2 * (1 / 2 * v * (1 - t) - v))))
        with ((lam * v ^ 2 * L ^ 2) * (v / (8 * L ^ 2) * t * (1 - t * t))) by (field; lra).
      rewrite L2. field. lra.
Qed.

(** * line *)
Lemma choose_ok : forall s rest, exists best, choose (s :: rest) = Ok best /\ In best (s :: rest) /\ forall r, In r (s :: rest) -> snd r <= snd best.
Proof.
  intros s rest. cbn [choose]. eexists. split; [reflexivity|]. revert s. induction rest as [|r rest IH]; intro s.
  - split; [left; reflexivity|]. intros r [<-|[]]. cbn. lra.
  - cbn [fold_left]. destruct (Rlt_dec (snd s) (snd r)) as [H|H]; [destruct (IH r) as [I M]|destruct (IH s) as [I M]]; (split; [|]).
    + right. exact I.
    + intros q [<-|[<-|Q]]; [|apply M; left; reflexivity|apply M; right; exact Q]. pose proof (M r (or_introl eq_refl)). lra.
    + destruct I as [I|I]; [left; exact I|right; right; exact I].
    + intros q [<-|[<-|Q]]; [apply M; left; reflexivity| |apply M; right; exact Q]. pose proof (M s (or_introl eq_refl)). lra.
Qed.
Lemma collect_found : forall fuel brent guess ntry sols res, collect fuel brent guess ntry sols = Ok res ->
  length res = 20%nat /\ forall r, In r res -> In r sols \/ exists g, brent g = Some r.
Proof.
  induction fuel as [|fuel IH]; intros brent guess ntry sols res H; [discriminate H|]. cbn [collect] in H.
  set (sols' := match brent (guess ntry) with Some r => sols ++ [r] | None => sols end) in *.
  assert (SUB : forall r, In r sols' -> In r sols \/ exists g, brent g = Some r).
  { intros r I. unfold sols' in I. destruct (brent (guess ntry)) as [q|] eqn:B; [|left; exact I]. apply in_app_or in I. destruct I as [I|[<-|[]]]; [left; exact I|right; exists (guess ntry); exact B]. }
  destruct (Nat.eqb_spec (length sols') 20) as [E|E].
  - injection H as <-. split; [exact E|exact SUB].
  - destruct (IH _ _ _ _ _ H) as [A B]. split; [exact A|]. intros r I. destruct (B r I) as [X|X]; [exact (SUB r X)|right; exact X].
Qed.
Lemma collect_never : forall fuel brent guess ntry, (forall g, brent g = None) -> collect fuel brent guess ntry [] = OutOfFuel.
Proof. induction fuel as [|fuel IH]; intros brent guess ntry H; [reflexivity|]. cbn [collect]. rewrite H. cbn [length Nat.eqb]. apply IH. exact H. Qed.
Lemma collect_always : forall k brent guess ntry sols, (forall g, exists r, brent g = Some r) -> (length sols + S k = 20)%nat ->
  exists res, collect (S k) brent guess ntry sols = Ok res.
Proof.
  induction k as [|k IH]; intros brent guess ntry sols H L; cbn [collect]; destruct (H (guess ntry)) as [r R]; rewrite R; rewrite app_length; cbn [length].
  - replace (length sols + 1)%nat with 20%nat by lia. eexists. reflexivity.
  - destruct (Nat.eqb_spec (length sols + 1) 20); [lia|]. apply (IH brent guess (S ntry) (sols ++ [r]) H). rewrite app_length. cbn [length]. lia.
Qed.

Lemma on_line_zero : forall t vc vs, length vs = length vc -> (forall x, In x vs -> x = 0) -> on_line t vc vs = map (Rmult t) vc.
Proof.
  intros t vc. induction vc as [|c vc IH]; intros [|s vs] L Z; try discriminate L; [reflexivity|]. injection L as L.
  unfold on_line in *. cbn [combine map fst snd]. rewrite (IH vs L); [|intros x I; apply Z; right; exact I]. f_equal. rewrite (Z s (or_introl eq_refl)). ring.
Qed.
Lemma map_one : forall vc, map (Rmult 1) vc = vc.
Proof. induction vc as [|c vc IH]; [reflexivity|]. cbn [map]. rewrite IH. f_equal. ring. Qed.
Lemma map_zero : forall vc, map (Rmult 0) vc = map (fun _ => 0) vc.
Proof. intro vc. apply map_ext. intro. ring. Qed.

Lemma line_chosen : forall V fuel brent guess vc vs res,
  (forall g t f, brent (minus_V V vc vs) g = Some (t, f) -> f = minus_V V vc vs t) ->
  GSL_Find_Maximum_line V fuel brent guess vc vs = Ok res ->
  exists t, (exists g f, brent (minus_V V vc vs) g = Some (t, f)) /\ res = map (Rmult t) vc ++ [V (map (Rmult t) vc) - Rmin (V (map (fun _ => 0) vc)) (V vc)] /\
  exists sols, collect fuel (brent (minus_V V vc vs)) guess 0 [] = Ok sols /\ forall r, In r sols -> V (on_line t vc vs) <= V (on_line (fst r) vc vs).
Proof.
  intros V fuel brent guess vc vs res B H. unfold GSL_Find_Maximum_line in H.
  destruct (collect fuel (brent (minus_V V vc vs)) guess 0 []) as [sols| | |] eqn:C; try discriminate H. cbn [bind] in H.
  destruct (collect_found _ _ _ _ _ _ C) as [L F].
  destruct sols as [|s rest]; [discriminate L|]. destruct (choose_ok s rest) as [best [E [I M]]]. rewrite E in H. cbn [bind] in H.
  injection H as <-. exists (fst best). destruct (F best I) as [[]|[g G]]. split; [exists g, (snd best); destruct best; exact G|]. split; [reflexivity|].
  exists (s :: rest). split; [reflexivity|]. intros r R. specialize (M r R).
  destruct (F r R) as [[]|[g' G']]. rewrite (surjective_pairing best) in G. rewrite (surjective_pairing r) in G'.
  rewrite (B _ _ _ G), (B _ _ _ G') in M. unfold minus_V in M. lra.
Qed.
Lemma line_right : forall V fuel brent guess length_of vc vs b res,
  length vs = length vc -> (forall x, In x vs -> x = 0) ->
  (forall g t f, brent (minus_V V vc vs) g = Some (t, f) -> 0 <= t <= 1 /\ f = minus_V V vc vs t /\ forall u, 0 <= u <= 1 -> V (on_line u vc vs) <= V (on_line t vc vs)) ->
  barrier (fun t => V (on_line t vc vs)) b -> 0 < b ->
  calculate_wall_thickness_1D V fuel brent guess length_of vc vs = Ok res -> res = over_root (length_of vc) b.
Proof.
  intros V fuel brent guess length_of vc vs b res L Z B BAR BP H. unfold calculate_wall_thickness_1D in H.
  destruct (GSL_Find_Maximum_line V fuel brent guess vc vs) as [vb| | |] eqn:E; try discriminate H. cbn [bind] in H.
  destruct (line_chosen V fuel brent guess vc vs vb ltac:(intros g t f G; apply (B g t f G)) E) as [t [[g [f G]] [R _]]].
  destruct (B g t f G) as [T [_ M]].
  rewrite R in H. rewrite nth_error_app2 in H by (rewrite map_length; lia). rewrite map_length, Nat.sub_diag in H. cbn [nth_error] in H.
  destruct BAR as [t' [T' [M' EB]]].
  assert (VB : V (map (Rmult t) vc) - Rmin (V (map (fun _ => 0) vc)) (V vc) = b).
  { rewrite EB. rewrite !(on_line_zero _ vc vs L Z), map_one, map_zero. pose proof (M t' T') as A1. pose proof (M' t T) as A2. rewrite !(on_line_zero _ vc vs L Z) in A1, A2. lra. }
  rewrite VB in H. destruct (Req_EM_T b 0); [lra|]. injection H as <-. reflexivity.
Qed.
Lemma collect_keeps : forall fuel brent guess ntry sols res r, collect fuel brent guess ntry sols = Ok res -> In r sols -> In r res.
Proof.
  induction fuel as [|fuel IH]; intros brent guess ntry sols res r H I; [discriminate H|]. cbn [collect] in H.
  set (sols' := match brent (guess ntry) with Some r => sols ++ [r] | None => sols end) in *.
  assert (I' : In r sols') by (unfold sols'; destruct (brent (guess ntry)); [apply in_or_app; left; exact I|exact I]).
  destruct (Nat.eqb (length sols') 20); [injection H as <-; exact I'|exact (IH _ _ _ _ _ _ H I')].
Qed.
Lemma collect_first : forall fuel brent guess res r, collect fuel brent guess 0 [] = Ok res -> brent (guess 0%nat) = Some r -> In r res.
Proof.
  intros [|fuel] brent guess res r H B; [discriminate H|]. cbn [collect] in H. rewrite B in H. cbn [app length Nat.eqb] in H.
  apply (collect_keeps _ _ _ _ _ _ _ H). left. reflexivity.
Qed.
Lemma over_root_inj : forall a b, 0 < a -> 0 < b -> over_root 1 a = over_root 1 b -> a = b.
Proof.
  intros a b A B H. unfold over_root in H. destruct (Rlt_dec 0 a); [|contradiction]. destruct (Rlt_dec 0 b); [|contradiction].
  apply (f_equal (fun x => match x with Finite r => r | _ => 0 end)) in H.
  assert (SA : 0 < sqrt (8 * a)) by (apply sqrt_lt_R0; lra). assert (SB : 0 < sqrt (8 * b)) by (apply sqrt_lt_R0; lra).
  assert (E : sqrt (8 * a) = sqrt (8 * b)).
  { rewrite <- (Rinv_inv (sqrt (8 * a))), <- (Rinv_inv (sqrt (8 * b))). unfold Rdiv in H. rewrite !Rmult_1_l in H. rewrite H. reflexivity. }
  apply sqrt_inj in E; lra.
Qed.
