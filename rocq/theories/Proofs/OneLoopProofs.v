(** Derivatives of the one-loop potential. *)
From Coq Require Import List Reals ZArith Lra Lia Bool.
From Verif.Model Require Import Base Loop OneLoop.
From Verif.Spec Require Import OneLoopSpec.
From Verif.Proofs Require Import DerivLib LoopProofs.
Import ListNotations.
Open Scope R_scope.

Lemma total_dl (f : R -> R -> R) (D : R -> R -> R) t0 l ds :
  Forall2 (fun g y => dl (fun t => f t (g t)) t0 (D (g t0) y)) l ds ->
  dl (fun t => total (f t) (map (fun g => g t) l)) t0 (on D (map (fun g => g t0) l) ds).
Proof.
  induction 1 as [|g y l ds H F IH]; [exact (dl_const 0 t0)|]. unfold on. cbn [map combine total fold_right fst snd].
  apply (dl_plus (fun t => f t (g t))); [exact H|exact IH].
Qed.
Lemma total_dl1 (f : R -> R -> R) (D : R -> R) t0 (l : list (R -> R)) :
  Forall (fun g => dl (fun t => f t (g t)) t0 (D (g t0))) l ->
  dl (fun t => total (f t) (map (fun g => g t) l)) t0 (total D (map (fun g => g t0) l)).
Proof.
  induction 1 as [|g l H F IH]; [exact (dl_const 0 t0)|]. cbn [map total fold_right]. apply (dl_plus (fun t => f t (g t))); [exact H|exact IH].
Qed.
Lemma total_ext {A} (f g : A -> R) l : (forall x, f x = g x) -> total f l = total g l.
Proof. intro E. unfold total. induction l as [|x l IH]; cbn; [reflexivity|]. now rewrite E, IH. Qed.
Lemma total_scale {A} (f : A -> R) c l : total (fun x => c * f x) l = c * total f l.
Proof. unfold total. induction l as [|x l IH]; cbn; [ring|]. rewrite IH. ring. Qed.
Lemma total_plus {A} (f g : A -> R) l : total (fun x => f x + g x) l = total f l + total g l.
Proof. unfold total. induction l as [|x l IH]; cbn; [ring|]. rewrite IH. ring. Qed.
Lemma on_plus {A B} (f g : A -> B -> R) l l' : on (fun x y => f x y + g x y) l l' = on f l l' + on g l l'.
Proof. unfold on. apply (total_plus (fun p => f (fst p) (snd p)) (fun p => g (fst p) (snd p))). Qed.
Lemma on_scale {A B} (f : A -> B -> R) c l l' : on (fun x y => c * f x y) l l' = c * on f l l'.
Proof. unfold on. apply (total_scale (fun p => f (fst p) (snd p))). Qed.
Lemma on_ext {A B} (f g : A -> B -> R) l l' : (forall x y, f x y = g x y) -> on f l l' = on g l l'.
Proof. intro E. unfold on. apply total_ext. intros [x y]. apply E. Qed.

(** m^(3/2) *)
Lemma cubed_val m : cubed m = m * sqrt m.
Proof.
  unfold cubed. destruct (Rlt_dec 0 m) as [P|N].
  - replace (3 / 2) with (1 + / 2) by field. rewrite Rpower_plus, Rpower_1 by assumption. now rewrite Rpower_sqrt.
  - rewrite sqrt_neg_0 by lra. ring.
Qed.
Lemma cubed_dl m : dl cubed m (rooted m 1).
Proof.
  apply (dl_ext (fun y => y * sqrt y)); [intro y; symmetry; apply cubed_val|]. unfold rooted. destruct (Rlt_dec 0 m) as [P|N].
  - eapply dl_eq; [dlauto; exact P|]. cbn. pose proof (sqrt_lt_R0 m P) as Q. pose proof (sqrt_sqrt m (Rlt_le _ _ P)) as E.
    replace (3 / 2 * 1 * sqrt m) with (sqrt m + sqrt m * sqrt m / (2 * sqrt m)); [rewrite E; field; lra|field; lra].
  - destruct (Req_dec m 0) as [->|NZ].
    + intros eps E. assert (E2 : 0 < eps * eps) by nra. exists (mkposreal _ E2). intros h H0 H. cbn in H. rewrite Rplus_0_l, Rmult_0_l, !Rminus_0_r.
      replace (h * sqrt h / h) with (sqrt h) by (field; exact H0). rewrite Rabs_right by (apply Rle_ge, sqrt_pos).
      destruct (Rle_dec 0 h) as [P|P]; [|rewrite sqrt_neg_0; lra].
      rewrite Rabs_right in H by lra. rewrite <- (sqrt_square eps) by lra. apply sqrt_lt_1; lra.
    + apply (dl_ext_loc (fun _ => 0) _ m 0 (- m)); [lra| |apply dl_const]. intros y Hy. apply Rabs_def2 in Hy. rewrite sqrt_neg_0 by lra. ring.
Qed.
Lemma cubed_move t0 g d : moves t0 g d -> dl (fun t => cubed (g t)) t0 (rooted (g t0) d).
Proof.
  intro M. eapply dl_eq; [apply (dl_comp g cubed t0 d); [exact M|apply cubed_dl]|]. unfold rooted. destruct (Rlt_dec 0 (g t0)); ring.
Qed.
Lemma rests_moves t0 g : rests t0 g -> moves t0 g 0.
Proof. intros (eps & P & E). apply (dl_ext_loc (fun _ => g t0) g t0 0 eps P); [|apply dl_const]. intros y Hy. symmetry. now apply E. Qed.
Lemma rests_dl t0 g (F : R -> R) : rests t0 g -> dl (fun t => F (g t)) t0 0.
Proof. intros (eps & P & E). apply (dl_ext_loc (fun _ => F (g t0)) _ t0 0 eps P); [|apply dl_const]. intros y Hy. f_equal. symmetry. now apply E. Qed.
Lemma regular_moves J J1 thr T t0 g d : regular J J1 thr T t0 g d -> moves t0 g d.
Proof. intros [(M & _)|(R & ->)]; [exact M|now apply rests_moves]. Qed.

Section Derivatives.
  Variable scale : R.
  Variables JIb JIf : R -> R.
  Variables JNb JNf : R -> Z -> R.
  Notation bos := (bos scale JIb JNb).
  Notation fer := (fer scale JIf JNf).
  Notation V1Loop := (V1Loop scale JIb JIf JNb JNf).
  Notation V1Loop0 := (V1Loop0 scale JIb JIf JNb JNf).
  Notation V1Loop_field := (V1Loop_field scale JIb JIf JNb JNf).
  Notation V1Loop_temp := (V1Loop_temp scale JIb JIf JNb JNf).
  Notation at_ t s := (map_spectrum (fun g : R -> R => g t) s).

  Lemma bos_move cb T t0 g d : regular JIb (fun x => JNb x 1) CW_threshold T t0 g d -> dl (fun t => bos (g t) T cb 0) t0 (d * bos (g t0) T cb 1).
  Proof.
    intros [(M & P & N & D)|(R & ->)].
    - eapply dl_eq; [apply (dl_comp g (fun m => bos m T cb 0) t0 d); [exact M|]|apply Rmult_comm]. now apply boson_mass_derivative.
    - eapply dl_eq; [apply (rests_dl t0 g (fun m => bos m T cb 0) R)|ring].
  Qed.
  Lemma fer_move T t0 g d : regular JIf (fun x => JNf x 1) CW_threshold T t0 g d -> dl (fun t => fer (g t) T 0) t0 (d * fer (g t0) T 1).
  Proof.
    intros [(M & P & N & D)|(R & ->)].
    - eapply dl_eq; [apply (dl_comp g (fun m => fer m T 0) t0 d); [exact M|]|apply Rmult_comm]. now apply boson_mass_derivative.
    - eapply dl_eq; [apply (rests_dl t0 g (fun m => fer m T 0) R)|ring].
  Qed.
  Lemma scaled_move (f : R -> R -> R) c t0 v d (x : R) : dl (fun t => f t x) t0 d -> v = c * d -> dl (fun t => c * f t x) t0 v.
  Proof. intros D ->. eapply dl_eq; [apply (dl_mult (fun _ => c)); [apply dl_const|exact D]|]. ring. Qed.

  Definition regular_b T t0 := regular JIb (fun x => JNb x 1) CW_threshold T t0.
  Definition regular_f T t0 := regular JIf (fun x => JNf x 1) CW_threshold T t0.
  Definition smooth_spectrum T t0 (s : spectrum (R -> R)) (d : spectrum R) : Prop :=
    Forall2 (moves t0) (higgs s) (higgs d) /\ Forall2 (moves t0) (gauge s) (gauge d) /\
    Forall2 (regular_b T t0) (higgs0 s) (higgs0 d) /\ Forall2 (regular_b T t0) (gauge0 s) (gauge0 d) /\
    Forall2 (regular_f T t0) (quarks s) (quarks d) /\ Forall2 (regular_f T t0) (leptons s) (leptons d).

  Lemma F2 {A B} (P Q : A -> B -> Prop) l l' : (forall x y, P x y -> Q x y) -> Forall2 P l l' -> Forall2 Q l l'.
  Proof. intros H F. induction F; constructor; auto. Qed.
  Lemma sum_bos cb c T t0 l ds : Forall2 (regular_b T t0) l ds ->
    dl (fun t => total (fun x => c * bos x T cb 0) (map (fun g => g t) l)) t0 (on (fun x y => c * y * bos x T cb 1) (map (fun g => g t0) l) ds).
  Proof.
    intro F. apply (total_dl (fun _ x => c * bos x T cb 0)). apply (F2 _ _ _ _ (fun g y H => H)). refine (F2 _ _ _ _ _ F). intros g y R.
    eapply dl_eq; [apply (dl_mult (fun _ => c) (fun t => bos (g t) T cb 0)); [apply dl_const|apply (bos_move cb T t0 g y R)]|]. ring.
  Qed.
  Lemma sum_fer c T t0 l ds : Forall2 (regular_f T t0) l ds ->
    dl (fun t => total (fun x => c * fer x T 0) (map (fun g => g t) l)) t0 (on (fun x y => c * y * fer x T 1) (map (fun g => g t0) l) ds).
  Proof.
    intro F. apply (total_dl (fun _ x => c * fer x T 0)). refine (F2 _ _ _ _ _ F). intros g y R.
    eapply dl_eq; [apply (dl_mult (fun _ => c) (fun t => fer (g t) T 0)); [apply dl_const|apply (fer_move T t0 g y R)]|]. ring.
  Qed.
  Lemma sum_cubed t0 l ds : Forall2 (moves t0) l ds ->
    dl (fun t => total cubed (map (fun g => g t) l)) t0 (on rooted (map (fun g => g t0) l) ds).
  Proof. intro F. apply (total_dl (fun _ x => cubed x)). refine (F2 _ _ _ _ _ F). intros g y M. now apply cubed_move. Qed.
  Lemma one_total (f : R -> R) l : total f l = total (fun x => 1 * f x) l.
  Proof. apply total_ext. intro. ring. Qed.
  Lemma one_on (f : R -> R) l l' : on (fun x y => y * f x) l l' = on (fun x y => 1 * y * f x) l l'.
  Proof. apply on_ext. intros. ring. Qed.
  Lemma F2_moves T t0 l ds : Forall2 (regular_b T t0) l ds -> Forall2 (moves t0) l ds.
  Proof. apply F2. intros g y R. exact (regular_moves _ _ _ _ _ _ _ R). Qed.

  (** field direction, masses resummed as by Arnold and Espinosa *)
  Lemma ae_field T t0 s d : smooth_spectrum T t0 s d ->
    dl (fun t => V1Loop0 false (at_ t s) T) t0 (V1Loop_field false (at_ t0 s) d T 1).
  Proof.
    intros (H1 & H2 & H3 & H4 & H5 & H6). unfold OneLoop.V1Loop0, OneLoop.V1Loop_field, map_spectrum. cbn [higgs gauge higgs0 gauge0 quarks leptons].
    rewrite one_on. apply (dl_ext (fun t => total (fun x => 1 * bos x T C_CWcbHiggs 0) (map (fun g => g t) (higgs0 s))
      + total (fun x => 3 * bos x T C_CWcbGB 0) (map (fun g => g t) (gauge0 s)) + NColour * total (fun x => -2 * fer x T 0) (map (fun g => g t) (quarks s))
      + total (fun x => -2 * fer x T 0) (map (fun g => g t) (leptons s))
      + - T / (12 * PI) * (total cubed (map (fun g => g t) (higgs s)) - total cubed (map (fun g => g t) (higgs0 s)) + (total cubed (map (fun g => g t) (gauge s)) - total cubed (map (fun g => g t) (gauge0 s))))));
      [intro t; now rewrite <- one_total|].
    pose proof (F2_moves _ _ _ _ H3) as M3. pose proof (F2_moves _ _ _ _ H4) as M4.
    apply dl_plus; [apply dl_plus; [apply dl_plus; [apply dl_plus|]|]|].
    - now apply sum_bos.
    - now apply sum_bos.
    - eapply dl_eq; [apply (dl_mult (fun _ => NColour)); [apply dl_const|apply (sum_fer (-2) T t0 _ _ H5)]|]. ring.
    - now apply sum_fer.
    - eapply dl_eq; [apply (dl_mult (fun _ => - T / (12 * PI))); [apply dl_const|]|].
      + apply dl_plus; apply dl_minus; apply sum_cubed; eassumption.
      + ring.
  Qed.
  (** field direction, thermal masses everywhere *)
  Definition smooth_spectrum_p T t0 (s : spectrum (R -> R)) (d : spectrum R) : Prop :=
    Forall2 (regular_b T t0) (higgs s) (higgs d) /\ Forall2 (regular_b T t0) (gauge s) (gauge d) /\ Forall2 (regular_b T t0) (gauge0 s) (gauge0 d) /\
    Forall2 (regular_f T t0) (quarks s) (quarks d) /\ Forall2 (regular_f T t0) (leptons s) (leptons d).
  Lemma parwani_field T t0 s d : smooth_spectrum_p T t0 s d ->
    dl (fun t => V1Loop0 true (at_ t s) T) t0
       (V1Loop_field true (at_ t0 s) d T 1
        + on (fun x y => y * (bos x T C_CWcbGB 1 - bos x T C_CWcbHiggs 1)) (gauge (at_ t0 s)) (gauge d)
        + on (fun x y => 2 * y * (bos x T C_CWcbGB 1 - bos x T C_CWcbHiggs 1)) (gauge0 (at_ t0 s)) (gauge0 d)).
  Proof.
    intros (H1 & H2 & H4 & H5 & H6). unfold OneLoop.V1Loop0, OneLoop.V1Loop_field, map_spectrum. cbn [higgs gauge higgs0 gauge0 quarks leptons].
    apply (dl_ext (fun t => total (fun x => 1 * bos x T C_CWcbHiggs 0) (map (fun g => g t) (higgs s)) + total (fun x => 1 * bos x T C_CWcbGB 0) (map (fun g => g t) (gauge s))
      + total (fun x => 2 * bos x T C_CWcbGB 0) (map (fun g => g t) (gauge0 s)) + total (fun x => -6 * fer x T 0) (map (fun g => g t) (quarks s))
      + total (fun x => -2 * fer x T 0) (map (fun g => g t) (leptons s)))); [intro t; now rewrite <- !one_total|].
    eapply dl_eq.
    - apply dl_plus; [apply dl_plus; [apply dl_plus; [apply dl_plus|]|]|]; [apply sum_bos|apply sum_bos|apply sum_bos|apply sum_fer|apply sum_fer]; eassumption.
    - assert (X : forall c l l', on (fun x y => c * y * bos x T C_CWcbGB 1) l l' = on (fun x y => c * y * bos x T C_CWcbHiggs 1) l l' + on (fun x y => c * y * (bos x T C_CWcbGB 1 - bos x T C_CWcbHiggs 1)) l l').
      { intros c l l'. rewrite <- on_plus. apply on_ext. intros. ring. }
      rewrite !X. rewrite <- one_on.
      rewrite (on_ext (fun x y => 1 * y * bos x T C_CWcbHiggs 1) (fun x y => y * bos x T C_CWcbHiggs 1)) by (intros; ring).
      rewrite (on_ext (fun x y => 1 * y * (bos x T C_CWcbGB 1 - bos x T C_CWcbHiggs 1)) (fun x y => y * (bos x T C_CWcbGB 1 - bos x T C_CWcbHiggs 1))) by (intros; ring).
      ring.
  Qed.

  (** the other directions drop the thermal part *)
  Lemma bos_other m T cb diff : (1 < diff)%Z -> bos m T cb diff = bos m T cb 1 - (if Req_EM_T T 0 then 0 else T ^ 2 / (2 * PI ^ 2) * JNb (m / T ^ 2) 1).
  Proof.
    intro N. unfold OneLoop.bos. rewrite boson1_val. unfold boson. replace (Z.leb 0 diff) with true by (symmetry; apply Z.leb_le; lia).
    replace (Z.eqb diff 0) with false by (symmetry; apply Z.eqb_neq; lia). replace (Z.eqb diff 1) with false by (symmetry; apply Z.eqb_neq; lia).
    replace (Z.eqb diff (-1)) with false by (symmetry; apply Z.eqb_neq; lia).
    assert (E : CWTerm scale (Rabs m) cb diff = CWTerm scale (Rabs m) cb 1).
    { unfold CWTerm. replace (Z.eqb diff 0) with false by (symmetry; apply Z.eqb_neq; lia). replace (Z.ltb 0 diff) with true by (symmetry; apply Z.ltb_lt; lia). reflexivity. }
    rewrite E. destruct (Req_EM_T T 0); ring.
  Qed.
  Lemma fer_other m T diff : (1 < diff)%Z -> fer m T diff = fer m T 1 - (if Req_EM_T T 0 then 0 else T ^ 2 / (2 * PI ^ 2) * JNf (m / T ^ 2) 1).
  Proof.
    intro N. unfold OneLoop.fer, fermion. rewrite boson1_val. unfold boson. replace (Z.leb 0 diff) with true by (symmetry; apply Z.leb_le; lia).
    replace (Z.eqb diff 0) with false by (symmetry; apply Z.eqb_neq; lia). replace (Z.eqb diff 1) with false by (symmetry; apply Z.eqb_neq; lia).
    replace (Z.eqb diff (-1)) with false by (symmetry; apply Z.eqb_neq; lia).
    assert (E : CWTerm scale (Rabs m) C_CWcbFermion diff = CWTerm scale (Rabs m) C_CWcbFermion 1).
    { unfold CWTerm. replace (Z.eqb diff 0) with false by (symmetry; apply Z.eqb_neq; lia). replace (Z.ltb 0 diff) with true by (symmetry; apply Z.ltb_lt; lia). reflexivity. }
    rewrite E. destruct (Req_EM_T T 0); ring.
  Qed.
  Definition thermal_force (m d : spectrum R) (T : R) : R :=
    T ^ 2 / (2 * PI ^ 2) * (on (fun x y => y * JNb (x / T ^ 2) 1) (higgs0 m) (higgs0 d) + 3 * on (fun x y => y * JNb (x / T ^ 2) 1) (gauge0 m) (gauge0 d)
      - 6 * on (fun x y => y * JNf (x / T ^ 2) 1) (quarks m) (quarks d) - 2 * on (fun x y => y * JNf (x / T ^ 2) 1) (leptons m) (leptons d)).
  Lemma on_split (f g : R -> R) c k l l' : on (fun x y => c * y * (f x - k * g x)) l l' = on (fun x y => c * y * f x) l l' - c * k * on (fun x y => y * g x) l l'.
  Proof.
    rewrite <- on_scale. assert (on (fun x y => c * y * f x) l l' = on (fun x y => c * y * (f x - k * g x)) l l' + on (fun x y => c * k * (y * g x)) l l').
    { rewrite <- on_plus. apply on_ext. intros. ring. } lra.
  Qed.
  Lemma ae_other m d T diff : T <> 0 -> (1 < diff)%Z -> V1Loop_field false m d T diff = V1Loop_field false m d T 1 - thermal_force m d T.
  Proof.
    intros NZ N. unfold OneLoop.V1Loop_field. set (k := T ^ 2 / (2 * PI ^ 2)).
    assert (B : forall cb c l l', on (fun x y => c * y * bos x T cb diff) l l' = on (fun x y => c * y * bos x T cb 1) l l' - c * k * on (fun x y => y * JNb (x / T ^ 2) 1) l l').
    { intros. rewrite <- (on_split (fun x => bos x T cb 1) (fun x => JNb (x / T ^ 2) 1)). apply on_ext. intros. rewrite bos_other by assumption. destruct (Req_EM_T T 0); [contradiction|reflexivity]. }
    assert (F : forall c l l', on (fun x y => c * y * fer x T diff) l l' = on (fun x y => c * y * fer x T 1) l l' - c * k * on (fun x y => y * JNf (x / T ^ 2) 1) l l').
    { intros. rewrite <- (on_split (fun x => fer x T 1) (fun x => JNf (x / T ^ 2) 1)). apply on_ext. intros. rewrite fer_other by assumption. destruct (Req_EM_T T 0); [contradiction|reflexivity]. }
    rewrite !one_on, !B, !F. unfold thermal_force, NColour. fold k. ring.
  Qed.
  Lemma field_T0 p m d diff : (1 < diff)%Z -> V1Loop_field p m d 0 diff = V1Loop_field p m d 0 1.
  Proof.
    intro N.
    assert (B : forall cb x, bos x 0 cb diff = bos x 0 cb 1) by (intros; rewrite bos_other by assumption; destruct (Req_EM_T 0 0); [ring|contradiction]).
    assert (F : forall x, fer x 0 diff = fer x 0 1) by (intros; rewrite fer_other by assumption; destruct (Req_EM_T 0 0); [ring|contradiction]).
    unfold OneLoop.V1Loop_field. destruct p; repeat apply f_equal2; try reflexivity; apply on_ext; intros; rewrite ?B, ?F; reflexivity.
  Qed.

  (** temperature direction *)
  Lemma massless_T cb T : T <> 0 -> (forall x, JIb x = JNb x 0) -> dl (fun t => bos 0 t cb 0) T (bos 0 T cb (-1)).
  Proof.
    intros NZ E. assert (PP := PI_RGT_0). assert (HT : 0 < Rabs T) by now apply Rabs_pos_lt.
    apply (dl_ext_loc (fun t => CWTerm scale 0 cb 0 + t ^ 4 / (2 * PI ^ 2) * JIb 0) _ _ _ (Rabs T) HT).
    - intros t Ht. unfold OneLoop.bos. rewrite boson0_val. destruct (Req_EM_T t 0) as [Z|_]; [subst t; rewrite Rminus_0_l, Rabs_Ropp in Ht; lra|].
      do 3 f_equal. unfold Rdiv. ring.
    - eapply dl_eq.
      + apply dl_plus; [apply dl_const|]. apply (dl_mult (fun t => t ^ 4 / (2 * PI ^ 2)) (fun _ => JIb 0) T (4 * T ^ 3 / (2 * PI ^ 2))); [|apply dl_const].
        eapply dl_eq; [dlauto|]; [apply Rmult_integral_contrapositive; split; [lra|]; apply pow_nonzero; lra|cbn [pred INR]; cbv beta; field; lra].
      + cbv beta. unfold OneLoop.bos, boson. cbn [Z.leb Z.compare Z.eqb Pos.eqb]. destruct (Req_EM_T T 0); [contradiction|].
        replace (0 / T ^ 2) with 0 by (unfold Rdiv; ring). rewrite E. field. lra.
  Qed.
  Lemma bos_T cb c T g : T <> 0 -> (forall x, JIb x = JNb x 0) -> thermal_point JIb (fun x => JNb x 1) T g ->
    dl (fun t => c * bos (g t) t cb 0) T (c * bos (g T) T cb (-1)).
  Proof.
    intros NZ E (C & D). apply (dl_ext (fun t => c * bos (g T) t cb 0)); [intro t; now rewrite (C t)|].
    eapply dl_eq; [apply (dl_mult (fun _ => c) (fun t => bos (g T) t cb 0) T 0 (bos (g T) T cb (-1))); [apply dl_const|]|].
    - destruct D as [Z|D]; [rewrite Z; now apply massless_T|apply boson_T_derivative; eassumption].
    - cbv beta. ring.
  Qed.
  Lemma massless_Tf T : T <> 0 -> (forall x, JIf x = JNf x 0) -> dl (fun t => fer 0 t 0) T (fer 0 T (-1)).
  Proof.
    intros NZ E. assert (PP := PI_RGT_0). assert (HT : 0 < Rabs T) by now apply Rabs_pos_lt.
    apply (dl_ext_loc (fun t => CWTerm scale 0 C_CWcbFermion 0 + t ^ 4 / (2 * PI ^ 2) * JIf 0) _ _ _ (Rabs T) HT).
    - intros t Ht. unfold OneLoop.fer, fermion. rewrite boson0_val. destruct (Req_EM_T t 0) as [Z|_]; [subst t; rewrite Rminus_0_l, Rabs_Ropp in Ht; lra|].
      do 3 f_equal. unfold Rdiv. ring.
    - eapply dl_eq.
      + apply dl_plus; [apply dl_const|]. apply (dl_mult (fun t => t ^ 4 / (2 * PI ^ 2)) (fun _ => JIf 0) T (4 * T ^ 3 / (2 * PI ^ 2))); [|apply dl_const].
        eapply dl_eq; [dlauto|]; [apply Rmult_integral_contrapositive; split; [lra|]; apply pow_nonzero; lra|cbn [pred INR]; cbv beta; field; lra].
      + cbv beta. unfold OneLoop.fer, fermion, boson. cbn [Z.leb Z.compare Z.eqb Pos.eqb]. destruct (Req_EM_T T 0); [contradiction|].
        replace (0 / T ^ 2) with 0 by (unfold Rdiv; ring). rewrite E. field. lra.
  Qed.
  Lemma fer_T c T g : T <> 0 -> (forall x, JIf x = JNf x 0) -> thermal_point JIf (fun x => JNf x 1) T g ->
    dl (fun t => c * fer (g t) t 0) T (c * fer (g T) T (-1)).
  Proof.
    intros NZ E (C & D). apply (dl_ext (fun t => c * fer (g T) t 0)); [intro t; now rewrite (C t)|].
    eapply dl_eq; [apply (dl_mult (fun _ => c) (fun t => fer (g T) t 0) T 0 (fer (g T) T (-1))); [apply dl_const|]|].
    - destruct D as [Z|D]; [rewrite Z; now apply massless_Tf|apply boson_T_derivative; eassumption].
    - cbv beta. ring.
  Qed.
  Definition exact_b : Prop := forall x, JIb x = JNb x 0.
  Definition exact_f : Prop := forall x, JIf x = JNf x 0.
  Definition points_b T := thermal_point JIb (fun x => JNb x 1) T.
  Definition points_f T := thermal_point JIf (fun x => JNf x 1) T.
  Lemma sum_bos_T cb c T l : T <> 0 -> exact_b -> Forall (points_b T) l ->
    dl (fun t => total (fun x => c * bos x t cb 0) (map (fun g => g t) l)) T (total (fun x => c * bos x T cb (-1)) (map (fun g => g T) l)).
  Proof. intros NZ E F. apply (total_dl1 (fun t x => c * bos x t cb 0)). refine (Forall_impl _ _ F). intros g H. now apply bos_T. Qed.
  Lemma sum_fer_T c T l : T <> 0 -> exact_f -> Forall (points_f T) l ->
    dl (fun t => total (fun x => c * fer x t 0) (map (fun g => g t) l)) T (total (fun x => c * fer x T (-1)) (map (fun g => g T) l)).
  Proof. intros NZ E F. apply (total_dl1 (fun t x => c * fer x t 0)). refine (Forall_impl _ _ F). intros g H. now apply fer_T. Qed.

  Definition thermal_spectrum T (s : spectrum (R -> R)) (d : spectrum R) : Prop :=
    Forall2 (moves T) (higgs s) (higgs d) /\ Forall2 (moves T) (gauge s) (gauge d) /\
    Forall (points_b T) (higgs0 s) /\ Forall (points_b T) (gauge0 s) /\ Forall (points_f T) (quarks s) /\ Forall (points_f T) (leptons s).
  Lemma total_const f l T : Forall (points_b T) l -> forall t, total f (map (fun g => g t) l) = total f (map (fun g => g T) l).
  Proof. intros F t. f_equal. induction F as [|g l (C & _) F IH]; [reflexivity|]. cbn. now rewrite (C t), IH. Qed.
  Lemma ae_temp T s d : T <> 0 -> exact_b -> exact_f -> thermal_spectrum T s d ->
    dl (fun t => V1Loop0 false (at_ t s) t) T
       (V1Loop_temp false (at_ T s) d T - T / (12 * PI) * (on rooted (higgs (at_ T s)) (higgs d) + on rooted (gauge (at_ T s)) (gauge d))).
  Proof.
    intros NZ Eb Ef (H1 & H2 & H3 & H4 & H5 & H6). pose proof PI_RGT_0 as PP.
    unfold OneLoop.V1Loop0, OneLoop.V1Loop_temp, map_spectrum. cbn [higgs gauge higgs0 gauge0 quarks leptons].
    apply (dl_ext (fun t => total (fun x => 1 * bos x t C_CWcbHiggs 0) (map (fun g => g t) (higgs0 s))
      + total (fun x => 3 * bos x t C_CWcbGB 0) (map (fun g => g t) (gauge0 s)) + NColour * total (fun x => -2 * fer x t 0) (map (fun g => g t) (quarks s))
      + total (fun x => -2 * fer x t 0) (map (fun g => g t) (leptons s))
      + - t / (12 * PI) * (total cubed (map (fun g => g t) (higgs s)) - total cubed (map (fun g => g T) (higgs0 s)) + (total cubed (map (fun g => g t) (gauge s)) - total cubed (map (fun g => g T) (gauge0 s))))));
      [intro t; rewrite <- one_total, (total_const cubed _ T H3 t), (total_const cubed _ T H4 t); reflexivity|].
    eapply dl_eq.
    - apply dl_plus; [apply dl_plus; [apply dl_plus; [apply dl_plus|]|]|].
      + apply sum_bos_T; eassumption.
      + apply sum_bos_T; eassumption.
      + apply (dl_mult (fun _ => NColour)); [apply dl_const|apply (sum_fer_T (-2) T _ NZ Ef H5)].
      + apply sum_fer_T; eassumption.
      + apply (dl_mult (fun t => - t / (12 * PI))); [|apply dl_plus; (apply dl_minus; [apply sum_cubed; eassumption|apply dl_const])].
        apply (dl_ext (fun t => -1 / (12 * PI) * t)); [intro; field; lra|]. apply dl_mult; [apply dl_const|apply dl_id].
    - cbv beta. rewrite <- one_total. field. lra.
  Qed.

  (** a thermal mass: the chain rule *)
  Lemma bos_heated cb T g d : T <> 0 -> exact_b -> heated JIb (fun x => JNb x 1) CW_threshold T g d ->
    dl (fun t => bos (g t) t cb 0) T (d * bos (g T) T cb 1 + bos (g T) T cb (-1)).
  Proof.
    intros NZ E [(M & P & N & D)|(H & ->)].
    2:{ eapply dl_eq; [|symmetry; rewrite Rmult_0_l, Rplus_0_l; reflexivity].
        pose proof (bos_T cb 1 T g NZ E H) as X. apply (dl_ext (fun t => 1 * bos (g t) t cb 0)); [intro; ring|]. eapply dl_eq; [exact X|ring]. }
    assert (PP := PI_RGT_0). assert (HT : 0 < Rabs T) by now apply Rabs_pos_lt. assert (T2 : T ^ 2 <> 0) by (now apply pow_nonzero).
    assert (C : dl (fun y => CWTerm scale y cb 0) (g T) (CWTerm scale (g T) cb 1)).
    { destruct (Rlt_dec (g T) CW_threshold); [apply CW_derivative_small|apply CW_derivative]; rewrite Rabs_right; lra. }
    apply (dl_ext_loc (fun t => CWTerm scale (g t) cb 0 + t ^ 4 / (2 * PI ^ 2) * JIb (g t / t ^ 2)) _ _ _ (Rabs T) HT).
    - intros t Ht. unfold OneLoop.bos. rewrite boson0_val. destruct (Req_EM_T t 0) as [Z|_]; [subst t; rewrite Rminus_0_l, Rabs_Ropp in Ht; lra|reflexivity].
    - eapply dl_eq.
      + apply dl_plus.
        * apply (dl_comp g (fun y => CWTerm scale y cb 0) T d); [exact M|exact C].
        * apply (dl_mult (fun t => t ^ 4 / (2 * PI ^ 2)) (fun t => JIb (g t / t ^ 2)) T (4 * T ^ 3 / (2 * PI ^ 2))).
          -- eapply dl_eq; [dlauto|]; [apply Rmult_integral_contrapositive; split; [lra|]; apply pow_nonzero; lra|cbn [pred INR]; cbv beta; field; lra].
          -- apply (dl_comp (fun t => g t / t ^ 2) JIb T (d / T ^ 2 - 2 * g T / T ^ 3)); [|exact D].
             eapply dl_eq; [apply (dl_div g (fun t => t ^ 2) T d (2 * T)); [exact M| |exact T2]|field; exact NZ].
             eapply dl_eq; [dlauto|]. cbn [pred INR]. ring.
      + cbv beta. unfold OneLoop.bos. rewrite boson1_val. unfold boson. cbn [Z.leb Z.compare Z.eqb Pos.eqb].
        destruct (Req_EM_T T 0); [contradiction|]. rewrite (E (g T / T ^ 2)), (Rabs_right (g T)) by lra. field. split; [lra|exact NZ].
  Qed.
  Definition thermal_spectrum_p T (s : spectrum (R -> R)) (d : spectrum R) : Prop :=
    Forall2 (heated JIb (fun x => JNb x 1) CW_threshold T) (higgs s) (higgs d) /\ Forall2 (heated JIb (fun x => JNb x 1) CW_threshold T) (gauge s) (gauge d) /\
    Forall (points_b T) (gauge0 s) /\ Forall (points_f T) (quarks s) /\ Forall (points_f T) (leptons s).
  Lemma sum_heated cb T l ds : T <> 0 -> exact_b -> Forall2 (heated JIb (fun x => JNb x 1) CW_threshold T) l ds ->
    dl (fun t => total (fun x => bos x t cb 0) (map (fun g => g t) l)) T (on (fun x y => y * bos x T cb 1 + bos x T cb (-1)) (map (fun g => g T) l) ds).
  Proof. intros NZ E F. apply (total_dl (fun t x => bos x t cb 0)). refine (F2 _ _ _ _ _ F). intros g y H. now apply bos_heated. Qed.
  Lemma parwani_temp T s d : T <> 0 -> exact_b -> exact_f -> thermal_spectrum_p T s d ->
    dl (fun t => V1Loop0 true (at_ t s) t) T
       (V1Loop_temp true (at_ T s) d T
        + on (fun x y => y * (bos x T C_CWcbHiggs 1 - bos x T C_CWcbHiggs 0)) (higgs (at_ T s)) (higgs d)
        + on (fun x y => y * (bos x T C_CWcbGB 1 - bos x T C_CWcbGB 0)) (gauge (at_ T s)) (gauge d)).
  Proof.
    intros NZ Eb Ef (H1 & H2 & H4 & H5 & H6).
    unfold OneLoop.V1Loop0, OneLoop.V1Loop_temp, map_spectrum. cbn [higgs gauge higgs0 gauge0 quarks leptons].
    eapply dl_eq.
    - apply dl_plus; [apply dl_plus; [apply dl_plus; [apply dl_plus|]|]|]; [apply sum_heated|apply sum_heated|apply sum_bos_T|apply sum_fer_T|apply sum_fer_T]; eassumption.
    - assert (X : forall cb l l', on (fun x y => y * bos x T cb 1 + bos x T cb (-1)) l l'
        = on (fun x y => y * bos x T cb 0 + bos x T cb (-1)) l l' + on (fun x y => y * (bos x T cb 1 - bos x T cb 0)) l l').
      { intros. rewrite <- on_plus. apply on_ext. intros. ring. }
      rewrite !X. ring.
  Qed.
  (** without thermal masses both schemes agree *)
  Lemma schemes_agree m T : higgs m = higgs0 m -> gauge m = gauge0 m -> V1Loop0 true m T = V1Loop0 false m T.
  Proof.
    intros E1 E2. unfold OneLoop.V1Loop0. rewrite E1, E2, !Rminus_eq_0, Rplus_0_l, Rmult_0_r, Rplus_0_r.
    assert (X : forall c (f : R -> R) l, total (fun x => c * f x) l = c * total f l) by (intros; apply total_scale). rewrite !X. unfold NColour.
    ring.
  Qed.
End Derivatives.

(** ** Statements for V1Loop *)
Section Statements.
  Variable scale : R.
  Variables JIb JIf : R -> R.
  Variables JNb JNf : R -> Z -> R.
  Notation V1Loop := (V1Loop scale JIb JIf JNb JNf).
  Notation at_ t s := (map_spectrum (fun g : R -> R => g t) s).
  Lemma V1Loop_at N p m d T diff : (1 <= diff <= Z.of_nat N)%Z -> V1Loop N p m d T diff = V1Loop_field scale JIb JIf JNb JNf p m d T diff.
  Proof.
    intro H. unfold OneLoop.V1Loop. replace (Z.eqb diff 0) with false by (symmetry; apply Z.eqb_neq; lia).
    replace (Z.ltb 0 diff) with true by (symmetry; apply Z.ltb_lt; lia). replace (Z.leb diff (Z.of_nat N)) with true by (symmetry; apply Z.leb_le; lia). reflexivity.
  Qed.
  Lemma field_derivative NHiggs T t0 (s : spectrum (R -> R)) (d : spectrum R) diff :
    (1 <= diff <= Z.of_nat NHiggs)%Z -> diff = 1%Z \/ T = 0 ->
    Forall2 (moves t0) (higgs s) (higgs d) -> Forall2 (moves t0) (gauge s) (gauge d) ->
    Forall2 (regular JIb (fun x => JNb x 1%Z) CW_threshold T t0) (higgs0 s) (higgs0 d) ->
    Forall2 (regular JIb (fun x => JNb x 1%Z) CW_threshold T t0) (gauge0 s) (gauge0 d) ->
    Forall2 (regular JIf (fun x => JNf x 1%Z) CW_threshold T t0) (quarks s) (quarks d) ->
    Forall2 (regular JIf (fun x => JNf x 1%Z) CW_threshold T t0) (leptons s) (leptons d) ->
    derivable_pt_lim (fun t => V1Loop NHiggs false (at_ t s) d T 0) t0 (V1Loop NHiggs false (at_ t0 s) d T diff).
  Proof.
    intros B C H1 H2 H3 H4 H5 H6. rewrite V1Loop_at by assumption.
    replace (V1Loop_field scale JIb JIf JNb JNf false (at_ t0 s) d T diff) with (V1Loop_field scale JIb JIf JNb JNf false (at_ t0 s) d T 1).
    - apply (ae_field scale JIb JIf JNb JNf T t0 s d). repeat split; assumption.
    - destruct C as [-> | ->]; [reflexivity|]. destruct (Z.eq_dec diff 1) as [->|N]; [reflexivity|]. symmetry. apply field_T0. lia.
  Qed.
  Lemma field_error NHiggs T t0 (s : spectrum (R -> R)) (d : spectrum R) diff :
    (1 < diff <= Z.of_nat NHiggs)%Z -> T <> 0 ->
    Forall2 (moves t0) (higgs s) (higgs d) -> Forall2 (moves t0) (gauge s) (gauge d) ->
    Forall2 (regular JIb (fun x => JNb x 1%Z) CW_threshold T t0) (higgs0 s) (higgs0 d) ->
    Forall2 (regular JIb (fun x => JNb x 1%Z) CW_threshold T t0) (gauge0 s) (gauge0 d) ->
    Forall2 (regular JIf (fun x => JNf x 1%Z) CW_threshold T t0) (quarks s) (quarks d) ->
    Forall2 (regular JIf (fun x => JNf x 1%Z) CW_threshold T t0) (leptons s) (leptons d) ->
    derivable_pt_lim (fun t => V1Loop NHiggs false (at_ t s) d T 0) t0 (V1Loop NHiggs false (at_ t0 s) d T diff + thermal_force JNb JNf (at_ t0 s) d T).
  Proof.
    intros B NZ H1 H2 H3 H4 H5 H6. rewrite V1Loop_at by lia. rewrite ae_other by (assumption || lia). eapply dl_eq.
    - apply (ae_field scale JIb JIf JNb JNf T t0 s d). repeat split; assumption.
    - ring.
  Qed.
  Lemma rooted_sqrt m d : rooted m d = 3 / 2 * (d * sqrt m).
  Proof. unfold rooted. destruct (Rlt_dec 0 m); [ring|]. rewrite sqrt_neg_0 by lra. ring. Qed.
  Lemma on_rooted l l' : on rooted l l' = 3 / 2 * on (fun m d => d * sqrt m) l l'.
  Proof. rewrite <- on_scale. apply on_ext. intros. apply rooted_sqrt. Qed.
  Lemma temp_error NHiggs T (s : spectrum (R -> R)) (d : spectrum R) :
    T <> 0 -> (forall x, JIb x = JNb x 0%Z) -> (forall x, JIf x = JNf x 0%Z) ->
    Forall2 (moves T) (higgs s) (higgs d) -> Forall2 (moves T) (gauge s) (gauge d) ->
    Forall (thermal_point JIb (fun x => JNb x 1%Z) T) (higgs0 s) -> Forall (thermal_point JIb (fun x => JNb x 1%Z) T) (gauge0 s) ->
    Forall (thermal_point JIf (fun x => JNf x 1%Z) T) (quarks s) -> Forall (thermal_point JIf (fun x => JNf x 1%Z) T) (leptons s) ->
    derivable_pt_lim (fun t => V1Loop NHiggs false (at_ t s) d t 0) T
      (V1Loop NHiggs false (at_ T s) d T (-1)
       - T / (8 * PI) * (on (fun m dm => dm * sqrt m) (higgs (at_ T s)) (higgs d) + on (fun m dm => dm * sqrt m) (gauge (at_ T s)) (gauge d))).
  Proof.
    intros NZ Eb Ef H1 H2 H3 H4 H5 H6. eapply dl_eq.
    - apply (ae_temp scale JIb JIf JNb JNf T s d NZ Eb Ef). repeat split; assumption.
    - rewrite !on_rooted. pose proof PI_RGT_0. change (V1Loop NHiggs false (at_ T s) d T (-1)) with (V1Loop_temp scale JIb JIf JNb JNf false (at_ T s) d T).
      field. lra.
  Qed.
  Lemma on_zero T l ds : Forall2 (fun g y => moves T g y /\ (y = 0 \/ g T <= 0)) l ds -> on (fun m dm => dm * sqrt m) (map (fun g => g T) l) ds = 0.
  Proof.
    induction 1 as [|g y l ds (_ & H) F IH]; [reflexivity|]. unfold on in *. cbn [map combine total fold_right fst snd] in *. unfold total in *. cbn. rewrite IH.
    destruct H as [->|H]; [ring|]. rewrite sqrt_neg_0 by assumption. ring.
  Qed.
  Lemma temp_right NHiggs T (s : spectrum (R -> R)) (d : spectrum R) :
    T <> 0 -> (forall x, JIb x = JNb x 0%Z) -> (forall x, JIf x = JNf x 0%Z) ->
    Forall2 (fun g y => moves T g y /\ (y = 0 \/ g T <= 0)) (higgs s) (higgs d) -> Forall2 (fun g y => moves T g y /\ (y = 0 \/ g T <= 0)) (gauge s) (gauge d) ->
    Forall (thermal_point JIb (fun x => JNb x 1%Z) T) (higgs0 s) -> Forall (thermal_point JIb (fun x => JNb x 1%Z) T) (gauge0 s) ->
    Forall (thermal_point JIf (fun x => JNf x 1%Z) T) (quarks s) -> Forall (thermal_point JIf (fun x => JNf x 1%Z) T) (leptons s) ->
    derivable_pt_lim (fun t => V1Loop NHiggs false (at_ t s) d t 0) T (V1Loop NHiggs false (at_ T s) d T (-1)).
  Proof.
    intros NZ Eb Ef H1 H2 H3 H4 H5 H6. eapply dl_eq; [apply temp_error; try eassumption; eapply F2; [|eassumption| |eassumption]; intros g y (M & _); exact M|].
    unfold map_spectrum. cbn [higgs gauge]. rewrite !on_zero by assumption. ring.
  Qed.
  Lemma parwani_field_error NHiggs T t0 (s : spectrum (R -> R)) (d : spectrum R) : (1 <= NHiggs)%nat ->
    Forall2 (regular JIb (fun x => JNb x 1%Z) CW_threshold T t0) (higgs s) (higgs d) ->
    Forall2 (regular JIb (fun x => JNb x 1%Z) CW_threshold T t0) (gauge s) (gauge d) ->
    Forall2 (regular JIb (fun x => JNb x 1%Z) CW_threshold T t0) (gauge0 s) (gauge0 d) ->
    Forall2 (regular JIf (fun x => JNf x 1%Z) CW_threshold T t0) (quarks s) (quarks d) ->
    Forall2 (regular JIf (fun x => JNf x 1%Z) CW_threshold T t0) (leptons s) (leptons d) ->
    derivable_pt_lim (fun t => V1Loop NHiggs true (at_ t s) d T 0) t0
      (V1Loop NHiggs true (at_ t0 s) d T 1
       + on (fun x y => y * (boson scale JIb JNb x T (5 / 6) 1 - boson scale JIb JNb x T (3 / 2) 1)) (gauge (at_ t0 s)) (gauge d)
       + on (fun x y => 2 * y * (boson scale JIb JNb x T (5 / 6) 1 - boson scale JIb JNb x T (3 / 2) 1)) (gauge0 (at_ t0 s)) (gauge0 d)).
  Proof. intros B H1 H2 H3 H4 H5. rewrite V1Loop_at by lia. apply (parwani_field scale JIb JIf JNb JNf T t0 s d). repeat split; assumption. Qed.
  Lemma parwani_temp_error NHiggs T (s : spectrum (R -> R)) (d : spectrum R) :
    T <> 0 -> (forall x, JIb x = JNb x 0%Z) -> (forall x, JIf x = JNf x 0%Z) ->
    Forall2 (heated JIb (fun x => JNb x 1%Z) CW_threshold T) (higgs s) (higgs d) -> Forall2 (heated JIb (fun x => JNb x 1%Z) CW_threshold T) (gauge s) (gauge d) ->
    Forall (thermal_point JIb (fun x => JNb x 1%Z) T) (gauge0 s) ->
    Forall (thermal_point JIf (fun x => JNf x 1%Z) T) (quarks s) -> Forall (thermal_point JIf (fun x => JNf x 1%Z) T) (leptons s) ->
    derivable_pt_lim (fun t => V1Loop NHiggs true (at_ t s) d t 0) T
      (V1Loop NHiggs true (at_ T s) d T (-1)
       + on (fun x y => y * (boson scale JIb JNb x T (3 / 2) 1 - boson scale JIb JNb x T (3 / 2) 0)) (higgs (at_ T s)) (higgs d)
       + on (fun x y => y * (boson scale JIb JNb x T (5 / 6) 1 - boson scale JIb JNb x T (5 / 6) 0)) (gauge (at_ T s)) (gauge d)).
  Proof. intros NZ Eb Ef H1 H2 H3 H4 H5. apply (parwani_temp scale JIb JIf JNb JNf T s d NZ Eb Ef). repeat split; assumption. Qed.
End Statements.

(** ** Witnesses *)
Lemma field_refuted : exists scale JI JN T t0 (s : spectrum (R -> R)) (d : spectrum R), T <> 0 /\
    Forall2 (moves t0) (higgs s) (higgs d) /\ Forall2 (regular JI (fun x => JN x 1%Z) CW_threshold T t0) (higgs0 s) (higgs0 d) /\
    length (higgs s) = 2%nat /\
    ~ derivable_pt_lim (fun t => V1Loop scale JI JI JN JN 2 false (map_spectrum (fun g : R -> R => g t) s) d T 0) t0
        (V1Loop scale JI JI JN JN 2 false (map_spectrum (fun g : R -> R => g t0) s) d T 2).
Proof.
  set (hs := [(fun t : R => t); (fun _ : R => 2)]).
  exists 1, (fun x => x), (fun x k => if Z.eqb k 1 then 1 else x), 1, 1, (mkSpectrum hs [] hs [] [] []), (mkSpectrum [1; 0] [] [1; 0] [] [] []).
  assert (M : Forall2 (moves 1) hs [1; 0]) by (constructor; [apply dl_id|constructor; [apply dl_const|constructor]]).
  assert (Rg : Forall2 (regular (fun x => x) (fun x => if Z.eqb 1 1 then 1 else x) CW_threshold 1 1) hs [1; 0]).
  { constructor; [|constructor; [|constructor]]; left; (split; [apply dl_id || apply dl_const|]); (split; [lra|]); (split; [unfold CW_threshold; lra|]); intros _; apply dl_id. }
  split; [lra|]. split; [exact M|]. split; [exact Rg|]. split; [reflexivity|]. intro D.
  pose proof (field_error 1 (fun x => x) (fun x => x) (fun x k => if Z.eqb k 1 then 1 else x) (fun x k => if Z.eqb k 1 then 1 else x) 2 1 1
    (mkSpectrum hs [] hs [] [] []) (mkSpectrum [1; 0] [] [1; 0] [] [] []) 2 ltac:(lia) R1_neq_R0 M (Forall2_nil _) Rg (Forall2_nil _) (Forall2_nil _) (Forall2_nil _)) as D2.
  assert (E := uniqueness_limite _ _ _ _ D D2). clear D D2. unfold thermal_force, on, total, hs, map_spectrum in E. cbn [higgs gauge higgs0 gauge0 quarks leptons map combine fold_right fst snd Z.eqb Pos.eqb] in E.
  pose proof PI_RGT_0. assert (0 < 1 / (2 * PI ^ 2)) by (apply Rdiv_lt_0_compat; [lra|]; pose proof (pow_lt PI 2 H); lra). rewrite pow1 in E. lra.
Qed.
Lemma temp_refuted : exists scale JI JN T (s : spectrum (R -> R)) (d : spectrum R), 0 < T /\ (forall x, JI x = JN x 0%Z) /\
    Forall2 (moves T) (higgs s) (higgs d) /\ Forall (thermal_point JI (fun x => JN x 1%Z) T) (higgs0 s) /\
    ~ derivable_pt_lim (fun t => V1Loop scale JI JI JN JN 1 false (map_spectrum (fun g : R -> R => g t) s) d t 0) T
        (V1Loop scale JI JI JN JN 1 false (map_spectrum (fun g : R -> R => g T) s) d T (-1)).
Proof.
  exists 1, (fun x => x), (fun x k => if Z.eqb k 1 then 1 else x), 1, (mkSpectrum [(fun t : R => 3 + t ^ 2)] [] [(fun _ : R => 3)] [] [] []), (mkSpectrum [2] [] [0] [] [] []).
  assert (M : Forall2 (moves 1) [(fun t : R => 3 + t ^ 2)] [2]) by (constructor; [|constructor]; unfold moves; eapply dl_eq; [dlauto|cbn; ring]).
  assert (P : Forall (thermal_point (fun x => x) (fun x => if Z.eqb 1 1 then 1 else x) 1) [(fun _ : R => 3)]) by (constructor; [|constructor]; split; [reflexivity|right; apply dl_id]).
  split; [lra|]. split; [reflexivity|]. split; [exact M|]. split; [exact P|]. intro D.
  pose proof (temp_error 1 (fun x => x) (fun x => x) (fun x k => if Z.eqb k 1 then 1 else x) (fun x k => if Z.eqb k 1 then 1 else x) 1 1
    (mkSpectrum [(fun t : R => 3 + t ^ 2)] [] [(fun _ : R => 3)] [] [] []) (mkSpectrum [2] [] [0] [] [] []) R1_neq_R0 (fun x => eq_refl) (fun x => eq_refl)
    M (Forall2_nil _) P (Forall_nil _) (Forall_nil _) (Forall_nil _)) as D2.
  assert (E := uniqueness_limite _ _ _ _ D D2). clear D D2.
  assert (X : forall x y z, x = x - y * z -> 0 < y -> z = 0) by (intros x y z H0 P0; apply (Rmult_eq_reg_l y); lra).
  pose proof PI_RGT_0. apply X in E; [|apply Rdiv_lt_0_compat; lra]. unfold on, total, map_spectrum in E. cbn [higgs gauge map combine fold_right fst snd] in E.
  replace (3 + 1 ^ 2) with (2 * 2) in E by ring. rewrite sqrt_square in E by lra. lra.
Qed.

(** ** VEff *)
Section VEffProofs.
  Variable F : Type.
  Variables nVEV NHiggs : nat.
  Variable place : list F -> list F.
  Variables VTree CounterTerm : list F -> Z -> R.
  Variable V1L : list F -> R -> Z -> R.
  Variable UseTreeLevel : bool.
  Notation VEff := (VEff F nVEV NHiggs place VTree CounterTerm V1L UseTreeLevel).
  Lemma VEff_full_eq v T diff Order : length v = NHiggs -> VEff v T diff Order = Ok (VEff_full F VTree CounterTerm V1L UseTreeLevel v T diff Order).
  Proof.
    intro L. unfold OneLoop.VEff. rewrite L, Nat.eqb_refl. rewrite andb_false_r. destruct (Nat.eqb_spec NHiggs nVEV) as [E|E]; [|reflexivity].
    rewrite <- E, Nat.eqb_refl. reflexivity.
  Qed.
  Lemma VEff_full_vector (v : list F) T diff Order : length v = NHiggs ->
    (Order <> 0%Z /\ UseTreeLevel = false -> VEff v T diff Order = Ok (VTree v diff + (CounterTerm v diff + V1L v T diff))) /\
    (Order = 0%Z \/ UseTreeLevel = true -> VEff v T diff Order = Ok (VTree v diff)).
  Proof.
    intro L. rewrite VEff_full_eq by assumption. unfold VEff_full. split.
    - intros [N ->]. apply Z.eqb_neq in N. now rewrite N.
    - intros [-> | ->]; [|rewrite andb_false_r]; f_equal; cbn; ring.
  Qed.
  Lemma VEff_wrong_size (v : list F) T diff Order : length v <> NHiggs -> length v <> nVEV -> VEff v T diff Order = Throw RuntimeError.
  Proof. intros N1 N2. apply Nat.eqb_neq in N1, N2. unfold OneLoop.VEff. now rewrite N1, N2. Qed.
  Lemma VEff_vacuum (v : list F) T diff Order : length v = nVEV -> nVEV <> NHiggs -> length (place v) = NHiggs -> Order <> 0%Z \/ UseTreeLevel = true ->
    VEff v T diff Order = VEff (place v) T diff Order.
  Proof.
    intros L N P O. rewrite (VEff_full_eq (place v)) by assumption. unfold OneLoop.VEff. rewrite L, Nat.eqb_refl. apply Nat.eqb_neq in N. rewrite N. cbn [negb andb].
    rewrite P, Nat.eqb_refl. f_equal. unfold VEff_full. f_equal. destruct O as [O| ->]; [apply Z.eqb_neq in O; rewrite O; reflexivity|rewrite !andb_false_r; reflexivity].
  Qed.
End VEffProofs.
