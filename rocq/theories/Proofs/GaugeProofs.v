(** Gauge boson masses. *)
From Coq Require Import Reals Lra Lia ZArith List Arith.
From Coquelicot Require Import Complex.
From Verif.Model Require Import Base Potential Tables Gauge SMConst.
From Verif.Spec Require Import ScalarSpec WardSpec GaugeSpec.
From Verif.Proofs Require Import TabTac ScalarProofs.
Import ListNotations.
Open Scope R_scope.

(** Re (T_a Phi)^dagger (T_b Phi) in components *)
Definition comp (g gp : R) (a b : boson) (x y z t : R) : R :=
  match a, b with
  | W1, W1 | W2, W2 | W3, W3 => g * g / 4 * (x * x + y * y + z * z + t * t)
  | B, B => gp * gp / 4 * (x * x + y * y + z * z + t * t)
  | W1, B | B, W1 => g * gp / 2 * (x * z + y * t)
  | W2, B | B, W2 => g * gp / 2 * (x * t - y * z)
  | W3, B | B, W3 => g * gp / 4 * (x * x + y * y - z * z - t * t)
  | _, _ => 0
  end.
Lemma act_ok g gp b x y z t : apply22 (action g gp b) (mkdoublet x y z t) =
  match b with
  | W1 => mkdoublet (g / 2 * z) (g / 2 * t) (g / 2 * x) (g / 2 * y)
  | W2 => mkdoublet (g / 2 * t) (- (g / 2 * z)) (- (g / 2 * y)) (g / 2 * x)
  | W3 => mkdoublet (g / 2 * x) (g / 2 * y) (- (g / 2 * z)) (- (g / 2 * t))
  | B => mkdoublet (gp / 2 * x) (gp / 2 * y) (gp / 2 * z) (gp / 2 * t)
  end.
Proof.
  destruct b; unfold apply22, action, mkdoublet, cfield, Cmult, Cplus, Copp, RtoC, Ci, Rdiv; cbn [fst snd]; repeat (apply f_equal2); ring.
Qed.
Lemma kinetic_comp g gp a b x y z t :
  2 * Re (inner (apply22 (action g gp a) (mkdoublet x y z t)) (apply22 (action g gp b) (mkdoublet x y z t))) = comp g gp a b x y z t.
Proof. rewrite !act_ok. destruct a, b; rewrite inner_ok; unfold Re, comp; cbn [fst]; field. Qed.

Ltac gauge_table L := unfold gauge_mass; (destruct (Req_EM_T 0 0) as [_|NE]; [|now elim NE]);
  unfold kinetic_mass; cbn [fold_right slots_SM slots_CxSM slots_2HDM slots_N2HDM]; unfold doublet_at; rewrite !kinetic_comp;
  match type of L with length ?v = _ => destruct_list v L end; cbn [nth].
Ltac gauge_cases a b := destruct a, b; cbv -[Rplus Rminus Rmult Rdiv Ropp Rinv IZR]; field.
Definition as_kinetic (n : nat) (tab : table) (g gs : R) (ds : list slot) : Prop := (forall D v a b, length v = n ->
  gauge_mass n (assign tab zero_tensor) D v 0 (index a) (index b) = kinetic_mass g gs ds v a b).
Lemma SM_kinetic g gs : as_kinetic 4%nat (SM_G2H2 g gs) g gs slots_SM.
Proof. intros D v a b L. gauge_table L. gauge_cases a b. Qed.
Lemma CxSM_kinetic g gs : as_kinetic 6%nat (CxSM_G2H2 g gs) g gs slots_CxSM.
Proof. intros D v a b L. gauge_table L. gauge_cases a b. Qed.
Lemma R2HDM_kinetic g gs : as_kinetic 8%nat (R2HDM_G2H2 g gs) g gs slots_2HDM.
Proof. intros D v a b L. gauge_table L. gauge_cases a b. Qed.
Lemma C2HDM_kinetic g gs : as_kinetic 8%nat (C2HDM_G2H2 g gs) g gs slots_2HDM.
Proof. intros D v a b L. gauge_table L. gauge_cases a b. Qed.
Lemma N2HDM_kinetic g gs : as_kinetic 9%nat (N2HDM_G2H2 g gs) g gs slots_N2HDM.
Proof. intros D v a b L. gauge_table L. gauge_cases a b. Qed.
Lemma CPintheDark_kinetic g gs : as_kinetic 9%nat (CPintheDark_G2H2 g gs) g gs slots_2HDM.
Proof. intros D v a b L. gauge_table L. gauge_cases a b. Qed.

Lemma all_kinetic g gs D v a b :
  (length v = 4%nat -> gauge_mass 4 (assign (SM_G2H2 g gs) zero_tensor) D v 0 (index a) (index b) = kinetic_mass g gs slots_SM v a b) /\
  (length v = 6%nat -> gauge_mass 6 (assign (CxSM_G2H2 g gs) zero_tensor) D v 0 (index a) (index b) = kinetic_mass g gs slots_CxSM v a b) /\
  (length v = 8%nat -> gauge_mass 8 (assign (R2HDM_G2H2 g gs) zero_tensor) D v 0 (index a) (index b) = kinetic_mass g gs slots_2HDM v a b) /\
  (length v = 8%nat -> gauge_mass 8 (assign (C2HDM_G2H2 g gs) zero_tensor) D v 0 (index a) (index b) = kinetic_mass g gs slots_2HDM v a b) /\
  (length v = 9%nat -> gauge_mass 9 (assign (N2HDM_G2H2 g gs) zero_tensor) D v 0 (index a) (index b) = kinetic_mass g gs slots_N2HDM v a b) /\
  (length v = 9%nat -> gauge_mass 9 (assign (CPintheDark_G2H2 g gs) zero_tensor) D v 0 (index a) (index b) = kinetic_mass g gs slots_2HDM v a b).
Proof.
  repeat split; intro L; [apply SM_kinetic|apply CxSM_kinetic|apply R2HDM_kinetic|apply C2HDM_kinetic|apply N2HDM_kinetic|apply CPintheDark_kinetic]; exact L.
Qed.
