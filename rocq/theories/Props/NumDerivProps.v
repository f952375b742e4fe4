(** C11: numerical gradient and Hessian. *)
From Coq Require Import Reals List Lra Lia.
Import ListNotations.
From Verif.Model Require Import NumDeriv.
From Verif.Spec Require Import NumDerivSpec.
From Verif.Proofs Require Import NumDerivProofs.
Open Scope R_scope.

Theorem C11_hessian_symmetric :
  forall phi V eps,
    length (HessianNumerical phi V eps) = length phi /\
    Forall (fun r => length r = length phi) (HessianNumerical phi V eps) /\
    forall a b, (a < length phi)%nat -> (b < length phi)%nat ->
      entryR (HessianNumerical phi V eps) a b = entryR (HessianNumerical phi V eps) b a.
Proof.
  intros. destruct (hessian_shape phi V eps). split; [assumption|]. split; [assumption|]. apply hessian_sym.
Qed.
Print Assumptions C11_hessian_symmetric.

Theorem C11_exact_on_quadratics :
  forall n c b A phi eps, eps <> 0 -> length phi = n ->
    (forall i, (i < n)%nat -> comp (NablaNumerical phi (quadratic n c b A) eps) i
                              = b i + sumR n (fun j => (A i j + A j i) * comp phi j)) /\
    (forall i j, (i < n)%nat -> (j < n)%nat ->
       entryR (HessianNumerical phi (quadratic n c b A) eps) i j = A i j + A j i).
Proof. intros. split; intros; [now apply nabla_quadratic|now apply hessian_quadratic]. Qed.
Print Assumptions C11_exact_on_quadratics.

Theorem C11_gradient_exact_to_degree_four :
  forall phi f eps i c0 c1 c2 c3 c4, eps <> 0 -> (i < length phi)%nat ->
    (forall s w, moved phi i s w -> f w = c0 + c1 * s + c2 * s ^ 2 + c3 * s ^ 3 + c4 * s ^ 4) ->
    comp (NablaNumerical phi f eps) i = c1.
Proof. exact nabla_quartic. Qed.
Print Assumptions C11_gradient_exact_to_degree_four.

Theorem C11_hessian_exact_to_degree_three :
  (forall phi V eps i c0 c1 c2 c3, eps <> 0 -> (i < length phi)%nat ->
     (forall s w, moved phi i s w -> V w = c0 + c1 * s + c2 * s ^ 2 + c3 * s ^ 3) ->
     entryR (HessianNumerical phi V eps) i i = 2 * c2) /\
  (forall phi V eps i j a0 a1 a2 a11 a12 a22 b1 b2 b3 b4, eps <> 0 ->
     (i < length phi)%nat -> (j < length phi)%nat -> i <> j ->
     (forall s t w, moved2 phi i s j t w ->
        V w = a0 + a1 * s + a2 * t + a11 * s ^ 2 + a12 * (s * t) + a22 * t ^ 2
              + b1 * s ^ 3 + b2 * (s ^ 2 * t) + b3 * (s * t ^ 2) + b4 * t ^ 3) ->
     entryR (HessianNumerical phi V eps) i j = a12).
Proof. split; [exact hess_cubic|exact hess_mixed_cubic]. Qed.
Print Assumptions C11_hessian_exact_to_degree_three.

(** For every function with a partial derivative the gradient tends to it as the step shrinks. *)
Theorem C11_gradient_consistent :
  forall phi f i l, (i < length phi)%nat ->
    derivable_pt_lim (fun s => f (shift phi i s)) 0 l ->
    forall e, 0 < e -> exists d, 0 < d /\ forall h, h <> 0 -> Rabs h < d ->
      Rabs (comp (NablaNumerical phi f h) i - l) < e.
Proof. exact nabla_consistent. Qed.
Print Assumptions C11_gradient_consistent.

(** x^4 along the only axis at the origin: a quartic the gradient handles exactly and the Hessian does not *)
Example C11_nonvacuous :
  (forall s w, moved [0] 0 s w -> (fun x => comp x 0 ^ 4) w = 0 + 0 * s + 0 * s ^ 2 + 0 * s ^ 3 + 1 * s ^ 4) /\
  comp (NablaNumerical [0] (fun x => comp x 0 ^ 4) 1) 0 = 0 /\
  entryR (HessianNumerical [0] (fun x => comp x 0 ^ 4) 1) 0 0 = 8 /\
  entryR (HessianNumerical [1; 2] (fun x => comp x 0 * comp x 1) 1) 0 1 = 1.
Proof.
  split; [intros s w (_ & H); rewrite (H 0%nat); destruct (Nat.eq_dec 0 0); [|lia]; unfold comp; cbn; ring|].
  split; [unfold NablaNumerical, comp; cbn; field|].
  split; unfold HessianNumerical, hess_row, hess_diag, hess_mixed, upd2, entryR, comp; cbn; field.
Qed.
