(** C10: vector and matrix helpers. *)
From Coq Require Import Reals Lra.
From Verif.Model Require Import Base Vectors.
From Verif.Spec Require Import VectorsSpec.
From Verif.Proofs Require Import VectorsProofs.

Theorem C10_addition :
  forall T (add : T -> T -> T) a b,
    (length a <> length b -> vadd T add a b = Throw RuntimeError) /\
    (length a = length b -> exists r, vadd T add a b = Ok r /\ length r = length a /\
       forall i x y, nth_error a i = Some x -> nth_error b i = Some y -> nth_error r i = Some (add x y)).
Proof. exact vadd_spec. Qed.
Print Assumptions C10_addition.

Theorem C10_subtraction :
  forall T (sub : T -> T -> T) a b,
    (length a <> length b -> vsub T sub a b = Throw ThrownText) /\
    (length a = length b -> exists r, vsub T sub a b = Ok r /\ length r = length a /\
       forall i x y, nth_error a i = Some x -> nth_error b i = Some y -> nth_error r i = Some (sub x y)).
Proof. exact vsub_spec. Qed.
Print Assumptions C10_subtraction.

Theorem C10_scaling :
  forall T (mul div : T -> T -> T) c a,
    (length (smul T mul c a) = length a /\
     forall i x, nth_error a i = Some x -> nth_error (smul T mul c a) i = Some (mul c x)) /\
    (length (sdiv T div a c) = length a /\
     forall i x, nth_error a i = Some x -> nth_error (sdiv T div a c) i = Some (div x c)).
Proof. intros. split; [apply smul_spec|apply sdiv_spec]. Qed.
Print Assumptions C10_scaling.

Theorem C10_dot_product :
  forall T (add mul : T -> T -> T) zero a b,
    (length a <> length b -> dot T add mul zero a b = Throw ThrownText) /\
    (length a = length b ->
     dot T add mul zero a b = Ok (sum add zero (fun i => mul (nth i a zero) (nth i b zero)) (length a))).
Proof. exact dot_spec. Qed.
Print Assumptions C10_dot_product.

(** Square matrices are multiplied correctly ... *)
Theorem C10_matrix_vector_square :
  forall T (add mul : T -> T -> T) zero n A b, rectangular n n A -> length b = n ->
    exists r, matvec T add mul zero A b = Ok r /\ length r = n /\
      forall i row, nth_error A i = Some row ->
        nth_error r i = Some (sum add zero (fun j => mul (nth j row zero) (nth j b zero)) n).
Proof. exact matvec_square. Qed.
Print Assumptions C10_matrix_vector_square.

(** ... but no other matrix with at least one row can be multiplied with any vector. *)
Theorem C10_matrix_vector_refuted :
  forall T (add mul : T -> T -> T) zero m n A b,
    rectangular m n A -> m <> n -> (0 < m)%nat -> matvec T add mul zero A b = Throw ThrownText.
Proof. exact matvec_nonsquare. Qed.
Print Assumptions C10_matrix_vector_refuted.

Theorem C10_transpose :
  forall T m n A, rectangular m n A -> (0 < m)%nat ->
    exists B, Transpose T A = Ok B /\ rectangular n m B /\ forall i j, entry B i j = entry A j i.
Proof. exact Transpose_spec. Qed.
Print Assumptions C10_transpose.

Theorem C10_transpose_involution :
  forall T m n A, rectangular m n A -> (0 < m)%nat -> (0 < n)%nat ->
    exists B, Transpose T A = Ok B /\ Transpose T B = Ok A.
Proof. exact Transpose_involutive. Qed.
Print Assumptions C10_transpose_involution.
(** a matrix without rows comes back as one empty row, and one empty row as no rows *)
Theorem C10_transpose_empty : forall T, Transpose T [] = Ok [[]] /\ Transpose T [[]] = Ok [].
Proof. split; reflexivity. Qed.
Print Assumptions C10_transpose_empty.

Theorem C10_flatten :
  forall T v i r, nth_error v i = Some r ->
    exists k, (forall j, (j < length r)%nat -> nth_error (flatten T v) (k + j) = nth_error r j) /\ k = length (flatten T (firstn i v)).
Proof. exact flatten_nth. Qed.
Print Assumptions C10_flatten.

Theorem C10_norm :
  forall v, (0 <= L2NormVector v)%R /\
    dot R Rplus Rmult 0%R v v = Ok (L2NormVector v * L2NormVector v)%R /\
    (L2NormVector v = 0%R -> Forall (fun x => x = 0%R) v).
Proof. intro v. destruct (L2_squared v). split; [assumption|]. split; [assumption|apply L2_zero]. Qed.
Print Assumptions C10_norm.

Open Scope nat_scope.
Example C10_nonvacuous :
  vadd nat Nat.add [1; 2] [10; 20] = Ok [11; 22] /\ dot nat Nat.add Nat.mul 0 [1; 2; 3] [4; 5; 6] = Ok 32 /\
  matvec nat Nat.add Nat.mul 0 [[1; 2]; [3; 4]] [5; 6] = Ok [17; 39] /\
  rectangular 1 2 [[1; 2]] /\ matvec nat Nat.add Nat.mul 0 [[1; 2]] [5; 6] = Throw ThrownText /\
  Transpose nat [[1; 2; 3]; [4; 5; 6]] = Ok [[1; 4]; [2; 5]; [3; 6]] /\ rectangular 2 3 [[1; 2; 3]; [4; 5; 6]] /\
  flatten nat [[1]; []; [2; 3]] = [1; 2; 3].
Proof.
  repeat (split; [reflexivity || (split; [reflexivity|repeat constructor])|]). reflexivity.
Qed.
Example C10_norm_nonvacuous : L2NormVector [3; 4]%R = 5%R.
Proof. unfold L2NormVector. cbn. replace (0 + 3 * 3 + 4 * 4)%R with (5 * 5)%R by lra. apply sqrt_square. lra. Qed.
