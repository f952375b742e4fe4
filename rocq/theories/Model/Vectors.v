(** Vector and matrix helpers: include/BSMPT/utility/utility.h 115-245,
    src/utility/utility.cpp 56-82. *)
From Coq Require Import Reals.
From Verif.Model Require Import Base.

Section Vectors.
(** element type with its operations (the templates are used with double) *)
Variable T : Type.
Variables (add sub mul div : T -> T -> T) (zero : T).

(** std::transform over two ranges of equal length *)
Fixpoint transform2 (f : T -> T -> T) (a b : list T) : list T :=
  match a, b with
  | x :: a', y :: b' => f x y :: transform2 f a' b'
  | _, _ => []
  end.

(** operator+, utility.h 118-134 *)
Definition vadd (a b : list T) : outcome (list T) :=
  if (length a =? length b)%nat then Ok (transform2 add a b) else Throw RuntimeError.
(** operator-, utility.h 139-154; the exception is a const char pointer *)
Definition vsub (a b : list T) : outcome (list T) :=
  if (length a =? length b)%nat then Ok (transform2 sub a b) else Throw ThrownText.
(** scalar * vector, utility.h 159-170; vector / scalar, 175-186 *)
Definition smul (c : T) (b : list T) : list T := map (fun i => mul c i) b.
Definition sdiv (a : list T) (c : T) : list T := map (fun i => div i c) a.
(** dot product, utility.h 191-211: products, then std::accumulate from 0.0 *)
Definition dot (a b : list T) : outcome T :=
  if (length a =? length b)%nat then Ok (fold_left add (transform2 mul a b) zero) else Throw ThrownText.
(** matrix * vector, utility.h 216-233: compares the number of rows with the size of the vector *)
Fixpoint rows_dot (a : list (list T)) (b : list T) : outcome (list T) :=
  match a with
  | [] => Ok []
  | r :: a' => bind (dot r b) (fun x => bind (rows_dot a' b) (fun xs => Ok (x :: xs)))
  end.
Definition matvec (a : list (list T)) (b : list T) : outcome (list T) :=
  if (length a =? length b)%nat then rows_dot a b else Throw ThrownText.
(** flatten, utility.h 238-247 *)
Fixpoint flatten (v : list (list T)) : list T :=
  match v with [] => [] | r :: v' => r ++ flatten v' end.

(** one column of the result of Transpose; reading beyond a row is undefined behaviour *)
Fixpoint column (A : list (list T)) (j : nat) : outcome (list T) :=
  match A with
  | [] => Ok []
  | r :: A' => match nth_error r j with
               | None => UB
               | Some x => bind (column A' j) (fun c => Ok (x :: c))
               end
  end.
Fixpoint columns_from (A : list (list T)) (js : list nat) : outcome (list (list T)) :=
  match js with
  | [] => Ok []
  | j :: r => bind (column A j) (fun c => bind (columns_from A r) (fun cs => Ok (c :: cs)))
  end.
(** Transpose, utility.cpp 67-82 (the loops are exchanged: the writes are independent) *)
Definition Transpose (A : list (list T)) : outcome (list (list T)) :=
  match A with
  | [] => Ok [[]]
  | r :: _ => columns_from A (seq 0 (length r))
  end.
End Vectors.

(** L2NormVector, utility.cpp 56-65, over the reals *)
Definition L2NormVector (v : list R) : R := sqrt (fold_left (fun r x => (r + x * x)%R) v 0%R).
