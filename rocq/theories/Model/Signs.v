(** Sign symmetries: enumeration of sign flips and reduction of a VEV to one sector.
    MinimumTracer::FindDiscreteSymmetries and ReduceVEV,
    src/minimum_tracer/minimum_tracer.cpp 965-1051 and 700-727;
    Class_Potential_Origin::FindSignSymmetries,
    src/models/ClassPotentialOrigin.cpp 3710-3744. *)
From Verif.Model Require Export Base.
Open Scope Z_scope.

(** last element of [l] that is smaller than [x]: what is before it, it, what is after *)
Fixpoint split_last {A} (lt : A -> A -> bool) (x : A) (l : list A) : option (list A * A * list A) :=
  match l with
  | [] => None
  | y :: r =>
      match split_last lt x r with
      | Some (pre, z, post) => Some (y :: pre, z, post)
      | None => if lt y x then Some ([], y, r) else None
      end
  end.

(** std::prev_permutation for the order [lt]; std::next_permutation is the same for the
    reversed order.  The algorithm: in the longest suffix that is already the least
    arrangement of its elements nothing can be done; the element before it is exchanged
    with the last smaller element of the suffix, and the suffix is reversed.  [None]
    stands for the return value false. *)
Fixpoint prev_perm {A} (lt : A -> A -> bool) (l : list A) : option (list A) :=
  match l with
  | [] => None
  | x :: t =>
      match prev_perm lt t with
      | Some t' => Some (x :: t')
      | None =>
          match split_last lt x t with
          | Some (pre, y, post) => Some (y :: rev (pre ++ x :: post))
          | None => None
          end
      end
  end.

(** do { visit(l) } while (prev_permutation(l)): the visited arrangements *)
Fixpoint visit_all {A} (lt : A -> A -> bool) (fuel : nat) (l : list A) : outcome (list (list A)) :=
  match fuel with
  | O => OutOfFuel
  | S f => match prev_perm lt l with
           | None => Ok [l]
           | Some l' => bind (visit_all lt f l') (fun r => Ok (l :: r))
           end
  end.

(** bitmask(C2Nplet, 1) resized to dim with 0, lines 1008-1010 *)
Definition bitmask (n k : nat) : list Z := repeat 1 k ++ repeat 0 (n - k).

(** the diagonal of C2_element, lines 1013-1018 *)
Definition c2_element (mask : list Z) : list Z := map (fun b => if b =? 0 then 1 else -1) mask.

(** loop over C2Nplet from [k] on, lines 1006-1021 *)
Fixpoint c2_from (n fuel todo k : nat) : outcome (list (list Z)) :=
  match todo with
  | O => Ok []
  | S m => bind (visit_all Z.ltb fuel (bitmask n k)) (fun l =>
           bind (c2_from n fuel m (S k)) (fun r => Ok (map c2_element l ++ r)))
  end.
Definition C2GroupElements (n fuel : nat) : outcome (list (list Z)) := c2_from n fuel (S n) 0.

(** FindDiscreteSymmetries keeps the elements that pass CheckGroupElement (a random test
    of the potential), lines 1040-1050; the only element of SnGroupElements is the identity *)
Definition FindDiscreteSymmetries (check : list Z -> bool) (n fuel : nat) : outcome (list (list Z)) :=
  bind (C2GroupElements n fuel) (fun l => Ok (filter check l)).

(** FindSignSymmetries: -1 first, next_permutation, one up to nVEV negative signs *)
Definition sign_start (n k : nat) : list Z := repeat (-1) k ++ repeat 1 (n - k).
Fixpoint sign_from (n fuel todo k : nat) : outcome (list (list Z)) :=
  match todo with
  | O => Ok []
  | S m => bind (visit_all Z.gtb fuel (sign_start n k)) (fun l =>
           bind (sign_from n fuel m (S k)) (fun r => Ok (l ++ r)))
  end.
Definition FindSignSymmetries (check : list Z -> bool) (n fuel : nat) : outcome (list (list Z)) :=
  bind (sign_from n fuel n 1) (fun l => Ok (filter check l)).

(** * ReduceVEV, lines 700-727.  VEV components are only negated and compared, so they are
    [Z] as in Model/Phase.v; [thr] is the double 1e-5 in the same units.  The binary
    number is an unbounded integer here; in the code it is a long stored in an int, the
    same for at most 31 VEVs. *)
Section Reduce.
Variable thr : Z.

Definition apply_signs (g v : list Z) : list Z := map (fun p => snd p * fst p) (combine g v).

(** strtol of the string of (vev[i] * GroupElement(i, i) >= 1e-5), lines 711-716 *)
Definition measure (v : list Z) : Z :=
  fold_left (fun acc x => 2 * acc + (if thr <=? x then 1 else 0)) v 0.

Fixpoint reduce_loop (gs : list (list Z)) (mx : Z) (v : list Z) : list Z :=
  match gs with
  | [] => v
  | g :: r =>
      let w := apply_signs g v in
      let '(mx', v') := if mx <? measure w then (measure w, w) else (mx, v) in
      if mx' =? 2 ^ Z.of_nat (length v) - 1 then v' else reduce_loop r mx' v'
  end.

(** GroupElement(i, i) beyond the matrix is out of bounds: undefined behaviour *)
Definition ReduceVEV (gs : list (list Z)) (v : list Z) : outcome (list Z) :=
  if forallb (fun g => (length v <=? length g)%nat) gs then Ok (reduce_loop gs (-1) v) else UB.
End Reduce.
