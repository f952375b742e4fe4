(** Triple Higgs couplings in the mass basis: TripleHiggsCouplings and addLegendTripleCouplings of the models,
    src/models/ClassPotentialOrigin.cpp 61-78 and 1076-1091, and their output, src/prog/TripleHiggsNLO.cpp 88-139.  Doubles are
    real numbers, arithmetic is exact.  The one-loop part (WeinbergThirdDerivative) is rotated like the other two and is a
    tensor like them here. *)
From Coq Require Import Reals List Arith Bool.
From Verif Require Import Model.EigenSecond.
Import ListNotations.
Open Scope R_scope.

(** LambdaHiggs_3 and LambdaHiggs_3_CT, ClassPotentialOrigin.cpp 1076-1091 and 61-78 *)
Definition LambdaHiggs_3 (n : nat) (L3 : nat -> nat -> nat -> R) (L4 : nat -> nat -> nat -> nat -> R) (v : nat -> R) (a b i : nat) : R :=
  L3 a b i + total n (fun j => L4 a b i j * v j).
(** the six loops, e.g. ClassPotentialR2HDM.cpp 848-878; [S] is HiggsRotSort *)
Definition physical (n : nat) (S : nat -> nat -> R) (lambda : nat -> nat -> nat -> R) (i j k : nat) : R :=
  total n (fun l => total n (fun m => total n (fun p => S i l * S j m * S k p * lambda l m p))).

(** the order of the rows of HiggsRot, an undefined behaviour or an exception *)
Inductive order := Order (rows : list nat) | UndefinedOrder | ThrowsOrder.
(** testsum > ZeroThreshold, for the columns of a sector *)
Definition large (rot : nat -> nat -> R) (cols : list nat) (i : nat) : bool :=
  if Rlt_dec (1 / 10 ^ 5) (fold_left (fun s c => s + Rabs (rot i c)) cols 0) then true else false.
(** a position that starts at 0 and is overwritten in a loop over rows *)
Definition last_such (p : nat -> bool) (rows : list nat) : nat := fold_left (fun acc i => if p i then i else acc) rows 0%nat.

Section Orders.
  (** [big cols i]: the row i has a large component in one of the columns *)
  Variable big : list nat -> nat -> bool.
  (** ClassPotentialR2HDM.cpp 783-828; posN is an array of two int: a third entry is written behind it, a missing one is -1 *)
  Definition order_R2HDM : order :=
    let p cols := last_such (big cols) in
    match filter (big [4; 6]%nat) (seq 3 5) with
    | [h; H] => Order [p [0; 2]%nat (seq 0 3); p [1; 3]%nat (seq 0 3); p [0; 2]%nat (seq 3 5); p [1; 3]%nat (seq 3 5);
                       p [5; 7]%nat (seq 0 3); p [5; 7]%nat (seq 3 5); h; H]
    | _ => UndefinedOrder
    end.
  (** posN of the C2HDM and the N2HDM: three zeros that are overwritten, at() throws for a fourth *)
  Definition posN (l : list nat) : option (nat * nat * nat) :=
    match l with
    | [] => Some (0, 0, 0)%nat | [a] => Some (a, 0, 0)%nat | [a; b] => Some (a, b, 0)%nat | [a; b; c] => Some (a, b, c)
    | _ => None
    end.
  (** ClassPotentialC2HDM.cpp 2433-2517, for UseHsmNotationInTripleHiggs = false (ClassPotentialC2HDM.h 84) *)
  Definition order_C2HDM : order :=
    let p cols := last_such (big cols) in
    match posN (filter (big [4; 5; 6; 7]%nat) (seq 3 5)) with
    | Some (a, b, c) => Order [p [0; 2]%nat (seq 0 3); p [1; 3]%nat (seq 0 3); p [0; 2]%nat (seq 3 5); p [1; 3]%nat (seq 3 5);
                               p [5; 7]%nat (seq 0 3); a; b; c]
    | None => ThrowsOrder
    end.
  (** the change of posN by the masses, ClassPotentialN2HDM.cpp 842-881 (and C2HDM 2465-2505); [m] are the square roots of the
      masses squared, which are assumed not negative; MSM is a member of the N2HDM (ClassPotentialN2HDM.h 96) that keeps its value *)
  Definition named (MSM : R) (m : nat -> R) (posN : nat * nat * nat) : R * (nat * nat * nat) :=
    let '(a, b, c) := posN in
    let pick s i := if Rlt_dec (m i) 126 then if Rlt_dec 124 (m i) then m i else s else s in
    let MSM := pick (pick (pick MSM a) b) c in
    let '(up, down) := if Req_EM_T (m a) MSM then (m c, m b) else if Req_EM_T (m b) MSM then (m c, m a) else (m b, m a) in
    let '(b, c) := if Rlt_dec up MSM then (c, b) else (b, c) in
    let '(a, b) := if Rlt_dec down MSM then (b, a) else (a, b) in
    (MSM, (a, b, c)).
  (** ClassPotentialN2HDM.cpp 807-892 *)
  Definition order_N2HDM (MSM : R) (m : nat -> R) : order :=
    let p cols := last_such (big cols) in
    match posN (filter (big [6; 7; 8]%nat) (seq 3 6)) with
    | Some abc =>
        let '(a, b, c) := snd (named MSM m abc) in
        Order [p [0; 1]%nat (seq 0 3); p [2; 3]%nat (seq 0 3); p [0; 1]%nat (seq 3 6); p [2; 3]%nat (seq 3 6);
               p [4; 5]%nat (seq 0 3); p [4; 5]%nat (seq 3 6); a; b; c]
    | None => ThrowsOrder
    end.
  (** the three positions that are unset while they are 0, ClassPotentialCxSM.cpp 799-818 and ClassPotentialCPintheDark.cpp 1361-1380 *)
  Definition fill (p : nat -> bool) (rows : list nat) : nat * nat * nat :=
    fold_left (fun '(a, b, c) i => if p i then if Nat.eqb a 0 then (i, b, c) else if Nat.eqb b 0 then (a, i, c) else (a, b, i) else (a, b, c)) rows (0, 0, 0)%nat.
  (** else-if: no earlier column is large *)
  Definition first_of (before : list nat) (c : nat) (i : nat) : bool := forallb (fun d => negb (big [d] i)) before && big [c] i.
  (** ClassPotentialCxSM.cpp 785-827 *)
  Definition order_CxSM : order :=
    let rows := seq 0 6 in
    let '(a, b, c) := fill (big [3; 4; 5]%nat) rows in
    Order [last_such (first_of [] 0) rows; last_such (first_of [0]%nat 1) rows; last_such (first_of [0; 1]%nat 2) rows; a; b; c].
  (** ClassPotentialCPintheDark.cpp 1323-1394 *)
  Definition order_CPintheDark : order :=
    let rows := seq 0 9 in
    let '(a, b, c) := fill (big [6; 7; 8]%nat) rows in
    Order [last_such (first_of [] 0) rows; last_such (first_of [0]%nat 1) rows; last_such (first_of [0; 1]%nat 2) rows;
           last_such (first_of [0; 1; 2]%nat 3) rows; last_such (first_of [0; 1; 2; 3]%nat 4) rows;
           last_such (first_of [0; 1; 2; 3; 4]%nat 5) rows; a; b; c].
End Orders.

(** the loops over i <= j <= k of the legends (e.g. ClassPotentialR2HDM.cpp 128-142) and of the output (TripleHiggsNLO.cpp 119-137) *)
Definition triples (n : nat) : list (nat * nat * nat) :=
  flat_map (fun i => flat_map (fun j => map (fun k => (i, j, k)) (seq j (n - j))) (seq i (n - i))) (seq 0 n).
(** Tree_, CT_ and CW_ and the indices of the particles *)
Inductive part := Tree | CT | CW.
Definition legend (n : nat) : list (part * (nat * nat * nat)) := flat_map (fun t => [(Tree, t); (CT, t); (CW, t)]) (triples n).
(** TripleHiggsNLO.cpp 119-137 *)
Definition row (n : nat) (tree ct cw : nat -> nat -> nat -> R) : list R :=
  flat_map (fun '(i, j, k) => [- tree i j k; - ct i j k; - cw i j k]) (triples n).
