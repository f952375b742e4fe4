(** Coupling tensors, tree-level and counterterm potentials, mass matrix, vev conversion:
    src/models/ClassPotentialOrigin.cpp.  Doubles are real numbers. *)
From Coq Require Import Reals ZArith QArith Qabs List Lia.
From Verif.Model Require Import Base.
Import ListNotations.
Open Scope R_scope.

(** ** Symmetrisation, 3392-3470.  A tensor is a function of its index list; all dimensions are those
    passed by the callers (equal), the vectors being allocated with them. *)
Section Sym.
  Context {A : Type}.
  Definition tensor : Type := list nat -> A.
  Definition upd (T : tensor) (i : list nat) (x : A) : tensor :=
    fun j => if list_eq_dec Nat.eq_dec j i then x else T j.
  (** for (k = a; k < n; k++) *)
  Definition for_loop {S : Type} (a n : nat) (body : nat -> S -> S) (s : S) : S :=
    fold_left (fun s k => body k s) (seq a (n - a)) s.
  (** the assignments T[p] = T[s] in order *)
  Definition assign_all (s : list nat) (ps : list (list nat)) (T : tensor) : tensor :=
    fold_left (fun T p => upd T p (T s)) ps T.
  Definition sym2Dim (T : tensor) (n1 n2 : nat) : tensor :=
    for_loop 0 n1 (fun k1 => for_loop k1 n2 (fun k2 => assign_all [k1; k2] [[k2; k1]])) T.
  Definition sym3Dim (T : tensor) (n1 n2 n3 : nat) : tensor :=
    for_loop 0 n1 (fun k1 => for_loop k1 n2 (fun k2 => for_loop k2 n3 (fun k3 =>
      assign_all [k1; k2; k3] [[k1; k3; k2]; [k2; k1; k3]; [k2; k3; k1]; [k3; k1; k2]; [k3; k2; k1]]))) T.
  Definition sym4Dim (T : tensor) (n1 n2 n3 n4 : nat) : tensor :=
    for_loop 0 n1 (fun k1 => for_loop k1 n2 (fun k2 => for_loop k2 n3 (fun k3 => for_loop k3 n4 (fun k4 =>
      assign_all [k1; k2; k3; k4]
        [[k1; k2; k4; k3]; [k1; k3; k2; k4]; [k1; k3; k4; k2]; [k1; k4; k2; k3]; [k1; k4; k3; k2];
         [k2; k1; k3; k4]; [k2; k1; k4; k3]; [k2; k3; k1; k4]; [k2; k3; k4; k1]; [k2; k4; k1; k3]; [k2; k4; k3; k1];
         [k3; k1; k2; k4]; [k3; k1; k4; k2]; [k3; k2; k1; k4]; [k3; k2; k4; k1]; [k3; k4; k1; k2]; [k3; k4; k2; k1];
         [k4; k1; k2; k3]; [k4; k1; k3; k2]; [k4; k2; k1; k3]; [k4; k2; k3; k1]; [k4; k3; k1; k2]; [k4; k3; k2; k1]])))) T.
End Sym.
Arguments tensor : clear implicits.

(** ** Potentials *)
(** [acc += ...] over k = 0 .. n-1 *)
Definition accum (n : nat) (body : nat -> R -> R) (acc : R) : R := fold_left (fun r k => body k r) (seq 0 n) acc.

Section Potential.
  Variable NHiggs : nat.
  Variables (L1 : nat -> R) (L2 : nat -> nat -> R) (L3 : nat -> nat -> nat -> R) (L4 : nat -> nat -> nat -> nat -> R).

  (** derivative branch of VTree, 2869-2886, and of CounterTerm, 2927-2942, and one component of NablaVCT, 3986-4007 *)
  Definition gradient_component (v : nat -> R) (i : nat) : R :=
    accum NHiggs (fun j res =>
      let res := res + L2 i j * v j in
      accum NHiggs (fun k res =>
        let res := res + 0.5 * L3 i j k * v j * v k in
        accum NHiggs (fun l res => res + 1.0 / 6.0 * L4 i j k l * v j * v k * v l) res) res) (L1 i).

  (** VTree, 2826-2890, without the model's own simplified formula (ForceExplicitCalculation, or
      UseVTreeSimplified = false).  [v] is indexed without a check; a shorter vector is undefined behaviour. *)
  Definition VTree_value (v : nat -> R) : R :=
    accum NHiggs (fun i res =>
      if Req_EM_T (v i) 0 then res
      else
        let res := res + L1 i * v i in
        accum NHiggs (fun j res =>
          if Req_EM_T (v j) 0 then res
          else
            let res := res + 0.5 * L2 i j * v i * v j in
            accum NHiggs (fun k res =>
              let res := res + 1.0 / 6.0 * L3 i j k * v i * v j * v k in
              accum NHiggs (fun l res => res + 1.0 / 24.0 * L4 i j k l * v i * v j * v k * v l) res) res) res) 0.
  Definition VTree (v : list R) (diff : Z) : outcome R :=
    if Z.eqb diff 0 then (if Nat.ltb (length v) NHiggs then UB else Ok (VTree_value (fun i => nth i v 0)))
    else if Z.ltb 0 diff && Z.leb diff (Z.of_nat NHiggs) then
      (if Nat.ltb (length v) NHiggs then UB else Ok (gradient_component (fun i => nth i v 0) (Z.to_nat (diff - 1))))
    else Ok 0.

  (** CounterTerm, 2892-2946, likewise; here no field is skipped *)
  Definition CT_value (v : nat -> R) : R :=
    accum NHiggs (fun i res =>
      let res := res + L1 i * v i in
      accum NHiggs (fun j res =>
        let res := res + 0.5 * L2 i j * v i * v j in
        accum NHiggs (fun k res =>
          let res := res + 1.0 / 6.0 * L3 i j k * v i * v j * v k in
          accum NHiggs (fun l res => res + 1.0 / 24.0 * L4 i j k l * v i * v j * v k * v l) res) res) res) 0.
  Definition CounterTerm (v : list R) (diff : Z) : outcome R :=
    if Z.eqb diff 0 then (if Nat.ltb (length v) NHiggs then UB else Ok (CT_value (fun i => nth i v 0)))
    else if Z.ltb 0 diff && Z.leb diff (Z.of_nat NHiggs) then
      (if Nat.ltb (length v) NHiggs then UB else Ok (gradient_component (fun i => nth i v 0) (Z.to_nat (diff - 1))))
    else Ok 0.
  (** NablaVCT, 3986-4007: v.at *)
  Definition NablaVCT (v : list R) : outcome (nat -> R) :=
    if Nat.ltb (length v) NHiggs then Throw OutOfRange else Ok (gradient_component (fun i => nth i v 0)).

  (** one entry of HiggsMassMatrix (2364-2373, without the thermal part) and of HessianCT (4010-4030) *)
  Definition hessian_entry (v : nat -> R) (i j : nat) : R :=
    accum NHiggs (fun k res =>
      let res := res + L3 i j k * v k in
      accum NHiggs (fun l res => res + 0.5 * L4 i j k l * v k * v l) res) (L2 i j).
  Definition HessianCT (v : list R) : outcome (nat -> nat -> R) :=
    if Nat.ltb (length v) NHiggs then Throw OutOfRange else Ok (hessian_entry (fun i => nth i v 0)).

  (** HiggsMassMatrix, 2324-2418, for a vector of the full dimension (others are rejected or first converted
      like by VEff; not modelled) and an initialised model.  The lower
      triangle is copied from the upper one for diff = 0.  For other values of diff the matrix is left
      uninitialised ([UB]). *)
  Variable DebyeHiggs : nat -> nat -> R.
  Definition HiggsMassMatrix (v : list R) (Temp : R) (diff : Z) : outcome (nat -> nat -> R) :=
    let w := fun i => nth i v 0 in
    if negb (Nat.eqb (length v) NHiggs) then Throw RuntimeError
    else if Z.eqb diff 0 then
      let upper i j := hessian_entry w i j + (if Req_EM_T Temp 0 then 0 else DebyeHiggs i j * Temp ^ 2) in
      Ok (fun i j => if Nat.leb i j then upper i j else upper j i)
    else if Z.ltb 0 diff && Z.leb diff (Z.of_nat NHiggs) then
      let x0 := Z.to_nat (diff - 1) in
      Ok (fun i j => accum NHiggs (fun k res => res + L4 i j x0 k * w k) (L3 i j x0))
    else if Z.eqb diff (-1) then Ok (fun i j => 2 * DebyeHiggs i j * Temp)
    else UB.
End Potential.

(** ** Conversion of vevs *)
(** MinimizeOrderVEV, 3966-3983: the loop over the fields from [i], [rest] fields remaining.  [VevOrder[count]]
    is read without a check, [vevMinimizer.at(count)] with one. *)
Section Order.
  Context {A : Type}.
  Variable zero : A.
  Variable VevOrder : list nat.
  Variable vev : list A.
  Fixpoint order_loop (rest i count : nat) (acc : list A) : outcome (list A) :=
    match rest with
    | O => Ok acc
    | S rest =>
        match nth_error VevOrder count with
        | None => UB
        | Some o =>
            if Nat.eqb i o then
              match nth_error vev count with
              | None => Throw OutOfRange
              | Some x => order_loop rest (S i) (S count) (acc ++ [x])
              end
            else order_loop rest (S i) count (acc ++ [zero])
        end
    end.
  Definition MinimizeOrderVEV (NHiggs : nat) : outcome (list A) := order_loop NHiggs 0 0 [].
End Order.

(** the shipped models: number of fields and VevOrder.  ClassPotentialC2HDM.cpp 25-48 (both settings),
    CPintheDark 40-52, CxSM 36-47, N2HDM 30-46, R2HDM 22-39, SM 29-38, ClassTemplate 44-54 *)
Definition model_tables : list (str * (nat * list nat)) :=
  [(s2l "c2hdm", (8%nat, [4; 6; 7]%nat)); (s2l "c2hdm charge breaking", (8%nat, [2; 4; 6; 7]%nat));
   (s2l "cpinthedark", (9%nat, [2; 4; 6; 7; 8]%nat)); (s2l "cxsm", (6%nat, [3; 4; 5]%nat));
   (s2l "n2hdm", (9%nat, [1; 5; 6; 7; 8]%nat)); (s2l "r2hdm", (8%nat, [2; 4; 6; 7]%nat));
   (s2l "sm", (4%nat, [2]%nat)); (s2l "template", (1%nat, [0]%nat))].

(** SetEWVEVZero, 3516-3532: [charged i] says whether the gauge check of field i exceeds 1e-10; VevOrder is
    only read when it does; [sol.at] is checked *)
Section EWZero.
  Variable charged : nat -> bool.
  Variable VevOrder : list nat.
  Fixpoint ewzero_loop (rest i count : nat) (sol : list R) : outcome (list R) :=
    match rest with
    | O => Ok sol
    | S rest =>
        if charged i then
          match nth_error VevOrder count with
          | None => UB
          | Some o =>
              if Nat.eqb i o then
                (if Nat.ltb count (length sol)
                 then ewzero_loop rest (S i) (S count) (firstn count sol ++ 0 :: skipn (S count) sol)
                 else Throw OutOfRange)
              else ewzero_loop rest (S i) count sol
          end
        else ewzero_loop rest (S i) count sol
    end.
  Definition SetEWVEVZero (NHiggs : nat) (sol : list R) : outcome (list R) := ewzero_loop NHiggs 0 0 sol.
End EWZero.

(** VEff, 2948-2989.  The parts of the potential are functions of the full vector, the temperature and
    diff.  A vector of the minimiser's dimension is converted and the call repeated with three arguments, so
    that Order takes its default value 1 (line 2976, ClassPotentialOrigin.h 667-670). *)
Section VEff.
  Variables (NHiggs nVEV : nat) (VevOrder : list nat) (UseTreeLevel : bool).
  Variables (Tree CT : list R -> Z -> outcome R) (Loop1 : list R -> R -> Z -> outcome R).
  Definition VEff_full (v : list R) (Temp : R) (diff order : Z) : outcome R :=
    bind (Tree v diff) (fun res =>
    if negb (Z.eqb order 0) && negb UseTreeLevel
    then bind (CT v diff) (fun c => bind (Loop1 v Temp diff) (fun l => Ok (res + c + l)))
    else Ok res).
  Definition VEff (v : list R) (Temp : R) (diff order : Z) : outcome R :=
    let n := length v in
    if negb (Nat.eqb n nVEV) && negb (Nat.eqb n NHiggs) then Throw RuntimeError
    else if Nat.eqb n nVEV && negb (Nat.eqb nVEV NHiggs) then
      bind (MinimizeOrderVEV 0 VevOrder v NHiggs) (fun w => VEff_full w Temp diff 1)
    else VEff_full v Temp diff order.
End VEff.

(** CheckNLOVEV, 3481-3493; [None] is NaN, comparisons with it are false *)
Section NLO.
  Local Open Scope Q_scope.
  Fixpoint max_diff (n i : nat) (v t : list (option Q)) (m : Q) : outcome Q :=
    match n with
    | O => Ok m
    | S n =>
        match nth_error v i, nth_error t i with
        | Some a, Some b =>
            let m' := match a, b with
                      | Some x, Some y => let d := Qabs (Qabs x - Qabs y) in if Qlt_le_dec m d then d else m
                      | _, _ => m
                      end in
            max_diff n (S i) v t m'
        | _, _ => UB
        end
    end.
  Definition CheckNLOVEV (nVEV : nat) (vevTreeMin v : list (option Q)) : outcome bool :=
    bind (max_diff nVEV 0 v vevTreeMin 0) (fun m => Ok (if Qlt_le_dec m 1 then true else false)).
End NLO.

(** EWSBVEV, 3495-3514: [charged i] is checkgauge != 0; v.at *)
Definition EWSBVEV (NHiggs : nat) (charged : nat -> bool) (v : list R) : outcome R :=
  if existsb (fun i => charged i && Nat.leb (length v) i) (seq 0 NHiggs) then Throw OutOfRange
  else
    let res := sqrt (accum NHiggs (fun i r => if charged i then r + nth i v 0 ^ 2 else r) 0) in
    Ok (if Rle_dec res 0.5 then 0 else res).
