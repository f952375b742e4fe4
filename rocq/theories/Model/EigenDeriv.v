(** Squared masses and their derivatives: FirstDerivativeOfEigenvalues and the
    mass routines that call it, src/models/ClassPotentialOrigin.cpp.

    Eigen's SelfAdjointEigenSolver is an argument: it maps a dimension and a
    matrix to the list of eigenvalues and the matrix of eigenvectors (entry
    [a p] is component [a] of eigenvector [p]).  Arithmetic is exact; the checks
    for the size of the field vector, for NaN and for the initialisation are
    left out.  A tensor is a function of its indices. *)
From Coq Require Import Reals List ZArith Lra.
From Coquelicot Require Import Coquelicot.
From Verif Require Import Model.Base.
Import ListNotations.
Open Scope R_scope.

Notation cmat := (nat -> nat -> C).
Fixpoint csum (n : nat) (f : nat -> C) : C := match n with O => RtoC 0 | S n => Cplus (csum n f) (f n) end.
Fixpoint rsum (n : nat) (f : nat -> R) : R := match n with O => 0 | S n => rsum n f + f n end.

Section Solver.
  Variable solver : nat -> cmat -> list R * cmat.

  Section FirstDerivative.
    Variable n : nat.
    Variables M D : cmat.
    (** EVThres, 177 *)
    Definition threshold : R := / 10 ^ 6.
    (** 195-202 *)
    Definition clipped (x : R) : R := if Rlt_dec (Rabs x) threshold then 0 else x.
    Definition eigenvalue (i : nat) : R := clipped (nth i (fst (solver n M)) 0).
    Definition column (p : nat) : nat -> C := fun a => snd (solver n M) a p.
    (** Mapping, 204-225 *)
    Definition same (i j : nat) : bool := if Rlt_dec threshold (Rabs (eigenvalue i - eigenvalue j)) then false else true.
    (** u.adjoint() * MDiff * w, 240, 259 *)
    Definition sandwich (u w : nat -> C) : C :=
      csum n (fun a => csum n (fun b => Cmult (Cmult (Cconj (u a)) (D a b)) (w b))).
    (** Derivatives together with AlreadyCalculated: None is -1 *)
    Definition update (st : nat -> option C) (p : nat) (z : C) : nat -> option C :=
      fun q => if Nat.eqb q p then Some z else st q.
    (** 244-258: the columns of Phi *)
    Definition members (p : nat) : list nat := filter (same p) (seq p (n - p)).
    Definition work (p : nat) : cmat := fun a b => sandwich (column (nth a (members p) 0%nat)) (column (nth b (members p) 0%nat)).
    (** 227-273 *)
    Definition step (st : nat -> option C) (p : nat) : nat -> option C :=
      match st p with
      | Some _ => st
      | None =>
          if existsb (same p) (seq (S p) (n - S p)) then
            fold_left (fun s q => update s (fst q) (RtoC (snd q)))
              (combine (members p) (fst (solver (length (members p)) (work p)))) st
          else update st p (sandwich (column p) (column p))
      end.
    Definition derivatives : nat -> option C := fold_left step (seq 0 n) (fun _ => None).
    (** 274-277, 283-284; the vector starts with zeros *)
    Definition derivative (p : nat) : R :=
      match derivatives p with
      | Some z => if Rlt_dec (Cmod z) threshold then 0 else fst z
      | None => 0
      end.
    (** 279-285 *)
    Definition eigen_derivatives : list R := map eigenvalue (seq 0 n) ++ map derivative (seq 0 n).
  End FirstDerivative.

  (** FirstDerivativeOfEigenvalues, 170-286, of a matrix with the given numbers of rows and columns *)
  Definition FirstDerivativeOfEigenvalues (rows cols : nat) (M D : cmat) : outcome (list R) :=
    if Nat.eqb cols rows then Ok (eigen_derivatives rows M D) else Throw RuntimeError.

  Definition cast (m : nat -> nat -> R) : cmat := fun i j => RtoC (m i j).
  (** eigenvalues only, 2431-2446, 2579-2589 and with 1e-10 2641-2652 *)
  Definition masses (zero : R) (n : nat) (M : cmat) : list R :=
    map (fun i => let x := nth i (fst (solver n M)) 0 in if Rlt_dec (Rabs x) zero then 0 else x) (seq 0 n).

  Section Higgs.
    Variable NHiggs : nat.
    Variable L2 : nat -> nat -> R.
    Variable L3 : nat -> nat -> nat -> R.
    Variable L4 : nat -> nat -> nat -> nat -> R.
    Variable DebyeHiggs : nat -> nat -> R.
    (** HiggsMassMatrix, 2362-2391 (the lower triangle is copied from the upper one), 2392-2406, 2407-2416.
        For another diff the matrix is not initialised; no caller uses it then. *)
    Definition HiggsMassMatrix (v : nat -> R) (Temp : R) (diff : Z) (i j : nat) : R :=
      if (diff =? 0)%Z then
        let a := Nat.min i j in let b := Nat.max i j in
        let m := L2 a b + rsum NHiggs (fun k => L3 a b k * v k + rsum NHiggs (fun l => 1 / 2 * L4 a b k l * v k * v l)) in
        if Req_EM_T Temp 0 then m else m + DebyeHiggs a b * Temp ^ 2
      else if (0 <? diff)%Z then
        let x0 := Z.to_nat (diff - 1) in L3 i j x0 + rsum NHiggs (fun k => L4 i j x0 k * v k)
      else 2 * DebyeHiggs i j * Temp.
    (** the matrix Diff of 2471-2481 and 2492-2500 *)
    Definition HiggsDiff (v : nat -> R) (Temp : R) (diff : Z) (i j : nat) : R :=
      if (0 <? diff)%Z then
        let x0 := Z.to_nat (diff - 1) in L3 i j x0 + rsum NHiggs (fun k => L4 i j x0 k * v k)
      else 2 * DebyeHiggs i j * Temp.
    (** HiggsMassesSquared, 2420-2509; diff is also passed to HiggsMassMatrix, 2427 *)
    Definition HiggsMassesSquared (v : nat -> R) (Temp : R) (diff : Z) : list R :=
      let M := cast (HiggsMassMatrix v Temp diff) in
      if (diff =? 0)%Z then masses (/ 10 ^ 5) NHiggs M
      else if ((0 <? diff)%Z && (diff <=? Z.of_nat NHiggs)%Z)%bool then eigen_derivatives NHiggs M (cast (HiggsDiff v Temp diff))
      else if (diff =? -1)%Z then eigen_derivatives NHiggs M (cast (HiggsDiff v Temp diff))
      else [].
  End Higgs.

  Section Gauge.
    Variables NGauge NHiggs : nat.
    Variable G2H2 : nat -> nat -> nat -> nat -> R.
    Variable DebyeGauge : nat -> nat -> R.
    (** 2550-2575 *)
    Definition GaugeMassMatrix (v : nat -> R) (Temp : R) (i j : nat) : R :=
      let a := Nat.min i j in let b := Nat.max i j in
      let m := rsum NHiggs (fun k => rsum NHiggs (fun l => 1 / 2 * G2H2 a b k l * v k * v l)) in
      if Req_EM_T Temp 0 then m else m + DebyeGauge a b * Temp ^ 2.
    (** 2593-2603, 2612-2619 *)
    Definition GaugeDiff (v : nat -> R) (Temp : R) (diff : Z) (a b : nat) : R :=
      if (0 <? diff)%Z then rsum NHiggs (fun j => G2H2 a b (Z.to_nat (diff - 1)) j * v j)
      else 2 * DebyeGauge a b * Temp.
    (** GaugeMassesSquared, 2512-2628 *)
    Definition GaugeMassesSquared (v : nat -> R) (Temp : R) (diff : Z) : list R :=
      let M := cast (GaugeMassMatrix v Temp) in
      if (diff =? 0)%Z then masses (/ 10 ^ 5) NGauge M
      else if ((0 <? diff)%Z && (diff <=? Z.of_nat NHiggs)%Z)%bool then eigen_derivatives NGauge M (cast (GaugeDiff v Temp diff))
      else if (diff =? -1)%Z then eigen_derivatives NGauge M (cast (GaugeDiff v Temp diff))
      else [].
  End Gauge.

  Section Fermions.
    (** quarks, 2630-2726, and leptons, 2728-2824: the same steps *)
    Variables NFermion NHiggs : nat.
    Variable F2 : nat -> nat -> C.
    Variable F2H1 : nat -> nat -> nat -> C.
    (** QuarkMassMatrix 3834-3846, LeptonMassMatrix likewise *)
    Definition MIJ (v : nat -> R) (i j : nat) : C := Cplus (F2 i j) (csum NHiggs (fun k => Cmult (F2H1 i j k) (RtoC (v k)))).
    (** 2639, 2737 *)
    Definition FermionMassMatrix (v : nat -> R) : cmat := fun a b => csum NFermion (fun i => Cmult (Cconj (MIJ v a i)) (MIJ v i b)).
    (** 2655-2668, 2755-2767 *)
    Definition FermionDiff (v : nat -> R) (m : nat) : cmat := fun a b =>
      csum NFermion (fun i => Cplus (Cmult (Cconj (F2H1 a i m)) (MIJ v i b)) (Cmult (Cconj (MIJ v a i)) (F2H1 i b m))).
    Definition FermionMassesSquared (v : nat -> R) (diff : Z) : list R :=
      let M := FermionMassMatrix v in
      if (diff <=? 0)%Z then masses (/ 10 ^ 10) NFermion M
      else if (diff <=? Z.of_nat NHiggs)%Z then eigen_derivatives NFermion M (FermionDiff v (Z.to_nat (diff - 1)))
      else [].
  End Fermions.
End Solver.
