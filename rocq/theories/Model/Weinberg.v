(** Physical couplings and the first and second derivatives of the Coleman-Weinberg potential:
    src/models/ClassPotentialOrigin.cpp 962-1639.

    Doubles are real numbers, arithmetic is exact.  Eigen's SelfAdjointEigenSolver is an argument, once for
    real and once for complex matrices; entry [a p] of its second result is component [a] of eigenvector [p].
    Real couplings are treated as complex numbers with vanishing imaginary part, so that the same functions
    serve for Higgs bosons, gauge bosons, quarks and leptons. *)
From Coq Require Import Reals List ZArith.
From Coquelicot Require Import Coquelicot.
From Verif Require Import Model.Base Model.Loop Model.OneLoop Model.EigenDeriv.
Import ListNotations.
Open Scope R_scope.

(** a field of the theory that runs in the loop: number of components, squared masses, rotation to mass
    eigenstates (entry [a as]), derivatives LambdaX_3 and LambdaX_4 of the squared mass matrix with respect to
    one and two Higgs fields, constant of the potential and factor of the sum *)
Record sector := mkSector {
  size : nat; mass2 : nat -> R; rot : nat -> nat -> R;
  lambda3 : nat -> nat -> nat -> C; lambda4 : nat -> nat -> nat -> nat -> C;
  cwconst : R; factor : R }.

(** std::abs(x) < t sets x to 0: 1034, 1041, 1050, 1488, 1613, 1635 *)
Definition clip (t x : R) : R := if Rlt_dec (Rabs x) t then 0 else x.

Section Couplings.
  Variable NHiggs : nat.
  Variable HiggsRot : nat -> nat -> R.
  (** Couplings_Higgs_Triple 1221-1233, Couplings_Gauge_Higgs_21 1264-1274, quarks 1307-1320, leptons 1353-1365 *)
  Definition coup3 (s : sector) (a b i : nat) : C :=
    csum (size s) (fun a' => csum (size s) (fun b' => csum NHiggs (fun i' =>
      Cmult (RtoC (rot s a a' * rot s b b' * HiggsRot i i')) (lambda3 s a' b' i')))).
  (** Couplings_Higgs_Quartic 1234-1252, Couplings_Gauge_Higgs_22 1275-1294, quarks 1321-1340, leptons 1366-1385 *)
  Definition coup4 (s : sector) (a b i j : nat) : C :=
    csum (size s) (fun a' => csum (size s) (fun b' => csum NHiggs (fun i' => csum NHiggs (fun j' =>
      Cmult (RtoC (rot s a a' * rot s b b' * HiggsRot i i' * HiggsRot j j')) (lambda4 s a' b' i' j'))))).

  Variable scale : R.
  (** m times log(m / scale^2) - cb + 0.5, and 0 for m = 0, 1427-1432 *)
  Definition mlog (s : sector) (a : nat) : R :=
    if Req_EM_T (mass2 s a) 0 then 0 else mass2 s a * (ln (mass2 s a / scale ^ 2) - cwconst s + 1 / 2).
  (** the loops over a in WeinbergFirstDerivative 1423-1469, with the factors of 1470-1473 *)
  Definition first_part (s : sector) (i : nat) : R :=
    factor s * rsum (size s) (fun a => mlog s a * Re (coup3 s a a i)).
  (** fbase - cb + 0.5, 1525-1526; fbase is NaN only for negative masses, which are dealt with below *)
  Definition bracket (s : sector) (a b : nat) : R :=
    match fbase scale (mass2 s a) (mass2 s b) with Some f => f | None => 0 end - cwconst s + 1 / 2.
  (** the loops over a and b in WeinbergSecondDerivativeAsMatrixXd 1515-1599, with the factors of 1601-1604 *)
  Definition second_part (s : sector) (i j : nat) : R :=
    factor s * rsum (size s) (fun a =>
      rsum (size s) (fun b => Re (Cmult (coup3 s a b i) (coup3 s b a j)) * bracket s a b)
      + mlog s a * Re (coup4 s a a i j)).

  Variable sectors : list sector.
  (** a negative squared mass makes every component NaN *)
  Definition tachyon : bool :=
    existsb (fun s => existsb (fun a => if Rlt_dec (mass2 s a) 0 then true else false) (seq 0 (size s))) sectors.
  (** the sums of 1482-1483 and 1607 *)
  Definition parts (f : sector -> R) : R := fold_right (fun s r => f s + r) 0 sectors.
  (** 1421, 1628; 1413, 1507 *)
  Definition epsilon : R := 1 / (16 * PI * PI).
  Definition NumZero : R := / 10 ^ 10.
  (** WeinbergFirstDerivative, 1403-1495; None: NaN.  [done] is CalcCouplingsdone. *)
  Definition FirstDeriv (l : nat) : R :=
    epsilon * rsum NHiggs (fun i => HiggsRot i l * parts (fun s => first_part s i)).
  Definition WeinbergFirstDerivative (done : bool) : outcome (option (list R)) :=
    if done then Ok (if tachyon then None else Some (map (fun l => clip NumZero (FirstDeriv l)) (seq 0 NHiggs)))
    else Throw RuntimeError.
  (** 1606-1615 *)
  Definition Storage (i j : nat) : R := clip NumZero (parts (fun s => second_part s i j)).
  (** 1616-1637 *)
  Definition SecondDeriv (l m : nat) : R :=
    clip NumZero (epsilon * (1 / 2 * rsum NHiggs (fun i => rsum NHiggs (fun j =>
      HiggsRot i l * (Storage i j + Storage j i) * HiggsRot j m)))).
  (** WeinbergSecondDerivativeAsMatrixXd, 1497-1639: entry [l m] *)
  Definition WeinbergSecondDerivativeAsMatrix (done : bool) : outcome (option (nat -> nat -> R)) :=
    if done then Ok (if tachyon then None else Some SecondDeriv) else Throw RuntimeError.
End Couplings.

(** the curvature tensors and their sizes, include/BSMPT/models/ClassPotentialOrigin.h 110-126, 212-264 *)
Record curvature := mkCurvature {
  NHiggs : nat; NGauge : nat; NQuarks : nat; NLepton : nat;
  L2 : nat -> nat -> R; L3 : nat -> nat -> nat -> R; L4 : nat -> nat -> nat -> nat -> R;
  G2H2 : nat -> nat -> nat -> nat -> R;
  QF2 : nat -> nat -> C; QF2H1 : nat -> nat -> nat -> C; LF2 : nat -> nat -> C; LF2H1 : nat -> nat -> nat -> C }.

(** CalculatePhysicalCouplings, 962-1401 *)
Section Physical.
  Variable rsolver : nat -> (nat -> nat -> R) -> list R * (nat -> nat -> R).
  Variable csolver : nat -> cmat -> list R * cmat.
  Variable K : curvature.
  Variable HiggsVev : nat -> R.
  (** 981-994 *)
  Definition MassHiggs (i j : nat) : R :=
    L2 K i j + rsum (NHiggs K) (fun k => L3 K i j k * HiggsVev k + rsum (NHiggs K) (fun l => 1 / 2 * L4 K i j k l * HiggsVev k * HiggsVev l)).
  (** 996-1009 *)
  Definition MassGauge (a b : nat) : R :=
    rsum (NHiggs K) (fun i => rsum (NHiggs K) (fun j => 1 / 2 * G2H2 K a b i j * HiggsVev i * HiggsVev j)).
  (** 1011-1017 *)
  Definition MassQuark : cmat := FermionMassMatrix (NQuarks K) (NHiggs K) (QF2 K) (QF2H1 K) HiggsVev.
  Definition MassLepton : cmat := FermionMassMatrix (NLepton K) (NHiggs K) (LF2 K) (LF2H1 K) HiggsVev.
  (** 965 *)
  Definition ZeroMass : R := / 10 ^ 5.
  (** 1028-1036 *)
  Definition HiggsRotation (i j : nat) : R := clip (/ 10 ^ 10) (snd (rsolver (NHiggs K) MassHiggs) j i).
  (** 1028-1042, 1076-1091 *)
  Definition higgs_sector : sector :=
    mkSector (NHiggs K) (fun i => clip ZeroMass (nth i (fst (rsolver (NHiggs K) MassHiggs)) 0)) HiggsRotation
      (fun a b i => RtoC (L3 K a b i + rsum (NHiggs K) (fun j => L4 K a b i j * HiggsVev j))) (fun a b i j => RtoC (L4 K a b i j))
      C_CWcbHiggs (1 / 2).
  (** 1044-1051, 1063-1075 *)
  Definition gauge_sector : sector :=
    mkSector (NGauge K) (fun i => clip ZeroMass (nth i (fst (rsolver (NGauge K) MassGauge)) 0))
      (fun a b => snd (rsolver (NGauge K) MassGauge) b a)
      (fun a b i => RtoC (rsum (NHiggs K) (fun j => G2H2 K a b i j * HiggsVev j))) (fun a b i j => RtoC (G2H2 K a b i j))
      C_CWcbGB (3 / 2).
  Section Fermion.
    Variables (n : nat) (F2 : nat -> nat -> C) (F2H1 : nat -> nat -> nat -> C) (M : cmat) (w : R).
    (** the derivatives, 1093-1120 (leptons 1122-1149) *)
    Definition fermion3 (i j k : nat) : C := csum n (fun l =>
      Cplus (Cmult (Cconj (F2H1 i l k)) (MIJ (NHiggs K) F2 F2H1 HiggsVev l j)) (Cmult (Cconj (MIJ (NHiggs K) F2 F2H1 HiggsVev i l)) (F2H1 l j k))).
    Definition fermion4 (i j k m : nat) : C := csum n (fun l =>
      Cplus (Cmult (Cconj (F2H1 i l k)) (F2H1 l j m)) (Cmult (Cconj (F2H1 i l m)) (F2H1 l j k))).
    (** 1053-1056 (leptons 1058-1061): the rotation is the real part of the eigenvectors *)
    Definition fermion_sector : sector :=
      mkSector n (fun i => nth i (fst (csolver n M)) 0) (fun a b => Re (snd (csolver n M) b a)) fermion3 fermion4 C_CWcbFermion w.
  End Fermion.
  (** 1472-1473 *)
  Definition quark_sector : sector := fermion_sector (NQuarks K) (QF2 K) (QF2H1 K) MassQuark (-3).
  Definition lepton_sector : sector := fermion_sector (NLepton K) (LF2 K) (LF2H1 K) MassLepton (-1).
  (** the order of the sum, 1482-1483 *)
  Definition physical : list sector := [gauge_sector; higgs_sector; quark_sector; lepton_sector].

  (** the state of the class: CalcCouplingsdone, false until CalculatePhysicalCouplings has run (1398) *)
  Variable scale : R.
  Definition FirstDerivative (done : bool) : outcome (option (list R)) :=
    WeinbergFirstDerivative (NHiggs K) HiggsRotation scale physical done.
  Definition SecondDerivative (done : bool) : outcome (option (nat -> nat -> R)) :=
    WeinbergSecondDerivativeAsMatrix (NHiggs K) HiggsRotation scale physical done.
End Physical.

(** V1Loop(v, 0, 0), 2948-3063: the one-loop potential at vanishing temperature *)
Section Potential.
  Variable csolver : nat -> cmat -> list R * cmat.
  Variable K : curvature.
  Variables DebyeHiggs DebyeGauge : nat -> nat -> R.
  Variable scale : R.
  Variables JIb JIf : R -> R.
  Variables JNb JNf : R -> Z -> R.
  Variable parwani : bool.
  Definition spectrum0 (v : nat -> R) : spectrum R :=
    let h := HiggsMassesSquared csolver (NHiggs K) (L2 K) (L3 K) (L4 K) DebyeHiggs v 0 0 in
    let g := GaugeMassesSquared csolver (NGauge K) (NHiggs K) (G2H2 K) DebyeGauge v 0 0 in
    mkSpectrum h g h g (FermionMassesSquared csolver (NQuarks K) (NHiggs K) (QF2 K) (QF2H1 K) v 0)
      (FermionMassesSquared csolver (NLepton K) (NHiggs K) (LF2 K) (LF2H1 K) v 0).
  Definition V1LoopZero (v : nat -> R) : R := V1Loop0 scale JIb JIf JNb JNf parwani (spectrum0 v) 0.
End Potential.
