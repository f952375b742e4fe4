(** Third and fourth derivatives of the Coleman-Weinberg potential: src/models/ClassPotentialOrigin.cpp 1656-2322.
    Doubles are real numbers, arithmetic is exact.  Real couplings are complex numbers with vanishing imaginary part, as in
    Model/Weinberg.v; there is at least one Higgs field. *)
From Coq Require Import Reals List.
From Coquelicot Require Import Coquelicot.
From Verif Require Import Model.Base Model.Loop Model.LoopFour Model.EigenDeriv Model.Weinberg.
Import ListNotations.
Open Scope R_scope.

Section Higher.
  Variable NHiggs : nat.
  Variable HiggsRot : nat -> nat -> R.
  Variable scale : R.
  (** value of a call that does not throw; [throws3] and [throws4] tell whether some call throws *)
  Definition value (o : outcome R) : R := match o with Ok r => r | _ => 0 end.
  Definition thrown (o : outcome R) : bool := match o with Ok _ => false | _ => true end.
  (** f1 of 1729-1731 (gauge bosons 1752-1754, quarks 1775-1777, leptons 1798-1800) and f21 of 2021-2023; f11 of 2008-2011 *)
  Definition tri (s : sector) (a b c : nat) : outcome R := fbaseTri scale (mass2 s a) (mass2 s b) (mass2 s c).
  Definition four (s : sector) (a b c d : nat) : outcome R := fbaseFour scale (mass2 s a) (mass2 s b) (mass2 s c) (mass2 s d).
  (** 1722-1743 (gauge bosons 1745-1766, quarks 1768-1790, leptons 1791-1813) *)
  Definition third_part (s : sector) (i j k : nat) : C :=
    csum (size s) (fun a => csum (size s) (fun b =>
      Cplus
        (csum (size s) (fun c =>
           Cmult (Cmult (Cmult (RtoC (2 * value (tri s a b c))) (coup3 NHiggs HiggsRot s a b i)) (coup3 NHiggs HiggsRot s b c j)) (coup3 NHiggs HiggsRot s c a k)))
        (Cmult (Cmult (Cmult (RtoC 3) (coup4 NHiggs HiggsRot s a b i j)) (coup3 NHiggs HiggsRot s b a k)) (RtoC (bracket scale s a b))))).
  (** 1824-1827 (gauge bosons 1829-1832, quarks 1834-1837, leptons 1839-1842) *)
  Definition sym3 (P : nat -> nat -> nat -> R) (i j k : nat) : R :=
    (P i j k + P i k j + (P j i k + P j k i) + (P k i j + P k j i)) * (1 / 6).
  Variable sectors : list sector.
  (** restmp, 1853-1856, and its real part, 1877 *)
  Definition restmp3 (i j k : nat) : R := parts sectors (fun s => factor s * sym3 (fun i j k => Re (third_part s i j k)) i j k).
  (** resGaugeBase, 1867-1883, before and after the cut *)
  Definition rotated3 (l m n : nat) : R :=
    rsum NHiggs (fun i => rsum NHiggs (fun j => rsum NHiggs (fun k => HiggsRot i l * HiggsRot j m * HiggsRot k n * restmp3 i j k))) * epsilon.
  Definition ThirdDeriv (l m n : nat) : R := clip NumZero (rotated3 l m n).
  (** some call of fbaseTri throws *)
  Definition throws3 : bool :=
    existsb (fun s => existsb (fun a => existsb (fun b => existsb (fun c => thrown (tri s a b c)) (seq 0 (size s))) (seq 0 (size s))) (seq 0 (size s))) sectors.
  (** WeinbergThirdDerivative: 1659-1664, 1888-1899; None: every entry is NaN, from fbase(m, m) for a negative squared mass m *)
  Definition WeinbergThirdDerivative (done : bool) : outcome (option (list R)) :=
    if negb done then Throw RuntimeError
    else if throws3 then Throw RuntimeError
    else if tachyon sectors then Ok None
    else Ok (Some (flat_map (fun l => flat_map (fun m => map (fun n => ThirdDeriv l m n) (seq 0 NHiggs)) (seq 0 NHiggs)) (seq 0 NHiggs))).

  (** 1992-2031 (gauge bosons 2033-2072, quarks 2074-2115, leptons 2117-2162) *)
  Definition fourth_part (s : sector) (i1 i2 i3 i4 : nat) : C :=
    csum (size s) (fun a => csum (size s) (fun b =>
      Cplus
        (Cmult (Cmult (coup4 NHiggs HiggsRot s a b i1 i4) (coup4 NHiggs HiggsRot s b a i2 i3)) (RtoC (bracket scale s a b)))
        (csum (size s) (fun c =>
           Cplus
             (csum (size s) (fun d =>
                Cmult (Cmult (Cmult (Cmult (RtoC (2 * value (four s a b c d))) (coup3 NHiggs HiggsRot s a b i4)) (coup3 NHiggs HiggsRot s b c i1))
                  (coup3 NHiggs HiggsRot s c d i2)) (coup3 NHiggs HiggsRot s d a i3)))
             (Cmult (Cmult (Cmult (RtoC (4 * value (tri s a b c))) (coup3 NHiggs HiggsRot s a b i4)) (coup4 NHiggs HiggsRot s b c i1 i2)) (coup3 NHiggs HiggsRot s c a i3)))))).
  (** 2176-2192 (gauge bosons 2194-2210, quarks 2212-2228, leptons 2230-2246) *)
  Definition sym4 (P : nat -> nat -> nat -> nat -> R) (i1 i2 i3 i4 : nat) : R :=
    ((P i1 i2 i3 i4 + P i1 i2 i4 i3 + P i1 i3 i2 i4 + P i1 i3 i4 i2 + P i1 i4 i2 i3 + P i1 i4 i3 i2)
     + (P i2 i1 i3 i4 + P i2 i1 i4 i3 + P i2 i3 i1 i4 + P i2 i3 i4 i1 + P i2 i4 i1 i3 + P i2 i4 i3 i1)
     + (P i3 i1 i2 i4 + P i3 i1 i4 i2 + P i3 i2 i1 i4 + P i3 i2 i4 i1 + P i3 i4 i1 i2 + P i3 i4 i2 i1)
     + (P i4 i1 i2 i3 + P i4 i1 i3 i2 + P i4 i2 i1 i3 + P i4 i2 i3 i1 + P i4 i3 i1 i2 + P i4 i3 i2 i1)) * (1 / 24).
  (** restmp, 2260-2264 *)
  Definition restmp4 (i1 i2 i3 i4 : nat) : R :=
    parts sectors (fun s => 3 * factor s * sym4 (fun i1 i2 i3 i4 => Re (fourth_part s i1 i2 i3 i4)) i1 i2 i3 i4).
  (** resGaugeBase, 2278-2301 *)
  Definition rotated4 (j1 j2 j3 j4 : nat) : R :=
    rsum NHiggs (fun i1 => rsum NHiggs (fun i2 => rsum NHiggs (fun i3 => rsum NHiggs (fun i4 =>
      HiggsRot i1 j1 * HiggsRot i2 j2 * HiggsRot i3 j3 * HiggsRot i4 j4 * restmp4 i1 i2 i3 i4)))) * epsilon.
  Definition FourthDeriv (j1 j2 j3 j4 : nat) : R := clip NumZero (rotated4 j1 j2 j3 j4).
  (** some call of fbaseFour throws *)
  Definition throws4 : bool :=
    existsb (fun s => existsb (fun a => existsb (fun b => existsb (fun c => existsb (fun d => thrown (four s a b c d))
      (seq 0 (size s))) (seq 0 (size s))) (seq 0 (size s))) (seq 0 (size s))) sectors.
  (** WeinbergForthDerivative: 1905-1910, 2307-2321 *)
  Definition WeinbergForthDerivative (done : bool) : outcome (option (list R)) :=
    if negb done then Throw RuntimeError
    else if throws3 || throws4 then Throw RuntimeError
    else if tachyon sectors then Ok None
    else Ok (Some (flat_map (fun j1 => flat_map (fun j2 => flat_map (fun j3 => map (fun j4 => FourthDeriv j4 j3 j2 j1)
      (seq 0 NHiggs)) (seq 0 NHiggs)) (seq 0 NHiggs)) (seq 0 NHiggs))).
End Higher.
