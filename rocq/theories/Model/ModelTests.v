(** Model of the checks of an implemented model: src/models/ModelTestfunctions.cpp, Class_Potential_Origin::CheckImplementation
    (src/models/ClassPotentialOrigin.cpp 3544-3707) and the main function of src/prog/Test.cpp.
    The functions of the point that are compared (masses, derivatives, potentials, sizes of legends) are arguments. *)
From Coq Require Import Reals List ZArith.
Import ListNotations.
Local Open Scope R_scope.

(** a double: a real number, or None for NaN. Rounding and infinities are not modelled. *)
Notation dbl := (option R).
Definition lift1 (f : R -> R) (x : dbl) : dbl := match x with Some a => Some (f a) | None => None end.
Definition lift2 (f : R -> R -> R) (x y : dbl) : dbl := match x, y with Some a, Some b => Some (f a b) | _, _ => None end.
Definition dabs := lift1 Rabs.
Definition dadd := lift2 Rplus.
Definition dsub := lift2 Rminus.
(** 0 / 0 is NaN; a quotient of another number and 0 does not occur below *)
Definition ddiv (x y : dbl) : dbl :=
  match x, y with Some a, Some b => if Req_EM_T b 0 then None else Some (a / b) | _, _ => None end.
(** operators > and != of double as used in ModelTestfunctions.cpp 120-131, 281, 397, 557-561: comparisons with NaN are false, and NaN is different from everything *)
Definition gtb (x y : dbl) : bool := match x, y with Some a, Some b => if Rlt_dec b a then true else false | _, _ => false end.
Definition neqb (x y : dbl) : bool := match x, y with Some a, Some b => if Req_EM_T a b then false else true | _, _ => true end.
(** std::max of ModelTestfunctions.cpp 558: std::max(x, y) is (x < y) ? y : x *)
Definition dmax (x y : dbl) : dbl := if gtb y x then y else x.
(** operator!= of std::complex, ModelTestfunctions.cpp 924, 961 *)
Definition cneqb (x y : dbl * dbl) : bool := orb (neqb (fst x) (fst y)) (neqb (snd x) (snd y)).

(** TestResults (ModelTestfunctions.h 19-23); Throw is the std::out_of_range of at() *)
Inductive outcome := Pass | Fail | Throw.
Definition verdict (fail : bool) : outcome := if fail then Fail else Pass.
(** a statement that returns early, as in ModelTestfunctions.cpp 814-842 *)
Definition andthen (x y : outcome) : outcome := match x with Pass => y | _ => x end.
(** for (i = 0; i < n; ++i), left at the first result that is not Pass *)
Definition loop (n : nat) (body : nat -> outcome) : outcome := fold_right (fun i => andthen (body i)) Pass (seq 0 n).
(** x != y with x and y read by at() *)
Definition compare {A} (neq : A -> A -> bool) (x y : option A) : outcome :=
  match x, y with Some a, Some b => verdict (neq a b) | _, _ => Throw end.
(** chains of at(), as in ModelTestfunctions.cpp 119-126 *)
Definition at1 {A} (t : option (list A)) (i : nat) : option A := match t with Some l => nth_error l i | None => None end.
Definition at2 {A} (t : list (list A)) (i j : nat) := at1 (nth_error t i) j.
Definition at3 {A} (t : list (list (list A))) (i j k : nat) := at1 (at2 t i j) k.
Definition at4 {A} (t : list (list (list (list A)))) (i j k l : nat) := at1 (at3 t i j k) l.
(** all elements of a container have the size n *)
Definition sizes {A} (n : nat) (t : list (list A)) : bool := forallb (fun r => Nat.eqb (length r) n) t.

(** CheckSymmetricTensorScalarSecond, ModelTestfunctions.cpp 754-789 *)
Definition CheckSymmetricTensorScalarSecond (t : list (list dbl)) : outcome :=
  match t with
  | [] => Pass
  | r :: _ => let n := length t in let m := length r in
    if negb (Nat.eqb n m) then Fail else if negb (sizes m t) then Fail
    else loop n (fun i => loop m (fun j => if Nat.ltb j i then Pass else compare neqb (at2 t i j) (at2 t j i)))
  end.
(** CheckSymmetricTensorScalarThird, 790-849 *)
Definition CheckSymmetricTensorScalarThird (t : list (list (list dbl))) : outcome :=
  match t with
  | [] => Pass
  | _ => let n := length t in
    if negb (forallb (fun f => andb (Nat.eqb (length f) n) (sizes n f)) t) then Fail
    else loop n (fun i => loop n (fun j => loop n (fun k =>
      andthen (compare neqb (at3 t i j k) (at3 t i k j)) (andthen (compare neqb (at3 t i j k) (at3 t j i k))
      (andthen (compare neqb (at3 t i j k) (at3 t j k i)) (andthen (compare neqb (at3 t i j k) (at3 t k i j)) (compare neqb (at3 t i j k) (at3 t k j i))))))))
  end.
(** the rows 1 to 23 of PermutationOrders, 22-117 *)
Definition PermutationOrders (i j k l : nat) : list (nat * nat * nat * nat) :=
  [(i,j,l,k); (i,k,j,l); (i,k,l,j); (i,l,j,k); (i,l,k,j);
   (j,i,k,l); (j,i,l,k); (j,k,i,l); (j,k,l,i); (j,l,i,k); (j,l,k,i);
   (k,i,j,l); (k,i,l,j); (k,j,i,l); (k,j,l,i); (k,l,i,j); (k,l,j,i);
   (l,i,j,k); (l,i,k,j); (l,j,i,k); (l,j,k,i); (l,k,i,j); (l,k,j,i)].
(** CheckFourPermutation, 15-135 *)
Definition CheckFourPermutation (t : list (list (list (list dbl)))) (i j k l : nat) : outcome :=
  fold_right (fun '(a, b, c, d) => andthen (compare neqb (at4 t i j k l) (at4 t a b c d))) Pass (PermutationOrders i j k l).
(** CheckSymmetricTensorScalarFourth, 850-898 *)
Definition CheckSymmetricTensorScalarFourth (t : list (list (list (list dbl)))) : outcome :=
  match t with
  | [] => Pass
  | _ => let n := length t in
    if negb (forallb (fun f => andb (Nat.eqb n (length f)) (forallb (fun s => andb (Nat.eqb (length s) n) (sizes n s)) f)) t) then Fail
    else loop n (fun i => loop n (fun j => loop n (fun k => loop n (fun l => CheckFourPermutation t i j k l))))
  end.
(** CheckSymmetricTensorLeptonsThird and CheckSymmetricTensorQuarksThird, 900-939 *)
Definition CheckSymmetricTensorLeptonsThird (t : list (list (list (dbl * dbl)))) : outcome :=
  match t with
  | [] => Pass
  | _ => let n := length t in
    if negb (sizes n t) then Fail
    else match at2 t 0 0 with
         | None => Throw
         | Some first => loop n (fun i => loop n (fun j => loop (length first) (fun k => compare cneqb (at3 t i j k) (at3 t j i k))))
         end
  end.
(** CheckSymmetricTensorLeptons and CheckSymmetricTensorQuarks, 941-975 *)
Definition CheckSymmetricTensorLeptons (t : list (list (dbl * dbl))) : outcome :=
  match t with
  | [] => Pass
  | _ => let n := length t in
    if negb (sizes n t) then Fail else loop n (fun i => loop n (fun j => compare cneqb (at2 t i j) (at2 t j i)))
  end.
(** CheckSymmetricTensorGauge, 976-1046 *)
Definition CheckSymmetricTensorGauge (t : list (list (list (list dbl)))) : outcome :=
  match t with
  | [] => Pass
  | _ => let n := length t in
    if negb (sizes n t) then Fail
    else match at2 t 0 0 with
         | None => Throw
         | Some first => let m := length first in
           if Nat.eqb m 0 then Fail
           else if negb (forallb (fun ra => forallb (fun rh => andb (Nat.eqb (length rh) m) (sizes m rh)) ra) t) then Fail
           else loop n (fun a => loop n (fun b => loop m (fun i => loop m (fun j =>
             andthen (compare neqb (at4 t a b i j) (at4 t a b j i)) (andthen (compare neqb (at4 t a b i j) (at4 t b a j i)) (compare neqb (at4 t a b i j) (at4 t b a i j)))))))
         end
  end.

(** CheckNumberOfTripleCouplings, 223-250 *)
Definition count (a b : nat) (f : nat -> nat) : nat := fold_right (fun i s => (f i + s)%nat) 0%nat (seq a (b - a)).
Definition CheckNumberOfTripleCouplings (NHiggs labels : nat) : outcome :=
  verdict (negb (Nat.eqb (count 0 NHiggs (fun i => count i NHiggs (fun j => count j NHiggs (fun _ => 1%nat))) * 3) labels)).
(** CheckNumberOfCTParameters 166-182, CheckNumberOfVEVLabels 184-202 and CheckLegendTemp 204-221 *)
Definition CheckNumberOfCTParameters (nParCT labels : nat) : outcome := verdict (negb (Nat.eqb nParCT labels)).
Definition CheckNumberOfVEVLabels (nVEV labels : nat) : outcome := verdict (negb (Nat.eqb nVEV labels)).
Definition CheckLegendTemp (nVEV labels : nat) : outcome := verdict (negb (Nat.eqb labels (nVEV + 3))).

(** std::sort, ModelTestfunctions.cpp 260, 341-342 *)
Fixpoint insert (x : R) (l : list R) : list R :=
  match l with [] => [x] | y :: r => if Rle_dec x y then x :: l else y :: insert x r end.
Definition sorted (l : list R) : list R := fold_right insert [] l.
(** sum += x in the order of the list, from 0 *)
Definition total (l : list dbl) : dbl := fold_left dadd l (Some 0).

(** CheckGaugeBosonMasses, 252-304: masses of the input, calculated squared masses *)
Definition gauge_input (mW mZ : R) : list R := sorted [0; mW ^ 2; mW ^ 2; mZ ^ 2].
Definition gauge_deviation (c : dbl) (x : R) : dbl :=
  if Req_EM_T x 0 then dabs c else ddiv (dabs (dsub c (Some x))) (Some x).
Definition CheckGaugeBosonMasses (mW mZ : R) (calculated : list dbl) : outcome :=
  if negb (Nat.eqb (length calculated) (length (gauge_input mW mZ))) then Fail
  else verdict (gtb (total (map (fun '(c, x) => gauge_deviation c x) (combine calculated (gauge_input mW mZ)))) (Some (1 / 10 ^ 5))).

(** CheckFermionicMasses, 306-431; masses of the leptons e, mu, tau and of the quarks u, c, t, d, s, b *)
Definition doubled (l : list R) : list R := flat_map (fun m => [m ^ 2; (- m) ^ 2]) l.
Definition lepton_input (leptons : list R) : list R := [0; 0; 0] ++ doubled leptons.
Definition ZeroMass : dbl := Some (1 / 10 ^ 5).
Definition difference (p : dbl * R) : dbl := dabs (dsub (fst p) (Some (snd p))).
Definition lepton_sum (calculated : list dbl) (input : list R) : dbl :=
  fold_left dadd
    (if Nat.ltb (length input) (length calculated) then map dabs (skipn (length input) calculated)
     else map (fun x => dabs (Some x)) (skipn (length calculated) input))
    (total (map difference (combine calculated input))).
Definition CheckLeptonMasses (NLepton : nat) (leptons : list R) (calculated : list dbl) : outcome :=
  if Nat.eqb NLepton 0 then Pass
  else verdict (gtb (lepton_sum calculated (sorted (lepton_input leptons))) ZeroMass).
(** the loop of the quarks reads an entry of the input for every calculated mass *)
Definition CheckQuarkMasses (NLepton : nat) (leptons quarks : list R) (calculated : list dbl) : outcome :=
  let input := sorted (doubled quarks ++ (if Nat.eqb NLepton 0 then lepton_input leptons else [])) in
  if Nat.ltb (length input) (length calculated) then Throw
  else verdict (gtb (total (map difference (combine calculated input))) ZeroMass).

(** CheckTreeLevelMin, 433-481: the vacuum of the input and the one of the minimiser *)
Definition CheckTreeLevelMin (given : list R) (calculated : list dbl) : outcome :=
  if Nat.ltb (length calculated) (length given) then Throw
  else verdict (gtb (total (map (fun '(c, g) => dabs (dsub (dabs c) (Some (Rabs g)))) (combine calculated given))) (Some (1 / 2))).
(** CheckTadpoleRelations, 483-503: the derivatives of the potential *)
Definition CheckTadpoleRelations (derivatives : list dbl) : outcome := verdict (gtb (total (map dabs derivatives)) (Some (1 / 10 ^ 5))).
(** CheckNLOMasses, 505-566: eigenvalues at tree level and at one loop *)
Definition cut (x : dbl) : dbl := if gtb ZeroMass (dabs x) then Some 0 else x.
Definition mass_deviation (p : dbl * dbl) : list dbl :=
  let tree := cut (fst p) in let nlo := cut (snd p) in
  let z := dabs (dsub (dabs nlo) tree) in let n := dmax (dabs nlo) (dabs tree) in
  if neqb n (Some 0) then [ddiv z n] else [].
Definition CheckNLOMasses (masses : list (dbl * dbl)) : outcome := verdict (gtb (total (flat_map mass_deviation masses)) (Some (1 / 2))).
(** CheckVTreeSimplified 568-606 and CheckVCounterSimplified 608-644: values of the simplified potential and of the tensors at ten random points *)
Definition relative (p : dbl * dbl) : dbl := ddiv (dabs (dsub (snd p) (fst p))) (dadd (dabs (snd p)) (dabs (fst p))).
Definition CheckVTreeSimplified (values : list (dbl * dbl)) : outcome := verdict (gtb (total (map relative values)) (Some (1 / 10 ^ 5))).
Definition CheckVCounterSimplified (values : list (dbl * dbl)) : outcome := verdict (gtb (total (map relative values)) (Some 1)).
(** CheckCTConditionsFirstDerivative 680-702 and CheckCTConditionsSecondDerivative 704-731 (the matrix row by row): the derivatives of the one-loop
    potential and of the counterterms *)
Definition CheckCTConditions (derivatives : list (dbl * dbl)) : outcome :=
  fold_right (fun p => andthen (verdict (gtb (dabs (dadd (fst p) (snd p))) (Some (1 / 10 ^ 5))))) Pass derivatives.

(** what CheckImplementation looks at; CKM is the result of the test of the mixing matrix (646-678) *)
Record point := {
  NHiggs : nat; nVEV : nat; nParCT : nat; NLepton : nat;
  labelsCT : nat; labelsVEV : nat; labelsTemp : nat; labelsTriple : nat;
  CKM : outcome; mW : R; mZ : R; leptons : list R; quarks : list R;
  gaugeMasses : list dbl; leptonMasses : list dbl; quarkMasses : list dbl;
  vacuum : list R; minimum : list dbl; tadpoles : list dbl; higgsMasses : list (dbl * dbl);
  UseVTreeSimplified : bool; VTree : list (dbl * dbl); UseVCounterSimplified : bool; VCounter : list (dbl * dbl);
  second : list (dbl * dbl); first : list (dbl * dbl);
  L2 : list (list dbl); L3 : list (list (list dbl)); L4 : list (list (list (list dbl))); G2H2 : list (list (list (list dbl)));
  LeptonF2H1 : list (list (list (dbl * dbl))); LeptonF2 : list (list (dbl * dbl)); QuarkF2H1 : list (list (list (dbl * dbl))); QuarkF2 : list (list (dbl * dbl)) }.
(** TestResults, ClassPotentialOrigin.cpp 3556-3660 *)
Definition tests (p : point) : list outcome :=
  [CheckNumberOfCTParameters (nParCT p) (labelsCT p); CheckNumberOfVEVLabels (nVEV p) (labelsVEV p); CheckLegendTemp (nVEV p) (labelsTemp p);
   CheckNumberOfTripleCouplings (NHiggs p) (labelsTriple p); CKM p; CheckGaugeBosonMasses (mW p) (mZ p) (gaugeMasses p);
   CheckLeptonMasses (NLepton p) (leptons p) (leptonMasses p); CheckQuarkMasses (NLepton p) (leptons p) (quarks p) (quarkMasses p);
   CheckTreeLevelMin (vacuum p) (minimum p); CheckTadpoleRelations (tadpoles p); CheckNLOMasses (higgsMasses p)] ++
  (if UseVTreeSimplified p then [CheckVTreeSimplified (VTree p)] else []) ++ (if UseVCounterSimplified p then [CheckVCounterSimplified (VCounter p)] else []) ++
  [CheckCTConditions (second p); CheckCTConditions (first p); CheckSymmetricTensorScalarSecond (L2 p); CheckSymmetricTensorScalarThird (L3 p);
   CheckSymmetricTensorScalarFourth (L4 p); CheckSymmetricTensorGauge (G2H2 p); CheckSymmetricTensorLeptonsThird (LeptonF2H1 p);
   CheckSymmetricTensorLeptons (LeptonF2 p); CheckSymmetricTensorLeptonsThird (QuarkF2H1 p); CheckSymmetricTensorLeptons (QuarkF2 p)].
(** CheckImplementation, 3662-3706: number of passed tests, number of tests and whether it says "You're good to go!"; None for an exception *)
Definition is_pass (o : outcome) : bool := match o with Pass => true | _ => false end.
Definition CheckImplementation (p : point) : option (nat * nat * bool) :=
  if existsb (fun o => match o with Throw => true | _ => false end) (tests p) then None
  else let passes := length (filter is_pass (tests p)) in Some (passes, length (tests p), Nat.eqb passes (length (tests p))).

(** the main function of Test.cpp, 53-112: exit status (true for EXIT_SUCCESS) and the points that were checked, for the lines of the input file and
    the reader of a point. An exception of the checks ends the program with EXIT_FAILURE; options and exceptions of the reader are not modelled. *)
Fixpoint run {L} (read : L -> point) (Line : Z) (linecounter : Z) (lines : list L) : bool * list (point * option (nat * nat * bool)) :=
  match lines with
  | [] => (true, [])
  | l :: rest =>
    if Z.ltb Line linecounter then (true, [])
    else if andb (Z.eqb linecounter Line) (negb (Z.eqb linecounter 1))
      then match CheckImplementation (read l) with
           | None => (false, [(read l, None)])
           | r => let '(s, c) := run read Line (linecounter + 1) rest in (s, (read l, r) :: c)
           end
      else run read Line (linecounter + 1) rest
  end.
Definition test_main {L} (read : L -> point) (Line : Z) (lines : list L) : bool * list (point * option (nat * nat * bool)) :=
  if Z.ltb Line 1 then (false, []) else run read Line 1 lines.
