(** Which computations the members of a model object stem from: src/models/ClassPotentialOrigin.cpp.
    Numbers are not modelled.  A parameter vector stands for everything that is computed from it: [members] are the
    variables set by set_gen (vevTreeMin among them), [tensors] the Curvature_* arrays and HiggsVev filled by
    SetCurvatureArrays, [couplings] the masses, rotations and couplings of CalculatePhysicalCouplings.  None means not yet
    computed; for the counterterm tensors it means zero.  Exceptions keep the changes made before them. *)
From Coq Require Import List Bool.
From Verif.Model Require Import Base.
Import ListNotations.

Section LifeCycle.
  (** parameter vectors, counterterm vectors, scales, input lines *)
  Variables P C S L : Type.
  (** the scale that set_gen sets, e.g. ClassPotentialC2HDM.cpp 222, ClassPotentialCxSM.cpp 260 *)
  Variable own_scale : P -> S.
  (** the scale of a new object, ClassPotentialOrigin.cpp 35 *)
  Variable first_scale : S.
  (** set_gen calls SetCurvatureArrays: true in SM (157), CxSM (272), C2HDM (297), CPintheDark (277), false in R2HDM and N2HDM *)
  Variable gen_sets_curvature : bool.
  (** TripleHiggsCouplings does nothing when called again: C2HDM (2404) only *)
  Variable caches_triple : bool.
  (** the counterterms as a function of scale, members and physical couplings (with what these were computed from) *)
  Variable counterterms : S -> P -> P -> C.
  (** the parameters ReadAndSet puts into par, or an exception *)
  Variable read : L -> outcome P.

  Record object := mkO {
    members : option P;
    scale : S;
    tensors : option P;
    ct_tensors : option C;
    SetCurvatureDone : bool;
    couplings : option P;
    CalcCouplingsdone : bool;
    debye : option (P * P);
    triple : option (S * P * option C);
    CalculatedTripleCopulings : bool;
    parStored : option P;
    parCTStored : option C }.
  (** ClassPotentialOrigin.h 87-193, ClassPotentialOrigin.cpp 33-40 *)
  Definition fresh : object := mkO None first_scale None None false None false None None false None None.

  (** an operation returns the object and a result *)
  Definition op (A : Type) : Type := object -> object * outcome A.
  Definition ret {A} (x : A) : op A := fun o => (o, Ok x).
  Definition seq {A B} (f : op A) (g : A -> op B) : op B :=
    fun o => match f o with
             | (o', Ok x) => g x o'
             | (o', Throw e) => (o', Throw e)
             | (o', UB) => (o', UB)
             | (o', OutOfFuel) => (o', OutOfFuel)
             end.

  (** resetbools, ClassPotentialOrigin.cpp 3472-3479 *)
  Definition resetbools : op unit := fun o =>
    (mkO (members o) (scale o) (tensors o) (ct_tensors o) false (couplings o) false (debye o) (triple o) false None None, Ok tt).
  (** SetCurvatureArrays, e.g. ClassPotentialC2HDM.cpp 2569-3073; initVectors (3332-3390) zeroes the counterterm tensors and
      the thermal masses, too.  Without set_gen the members are uninitialised. *)
  Definition SetCurvatureArrays : op unit := fun o =>
    match members o with
    | None => (o, UB)
    | Some p => (mkO (members o) (scale o) (Some p) None true (couplings o) (CalcCouplingsdone o) None (triple o) (CalculatedTripleCopulings o)
                     (parStored o) (parCTStored o), Ok tt)
    end.
  Definition ensure_curvature : op unit := fun o => if SetCurvatureDone o then (o, Ok tt) else SetCurvatureArrays o.
  (** set_gen, e.g. ClassPotentialSM.cpp 136-158 *)
  Definition set_gen (p : P) : op unit := fun o =>
    let o := mkO (Some p) (own_scale p) (tensors o) (ct_tensors o) (SetCurvatureDone o) (couplings o) (CalcCouplingsdone o) (debye o) (triple o)
                 (CalculatedTripleCopulings o) (parStored o) (parCTStored o) in
    if gen_sets_curvature then ensure_curvature o else (o, Ok tt).
  (** CalculatePhysicalCouplings, ClassPotentialOrigin.cpp 962-1400 *)
  Definition CalculatePhysicalCouplings : op unit :=
    seq ensure_curvature (fun _ o =>
      (mkO (members o) (scale o) (tensors o) (ct_tensors o) (SetCurvatureDone o) (tensors o) true (debye o) (triple o) (CalculatedTripleCopulings o)
           (parStored o) (parCTStored o), Ok tt)).
  (** calc_CT, e.g. ClassPotentialC2HDM.cpp 2287-2303: both flags are checked *)
  Definition calc_CT : op C := fun o =>
    if negb (SetCurvatureDone o) then (o, Throw RuntimeError)
    else if negb (CalcCouplingsdone o) then (o, Throw RuntimeError)
    else match members o, couplings o with
         | Some p, Some q => (o, Ok (counterterms (scale o) p q))
         | _, _ => (o, UB)
         end.
  (** set_CT_Pot_Par, e.g. ClassPotentialC2HDM.cpp 300-2080: writes into the counterterm tensors; before SetCurvatureArrays
      these are empty vectors *)
  Definition set_CT_Pot_Par (c : C) : op unit := fun o =>
    match tensors o with
    | None => (o, UB)
    | Some _ => (mkO (members o) (scale o) (tensors o) (Some c) (SetCurvatureDone o) (couplings o) (CalcCouplingsdone o) (debye o) (triple o)
                     (CalculatedTripleCopulings o) (parStored o) (parCTStored o), Ok tt)
    end.
  (** CalculateDebye 3223-3290 and CalculateDebyeGauge 3292-3330; the simplified versions use the members, the general ones the
      tensors *)
  Definition CalculateDebye : op unit :=
    seq ensure_curvature (fun _ o =>
      match members o, tensors o with
      | Some p, Some q => (mkO (members o) (scale o) (tensors o) (ct_tensors o) (SetCurvatureDone o) (couplings o) (CalcCouplingsdone o) (Some (p, q)) (triple o)
                               (CalculatedTripleCopulings o) (parStored o) (parCTStored o), Ok tt)
      | _, _ => (o, UB)
      end).
  Definition store (p : option P) (c : option C) : op unit := fun o =>
    (mkO (members o) (scale o) (tensors o) (ct_tensors o) (SetCurvatureDone o) (couplings o) (CalcCouplingsdone o) (debye o) (triple o)
         (CalculatedTripleCopulings o) (match p with Some _ => p | None => parStored o end) c, Ok tt).
  Definition set_scale (s : S) : op unit := fun o =>
    (mkO (members o) s (tensors o) (ct_tensors o) (SetCurvatureDone o) (couplings o) (CalcCouplingsdone o) (debye o) (triple o)
         (CalculatedTripleCopulings o) (parStored o) (parCTStored o), Ok tt).

  (** set_All, 50-59 *)
  Definition set_All (p : P) (c : C) : op unit :=
    seq (set_gen p) (fun _ => seq ensure_curvature (fun _ => seq (set_CT_Pot_Par c) (fun _ => CalculateDebye))).
  (** initModel(par), 3769-3785 *)
  Definition initModel (p : P) : op C :=
    seq resetbools (fun _ => seq (set_gen p) (fun _ => seq CalculatePhysicalCouplings (fun _ => seq calc_CT (fun c =>
    seq (set_CT_Pot_Par c) (fun _ => seq CalculateDebye (fun _ => seq (store (Some p) (Some c)) (fun _ => ret c))))))).
  (** ReadAndSet, e.g. ClassPotentialSM.cpp 110-134: reads the line and calls set_gen *)
  Definition ReadAndSet (l : L) : op P := fun o =>
    match read l with
    | Ok p => seq (set_gen p) (fun _ => ret p) o
    | Throw e => (o, Throw e)
    | UB => (o, UB)
    | OutOfFuel => (o, OutOfFuel)
    end.
  (** initModel(linestr), 3751-3767 *)
  Definition initModel_line (l : L) : op (P * C) :=
    seq resetbools (fun _ => seq (ReadAndSet l) (fun p => seq (initModel p) (fun c => seq (store (Some p) (Some c)) (fun _ => ret (p, c))))).
  (** resetScale, 3787-3796 *)
  Definition resetScale (s : S) : op C :=
    seq (set_scale s) (fun _ => seq calc_CT (fun c => seq (set_CT_Pot_Par c) (fun _ => seq (store None (Some c)) (fun _ => ret c)))).
  (** Prepare_Triple (61-96) and TripleHiggsCouplings, e.g. ClassPotentialC2HDM.cpp 2399-2567; the result depends on scale,
      couplings and counterterm tensors *)
  Definition TripleHiggsCouplings : op unit :=
    seq ensure_curvature (fun _ => seq (fun o => if CalcCouplingsdone o then (o, Ok tt) else CalculatePhysicalCouplings o) (fun _ o =>
      if caches_triple && CalculatedTripleCopulings o then (o, Ok tt)
      else match couplings o with
           | None => (o, UB)
           | Some q => (mkO (members o) (scale o) (tensors o) (ct_tensors o) (SetCurvatureDone o) (couplings o) (CalcCouplingsdone o) (debye o)
                            (Some (scale o, q, ct_tensors o)) (if caches_triple then true else CalculatedTripleCopulings o) (parStored o) (parCTStored o), Ok tt)
           end)).

  (** a caller may catch exceptions and go on *)
  Inductive call := Init (p : P) | InitLine (l : L) | Rescale (s : S) | Triple | SetAll (p : P) (c : C).
  Definition finish {A} (r : object * outcome A) : option object :=
    match snd r with Ok _ | Throw _ => Some (fst r) | _ => None end.
  Definition perform (o : object) (k : call) : option object :=
    match k with
    | Init p => finish (initModel p o)
    | InitLine l => finish (initModel_line l o)
    | Rescale s => finish (resetScale s o)
    | Triple => finish (TripleHiggsCouplings o)
    | SetAll p c => finish (set_All p c o)
    end.
  Fixpoint run (ks : list call) (o : object) : option object :=
    match ks with
    | [] => Some o
    | k :: ks => match perform o k with Some o' => run ks o' | None => None end
    end.
End LifeCycle.
