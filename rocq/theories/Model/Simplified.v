(** The hand-written formulas for the potential on the subspace of the vacuum expectation values, and how VTree and
    CounterTerm of src/models/ClassPotentialOrigin.cpp choose between them and the coupling tensors.  Doubles are real
    numbers. *)
From Coq Require Import Reals ZArith List Bool.
From Verif.Model Require Import Base Potential Tables.
From Verif.Model Require PotSM PotC2HDM PotCPintheDark.
Import ListNotations.
Open Scope R_scope.

(** v[i] without a check *)
Definition get (v : list R) (i : nat) (body : R -> outcome R) : outcome R :=
  match nth_error v i with Some x => body x | None => UB end.

(** VTree, ClassPotentialOrigin.cpp 2826-2890: the simplified formula is evaluated in any case unless
    ForceExplicitCalculation is set, and used for the value only *)
Definition VTree_of (n : nat) (T : tensors) (UseVTreeSimplified : bool) (VTreeSimplified : list R -> outcome R)
    (v : list R) (diff : Z) (ForceExplicitCalculation : bool) : outcome R :=
  if negb ForceExplicitCalculation then
    bind (VTreeSimplified v) (fun res => if UseVTreeSimplified && Z.eqb diff 0 then Ok res else tree n T v diff)
  else tree n T v diff.
(** CounterTerm, ClassPotentialOrigin.cpp 2892-2946 *)
Definition CounterTerm_of (n : nat) (T : tensors) (UseVCounterSimplified : bool) (VCounterSimplified : list R -> outcome R)
    (v : list R) (diff : Z) (ForceExplicitCalculation : bool) : outcome R :=
  if negb ForceExplicitCalculation && UseVCounterSimplified then
    bind (VCounterSimplified v) (fun res => if UseVCounterSimplified && Z.eqb diff 0 then Ok res else counterterm n T v diff)
  else counterterm n T v diff.

(** ClassPotentialSM.cpp 624-634 *)
Definition VTreeSimplified_SM (p : PotSM.params) (v : list R) : outcome R :=
  let 'PotSM.mkP muSq lambda := p in
  get v 2 (fun vtmp => Ok (0 + 1 / 2 * muSq * vtmp ^ 2 + 1 / 4 * lambda * vtmp ^ 4)).
(** ClassPotentialSM.cpp 636-648 *)
Definition VCounterSimplified_SM (UseVCounterSimplified : bool) (c : PotSM.ctparams) (v : list R) : outcome R :=
  let 'PotSM.mkC dmuSq dlambda dT1 dT2 dT3 dT4 := c in
  if negb UseVCounterSimplified then Ok 0 else
  get v 2 (fun vtmp => Ok (0 + 1 / 2 * dmuSq * vtmp ^ 2 + 1 / 4 * dlambda * vtmp ^ 4 + dT3 * vtmp)).
(** ClassPotentialSM.cpp 42, 46 *)
Definition use_tree_SM : bool := false.
Definition use_counter_SM : bool := false.

(** ClassPotentialC2HDM.cpp 3132-3160 *)
Definition VTreeSimplified_C2HDM (UseVTreeSimplified : bool) (p : PotC2HDM.params) (v : list R) : outcome R :=
  let 'PotC2HDM.mkP u1 u2 RealMMix Iu3 L1 L2 L3 L4 RL5 IL5 := p in
  if negb UseVTreeSimplified then Ok 0 else
  get v 2 (fun vcb => get v 4 (fun v1 => get v 6 (fun v2 => get v 7 (fun vcp =>
  let C22 := v2 * v2 + vcp * vcp + vcb * vcb in
  let res := 0 in
  let res := res + 1 / 2 * u1 * v1 * v1 in
  let res := res + 1 / 2 * u2 * C22 in
  let res := res + - RealMMix * v1 * v2 in
  let res := res + v1 ^ 4 / 8 * L1 in
  let res := res + 1 / 8 * C22 ^ 2 * L2 in
  let res := res + L3 / 4 * v1 * v1 * C22 in
  let res := res + L4 / 4 * v1 * v1 * (vcp * vcp + v2 * v2) in
  let res := res + RL5 / 4 * v1 * v1 * (- vcp * vcp + v2 * v2) in
  let res := res + - IL5 / 2 * v1 * v1 * v2 * vcp in
  let res := res + Iu3 * v1 * vcp in
  Ok res)))).
(** ClassPotentialC2HDM.cpp 3162-3193 *)
Definition VCounterSimplified_C2HDM (UseVCounterSimplified : bool) (c : PotC2HDM.ctparams) (v : list R) : outcome R :=
  let 'PotC2HDM.mkC Du1CT Du2CT DIu3CT DRu3CT DL1CT DL2CT DL3CT DL4CT DRL5CT DIL5CT DTCharged DT1 DT2 DT3 DIL6CT := c in
  if negb UseVCounterSimplified then Ok 0 else
  get v 2 (fun vcb => get v 4 (fun v1 => get v 6 (fun v2 => get v 7 (fun vcp =>
  let C22 := v2 * v2 + vcp * vcp + vcb * vcb in
  let res := 0 in
  let res := res + 1 / 2 * Du1CT * v1 * v1 in
  let res := res + 1 / 2 * Du2CT * C22 in
  let res := res + - DRu3CT * v1 * v2 in
  let res := res + v1 ^ 4 / 8 * DL1CT in
  let res := res + 1 / 8 * C22 ^ 2 * DL2CT in
  let res := res + DL3CT / 4 * v1 * v1 * C22 in
  let res := res + DL4CT / 4 * v1 * v1 * (vcp * vcp + v2 * v2) in
  let res := res + DRL5CT / 4 * v1 * v1 * (- vcp * vcp + v2 * v2) in
  let res := res + - DIL5CT / 2 * v1 * v1 * v2 * vcp in
  let res := res + DIu3CT * v1 * vcp in
  let res := res + DT1 * v1 in
  let res := res + DT2 * v2 in
  let res := res + DT3 * vcp in
  let res := res + DTCharged * vcb in
  let res := res + - (1 / 2) * DIL6CT * v1 ^ 3 * vcp in
  Ok res)))).
(** ClassPotentialC2HDM.cpp 53, 57 *)
Definition use_tree_C2HDM : bool := true.
Definition use_counter_C2HDM : bool := true.

(** ClassPotentialCPintheDark.cpp 2288-2321 *)
Definition VTreeSimplified_CPintheDark (UseVTreeSimplified : bool) (p : PotCPintheDark.params) (v : list R) : outcome R :=
  let 'PotCPintheDark.mkP m11s m22s mSs ReA ImA L1 L2 L3 L4 L5 L6 L7 L8 := p in
  if negb UseVTreeSimplified then Ok 0 else
  get v 2 (fun vcb => get v 4 (fun v_1 => get v 6 (fun v_2 => get v 7 (fun vcp => get v 8 (fun vs =>
  let C22 := vcb ^ 2 + v_2 ^ 2 + vcp ^ 2 in
  let res := 0 in
  let res := res + 1 / 2 * m11s * v_1 ^ 2 in
  let res := res + 1 / 2 * m22s * C22 in
  let res := res + 1 / 2 * mSs * vs ^ 2 in
  let res := res + ReA * v_1 * v_2 * vs in
  let res := res + - ImA * v_1 * vcp * vs in
  let res := res + 1 / 8 * L1 * v_1 ^ 4 in
  let res := res + 1 / 8 * L2 * C22 ^ 2 in
  let res := res + 1 / 4 * L3 * v_1 ^ 2 * C22 in
  let res := res + 1 / 4 * L4 * v_1 ^ 2 * (v_2 ^ 2 + vcp ^ 2) in
  let res := res + 1 / 4 * L5 * v_1 ^ 2 * (v_2 ^ 2 - vcp ^ 2) in
  let res := res + 1 / 4 * L6 * vs ^ 4 in
  let res := res + 1 / 4 * L7 * v_1 ^ 2 * vs ^ 2 in
  let res := res + 1 / 4 * L8 * C22 * vs ^ 2 in
  Ok res))))).
(** ClassPotentialCPintheDark.cpp 2323-2362 *)
Definition VCounterSimplified_CPintheDark (UseVCounterSimplified : bool) (c : PotCPintheDark.ctparams) (v : list R) : outcome R :=
  let 'PotCPintheDark.mkC dm11s dm22s dmSs dReA dImA dL1 dL2 dL3 dL4 dL5 dL6 dL7 dL8 dTCB dT1 dT2 dTCP dTS dImL5 := c in
  if negb UseVCounterSimplified then Ok 0 else
  get v 2 (fun vcb => get v 4 (fun v_1 => get v 6 (fun v_2 => get v 7 (fun vcp => get v 8 (fun vs =>
  let C22 := vcb ^ 2 + v_2 ^ 2 + vcp ^ 2 in
  let res := 0 in
  let res := res + 1 / 2 * dm11s * v_1 ^ 2 in
  let res := res + 1 / 2 * dm22s * C22 in
  let res := res + 1 / 2 * dmSs * vs ^ 2 in
  let res := res + dReA * v_1 * v_2 * vs in
  let res := res + - dImA * v_1 * vcp * vs in
  let res := res + 1 / 8 * dL1 * v_1 ^ 4 in
  let res := res + 1 / 8 * dL2 * C22 ^ 2 in
  let res := res + 1 / 4 * dL3 * v_1 ^ 2 * C22 in
  let res := res + 1 / 4 * dL4 * v_1 ^ 2 * (v_2 ^ 2 + vcp ^ 2) in
  let res := res + 1 / 4 * dL5 * v_1 ^ 2 * (v_2 ^ 2 - vcp ^ 2) in
  let res := res + 1 / 4 * dL6 * vs ^ 4 in
  let res := res + 1 / 4 * dL7 * v_1 ^ 2 * vs ^ 2 in
  let res := res + 1 / 4 * dL8 * C22 * vs ^ 2 in
  let res := res + dTCB * vcb in
  let res := res + dT1 * v_1 in
  let res := res + dT2 * v_2 in
  let res := res + dTCP * vcp in
  let res := res + dTS * vs in
  let res := res + - (1 / 2) * dImL5 * v_1 ^ 2 * v_2 * vcp in
  Ok res))))).
(** ClassPotentialCPintheDark.cpp 56, 60 *)
Definition use_tree_CPintheDark : bool := true.
Definition use_counter_CPintheDark : bool := true.

(** the functions of the three models.  After set_CT_Pot_Par the counterterm members are the entries of its argument. *)
Definition tree_SM p := VTree_of PotSM.N (PotSM.SetCurvatureArrays p) use_tree_SM (VTreeSimplified_SM p).
Definition tree_C2HDM p := VTree_of PotC2HDM.N (PotC2HDM.SetCurvatureArrays p) use_tree_C2HDM (VTreeSimplified_C2HDM use_tree_C2HDM p).
Definition tree_CPintheDark p :=
  VTree_of PotCPintheDark.N (PotCPintheDark.SetCurvatureArrays p) use_tree_CPintheDark (VTreeSimplified_CPintheDark use_tree_CPintheDark p).
Definition counter_SM (par v : list R) (diff : Z) (force : bool) : outcome R :=
  bind (PotSM.read_CT par) (fun c => bind (PotSM.set_CT_Pot_Par par) (fun T =>
  CounterTerm_of PotSM.N T use_counter_SM (VCounterSimplified_SM use_counter_SM c) v diff force)).
Definition counter_C2HDM (par v : list R) (diff : Z) (force : bool) : outcome R :=
  bind (PotC2HDM.read_CT par) (fun c => bind (PotC2HDM.set_CT_Pot_Par par) (fun T =>
  CounterTerm_of PotC2HDM.N T use_counter_C2HDM (VCounterSimplified_C2HDM use_counter_C2HDM c) v diff force)).
Definition counter_CPintheDark (par v : list R) (diff : Z) (force : bool) : outcome R :=
  bind (PotCPintheDark.read_CT par) (fun c => bind (PotCPintheDark.set_CT_Pot_Par par) (fun T =>
  CounterTerm_of PotCPintheDark.N T use_counter_CPintheDark (VCounterSimplified_CPintheDark use_counter_CPintheDark c) v diff force)).
