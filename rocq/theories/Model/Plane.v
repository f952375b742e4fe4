(** Minimisation on a plane: src/minimizer/MinimizePlane.cpp.  Doubles are real numbers; the potential
    on finite field values is a total real function. *)
From Coq Require Import Reals.
From Verif.Model Require Import Base.
Open Scope R_scope.

Definition rvec := list R.
(** sum of the products, the loop 72-76 *)
Fixpoint dot (n v : rvec) : R :=
  match n, v with a :: n', b :: v' => a * b + dot n' v' | _, _ => 0 end.
(** overwriting one component (index in range) *)
Definition put (v : rvec) (i : nat) (x : R) : rvec := firstn i v ++ x :: skipn (S i) v.

(** TransformCoordinates, MinimizePlane.cpp 42-80.  [Ok None]: the normal vector vanishes in the solved
    direction and the component is not finite.  For nVEV = 0 the expected size wraps around and
    the size check throws. *)
Definition TransformCoordinates (nVEV : nat) (normal point : rvec) (idx : nat) (tilde : rvec) : outcome (option rvec) :=
  match nVEV with
  | O => Throw RuntimeError
  | S m =>
    if negb (Nat.eqb (length tilde) m) then Throw RuntimeError
    else if Nat.leb nVEV idx then Throw OutOfRange
    else
      let v := firstn idx tilde ++ 0 :: skipn idx tilde in
      if Nat.ltb (length normal) nVEV || Nat.ltb (length point) nVEV then Throw OutOfRange
      else
        let nrm := firstn nVEV normal in
        let c := dot nrm (firstn nVEV point) in
        let x := dot nrm v in
        let ni := nth idx normal 0 in
        if Req_EM_T ni 0 then Ok None else Ok (Some (put v idx (1 / ni * (c - x))))
  end.

(** the normal vector, 134-136: VEVSymmetric.at(i) throws if it is too short *)
Fixpoint normal_of (broken symmetric : rvec) : option rvec :=
  match broken, symmetric with
  | [], _ => Some []
  | b :: broken', s :: symmetric' => option_map (cons (b - s)) (normal_of broken' symmetric')
  | _ :: _, [] => None
  end.
(** first component of modulus at least 1e-3, 147-156 *)
Fixpoint find_index (n : rvec) (i : nat) : option nat :=
  match n with
  | [] => None
  | a :: n' => if Rle_dec 1e-3 (Rabs a) then Some i else find_index n' (S i)
  end.

(** the candidates: lists of plane coordinates tried by the enabled algorithms in order
    (GSL_Minimize_Plane_gen_all 320-403: all rows, the last lowest one kept; CMA-ES and NLopt: one each),
    each turned into a field vector by TransformCoordinates.  The potential of a candidate is the one
    of the transformed vector. *)
Fixpoint transform_all (nVEV : nat) (normal point : rvec) (idx : nat) (ts : list rvec) : outcome (list rvec) :=
  match ts with
  | [] => Ok []
  | t :: r =>
    bind (TransformCoordinates nVEV normal point idx t) (fun o =>
      match o with
      | None => UB  (* a non-finite component: excluded by the choice of the index *)
      | Some v => bind (transform_all nVEV normal point idx r) (fun l => Ok (v :: l))
      end)
  end.
(** the smallest potential: GSL keeps the last among equals (386-394), the comparison of algorithms the
    first (204-211) *)
Definition keep_last (V : rvec -> R) (b c : rvec) : rvec := if Rle_dec (V c) (V b) then c else b.
Definition keep_first (V : rvec -> R) (b c : rvec) : rvec := if Rlt_dec (V c) (V b) then c else b.
Definition best (keep : rvec -> rvec -> rvec) (l : list rvec) : option rvec :=
  match l with [] => None | v :: r => Some (fold_left keep r v) end.
Definition otolist {A} (o : option A) : list A := match o with Some a => [a] | None => [] end.

(** MinimizePlane, 119-219: potential value and minimum; [gsl], [cmaes], [nlopt] are the plane
    coordinates found (empty list: algorithm disabled) *)
Definition MinimizePlane (nVEV : nat) (V : rvec -> R) (base symmetric broken : rvec) (gsl cmaes nlopt : list rvec)
  : outcome (R * rvec) :=
  match normal_of broken symmetric with
  | None => Throw OutOfRange
  | Some normal =>
    match find_index normal 0 with
    | None => Throw RuntimeError
    | Some idx =>
      bind (transform_all nVEV normal base idx gsl) (fun g =>
      bind (transform_all nVEV normal base idx (if Nat.leb 3 nVEV then cmaes else [])) (fun c =>
      bind (transform_all nVEV normal base idx nlopt) (fun n =>
        match best (keep_first V) (otolist (best (keep_last V) g) ++ c ++ n) with
        | None => Throw OutOfRange
        | Some v => Ok (V v, v)
        end)))
    end
  end.
