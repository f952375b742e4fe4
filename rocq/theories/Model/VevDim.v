(** Conversion of a point of all fields to vacuum expectation values: src/minimum_tracer/minimum_tracer.cpp 1053-1065. *)
From Coq Require Import List.
From Verif.Model Require Import Base.
Import ListNotations.

(** ConvertToVEVDim, 1053-1065; [point.at(i)] throws std::out_of_range *)
Fixpoint ConvertToVEVDim {A} (VevOrder : list nat) (point : list A) : outcome (list A) :=
  match VevOrder with
  | [] => Ok []
  | i :: rest =>
      match nth_error point i with
      | None => Throw OutOfRange
      | Some x => bind (ConvertToVEVDim rest point) (fun r => Ok (x :: r))
      end
  end.
