(** Specifications for sign symmetries (C20, C63). *)
From Verif.Model Require Import Base Signs.
Open Scope Z_scope.

(** vectors of n signs *)
Definition sign_vector (n : nat) (g : list Z) : Prop :=
  length g = n /\ Forall (fun x => x = 1 \/ x = -1) g.
Definition identity (n : nat) : list Z := repeat 1 n.

(** component-wise product of sign vectors = product of the diagonal matrices *)
Fixpoint times (a b : list Z) : list Z :=
  match a, b with
  | x :: a', y :: b' => x * y :: times a' b'
  | _, _ => []
  end.

(** [G] is a group of sign flips of n components *)
Definition sign_group (n : nat) (G : list (list Z)) : Prop :=
  In (identity n) G /\ (forall g, In g G -> sign_vector n g) /\
  forall g h, In g G -> In h G -> In (times g h) G.

(** [g] flips only components marked in [S] *)
Definition flips_only (S : list bool) (g : list Z) : Prop :=
  forall i, nth_error g i = Some (-1) -> nth_error S i = Some true.

(** absolute value on the marked components, except those smaller than the threshold *)
Fixpoint abs_on (thr : Z) (S : list bool) (v : list Z) : list Z :=
  match S, v with
  | b :: S', x :: v' => (if b && (thr <=? Z.abs x) then Z.abs x else x) :: abs_on thr S' v'
  | _, _ => []
  end.
