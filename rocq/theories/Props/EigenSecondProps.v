(** C132: second derivatives of eigenvalues. *)
From Coq Require Import Reals List Lra Lia.
From Coquelicot Require Import Coquelicot.
From Verif Require Import Model.EigenSecond Spec.EigenSecondSpec Proofs.EigenSecondProofs.
Open Scope R_scope.

(** the result holds the eigenvalues and then for each of them the value, the two first derivatives and the mixed one *)
Theorem C132_layout : forall eigen solve m M X Y XY, let n := S m in
  exists logged res, SecondDerivative eigen solve n n M X Y XY = Returned logged res /\ length res = (5 * n)%nat /\
  forall i, (i < n)%nat -> nth i res 0 = fst (eigen n M) i /\
    (nth (n + 4 * i) res 0, nth (n + 4 * i + 1) res 0, nth (n + 4 * i + 2) res 0, nth (n + 4 * i + 3) res 0) =
      deriv n (solve n) M X Y XY (fst (eigen n M) i) (snd (eigen n M) i).
Proof. exact second_result. Qed.
(** for every differentiable family of symmetric matrices and an eigenvalue that is not repeated *)
Theorem C132_derivatives_partial : forall n solve x0 y0 eps M MX MY MXY lam v, solver n solve ->
  family n x0 y0 eps M MX MY MXY lam v -> simple n (M x0 y0) (lam x0 y0) (v x0 y0) ->
  let '(d0, d1, d2, d3) := deriv n solve (M x0 y0) (MX y0) MY MXY (lam x0 y0) (v x0 y0) in
  d0 = lam x0 y0 /\ is_derive (fun x => lam x y0) x0 d1 /\ is_derive (fun y => lam x0 y) y0 d2 /\
  is_derive (fun y => Derive (fun x => lam x y) x0) y0 d3.
Proof. exact mixed. Qed.
(** refuted: repeated eigenvalues are reported *)
Theorem C132_repeated_refuted : exists eigen solve M, (forall i, (i < 2)%nat -> eigenpair 2 M (fst (eigen 2%nat M) i) (snd (eigen 2%nat M) i)) /\
  fst (eigen 2%nat M) 0%nat = fst (eigen 2%nat M) 1%nat /\ exists res, SecondDerivative eigen solve 2 2 M M M M = Returned false res.
Proof.
  exists (fun _ _ => (fun _ => 1, fun i j => if Nat.eqb i j then 1 else 0)), (fun _ _ b => b), (fun i j => if Nat.eqb i j then 1 else 0). split; [|split; [reflexivity|]].
  - intros [|[|i]] I; [| |lia]; (split; [intros [|[|k]] K; [| |lia]; unfold image; cbn; ring|cbn; ring]).
  - destruct (second_result (fun _ _ => (fun _ => 1, fun i j => if Nat.eqb i j then 1 else 0)) (fun _ _ b => b) 1 (fun i j => if Nat.eqb i j then 1 else 0)
      (fun i j => if Nat.eqb i j then 1 else 0) (fun i j => if Nat.eqb i j then 1 else 0) (fun i j => if Nat.eqb i j then 1 else 0)) as (lg & res & H & _).
    exists res. rewrite (never_logged _ _ _ _ _ _ _ _ _ H) in H. exact H.
Qed.
(** no input is ever reported *)
Theorem C132_never : forall eigen solve n M X Y XY logged res, SecondDerivative eigen solve n n M X Y XY = Returned logged res -> logged = false.
Proof. exact never_logged. Qed.
(** refuted: an empty matrix has an empty result; a matrix that is not square is an exception *)
Theorem C132_empty_refuted : forall eigen solve M X Y XY, SecondDerivative eigen solve 0 0 M X Y XY = Undefined /\
  (forall r c, c <> r -> SecondDerivative eigen solve r c M X Y XY = Throws).
Proof. intros. split; [reflexivity|]. intros r c N. unfold SecondDerivative. destruct (Nat.eqb_spec c r); [contradiction|reflexivity]. Qed.

Example C132_nonvacuous : solver 2 cramer /\ family 2 1 1 1 sampleM sampleX (sampleX 1) (sampleX 1) (fun x y => x * y) (fun _ _ => e0) /\
  simple 2 (sampleM 1 1) (1 * 1) e0 /\ snd (deriv 2 cramer (sampleM 1 1) (sampleX 1) (sampleX 1) (sampleX 1) (1 * 1) e0) = 1.
Proof.
  split; [exact cramer_solves|]. split; [exact sample_family|]. split; [exact sample_simple|].
  pose proof (mixed 2 cramer 1 1 1 _ _ _ _ _ _ cramer_solves sample_family sample_simple) as H. cbv beta in H.
  destruct (deriv 2 cramer (sampleM 1 1) (sampleX 1) (sampleX 1) (sampleX 1) (1 * 1) e0) as [[[a b] c] d]. destruct H as (_ & _ & _ & H). cbn [snd].
  apply (unique _ _ _ _ H). apply (is_derive_ext (fun y => y)); [|apply @is_derive_id].
  intros y. symmetry. apply is_derive_unique. auto_derive; [exact Logic.I|ring].
Qed.

Print Assumptions C132_layout.
Print Assumptions C132_derivatives_partial.
Print Assumptions C132_repeated_refuted.
Print Assumptions C132_never.
Print Assumptions C132_empty_refuted.
