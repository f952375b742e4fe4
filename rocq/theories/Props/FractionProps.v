(** C84: kinetic energy fractions and bubble separation *)
From Coq Require Import Reals Lra Psatz.
From Verif.Model Require Import GW.
From Verif.Proofs Require Import GWProofs KappaProofs FractionProofs.
Open Scope R_scope.

(** C84: separation *)
Theorem C84_separation : forall beta v cs, 0 < beta -> 0 < v -> 0 < cs ->
  0 < GetHR beta v cs /\
  (v <= cs -> (GetHR beta v cs * beta) ^ 3 = 8 * PI * cs ^ 3) /\
  (cs <= v -> (GetHR beta v cs * beta) ^ 3 = 8 * PI * v ^ 3).
Proof. exact separation. Qed.
Print Assumptions C84_separation.
(** C84: detonations *)
Theorem C84_detonation : forall alpha cs v, 0 < alpha -> 0 < cs -> cs < xiJ alpha -> xiJ alpha < v <= 1 ->
  0 < GetK_sw alpha v cs < 1.
Proof. intros alpha cs v A C X V. apply fraction_of; [exact A|]. now apply detonation. Qed.
Print Assumptions C84_detonation.
(** C84: weak deflagrations *)
Theorem C84_deflagration_partial : forall alpha v, 0 < alpha <= 1 / 2 -> 0 < v < Csound -> 0 < GetK_sw alpha v Csound < 1.
Proof. intros alpha v A V. apply fraction_of; [apply A|]. now apply deflagration. Qed.
Print Assumptions C84_deflagration_partial.
(** C84: the fraction passed on to turbulence *)
Theorem C84_turbulence_share : forall alpha v cs eps,
  GetK_turb alpha (eps * Getkappa_sw alpha v cs) = eps * GetK_sw alpha v cs.
Proof. exact share. Qed.
Print Assumptions C84_turbulence_share.
(** C84: strong deflagrations *)
Theorem C84_fraction_refuted : exists alpha v, 0 < alpha /\ 0 < v < Csound /\ 1 < GetK_sw alpha v Csound.
Proof. exact too_much. Qed.
Print Assumptions C84_fraction_refuted.

Example C84_nonvacuous : 0 < 1 / 10 /\ 0 < Csound /\ Csound < xiJ (1 / 10) /\ xiJ (1 / 10) < 95 / 100 <= 1 /\ 0 < 1 / 2 < Csound.
Proof.
  unfold Csound, xiJ.
  assert (27 / 100 <= sqrt (2 / 3 * (1 / 10) + 1 / 10 * (1 / 10)) <= 28 / 100).
  { split; [rewrite <- (sqrt_pow2 (27 / 100)) by lra|rewrite <- (sqrt_pow2 (28 / 100)) by lra]; apply sqrt_le_1_alt; lra. }
  assert (577 / 1000 <= sqrt (1 / 3) <= 578 / 1000).
  { split; [rewrite <- (sqrt_pow2 (577 / 1000)) by lra|rewrite <- (sqrt_pow2 (578 / 1000)) by lra]; apply sqrt_le_1_alt; lra. }
  assert (E : forall a b, (a + b) / (1 + 1 / 10) = (a + b) * (10 / 11)) by (intros; field). rewrite E.
  repeat split; lra.
Qed.
