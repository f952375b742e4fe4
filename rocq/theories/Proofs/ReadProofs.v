(** Reading input lines. *)
From Coq Require Import List QArith Bool Lia String.
From Verif.Model Require Import Base ReadLine.
From Verif.Spec Require Import ReadSpec.
Import ListNotations.
Close Scope Q_scope.

Lemma loop_numbers n : forall vals rest tmp, length vals = n ->
  loop n (mkStream (map Num vals ++ rest) false) tmp = map Some vals.
Proof. induction n as [|n IH]; intros [|q vals] rest tmp L; try discriminate L; [reflexivity|]. cbn. f_equal. apply IH. now injection L. Qed.
Lemma columns_numbers idx n i vals rest : length vals = n ->
  columns idx n ((if idx then [Num i] else []) ++ map Num vals ++ rest) = map Some vals.
Proof. intro L. destruct idx; cbn; now apply loop_numbers. Qed.

Lemma loop_failed n ts tmp : loop n (mkStream ts true) tmp = repeat tmp n.
Proof. revert tmp. induction n as [|n IH]; intro tmp; [reflexivity|]. cbn. now rewrite IH. Qed.
Lemma loop_end n : forall tmp, loop n (mkStream [] false) tmp = repeat tmp n.
Proof. destruct n; intro tmp; [reflexivity|]. cbn. now rewrite loop_failed. Qed.
Lemma last_cons {A} (x d : A) l : last (x :: l) d = last l x.
Proof. revert x d. induction l as [|y l IH]; intros x d; [reflexivity|]. change (last (x :: y :: l) d) with (last (y :: l) d). now rewrite !IH. Qed.
Lemma map_repeat {A B} (f : A -> B) x n : map f (repeat x n) = repeat (f x) n.
Proof. induction n; cbn; congruence. Qed.
(** a line that ends early repeats the last value *)
Lemma loop_short : forall vals n q, length vals < n ->
  loop n (mkStream (map Num vals) false) (Some q) = map Some (padded n (last vals q) vals).
Proof.
  induction vals as [|a vals IH]; intros n q L; unfold padded in *.
  - cbn [length app map last]. rewrite loop_end, Nat.sub_0_r, map_repeat. reflexivity.
  - destruct n as [|n]; [inversion L|]. cbn [loop extract left_tokens failed map app]. rewrite IH by (cbn in L; lia). rewrite last_cons. reflexivity.
Qed.
Lemma columns_short n a vals : length (a :: vals) < n -> columns false n (map Num (a :: vals)) = map Some (padded n (last vals a) (a :: vals)).
Proof.
  intro L. destruct n as [|n]; [inversion L|]. unfold columns. cbn [loop extract left_tokens failed map]. cbn in L. rewrite loop_short by lia. reflexivity.
Qed.
(** what follows a malformed number is read as 0 *)
Lemma loop_bad : forall vals n rest tmp, length vals < n -> loop n (mkStream (map Num vals ++ Bad :: rest) false) tmp = map Some (padded n 0%Q vals).
Proof.
  induction vals as [|a vals IH]; intros n rest tmp L; unfold padded in *; cbn [length app map].
  - destruct n as [|n]; [inversion L|]. cbn. rewrite loop_failed, map_repeat. reflexivity.
  - destruct n as [|n]; [inversion L|]. cbn [loop extract left_tokens failed map app]. rewrite IH by (cbn in L; lia). reflexivity.
Qed.
Lemma columns_bad_index n rest : columns true n (Bad :: rest) = map Some (repeat 0%Q n).
Proof. cbn. rewrite loop_failed, map_repeat. reflexivity. Qed.

(** all models *)
Definition good_sources (n : nat) (l : list source) : Prop := Forall (fun s => match s with Col k | Int k => 1 <= k <= n end) l.
Lemma fetch_all_empty n l : l <> [] -> good_sources n l -> fetch_all (repeat None n) l = UB.
Proof.
  intros N G. destruct l as [|s l]; [now elim N|]. inversion G as [|? ? K _]; subst. cbn [fetch_all].
  assert (E : fetch (repeat None n) s = UB); [|now rewrite E].
  destruct s as [k|k]; cbn; rewrite nth_error_repeat by lia; reflexivity.
Qed.
Lemma read_empty n l : l <> [] -> good_sources n l -> ReadAndSet n l false [] = UB.
Proof. intros. unfold ReadAndSet, columns. rewrite loop_end. now apply fetch_all_empty with (n := n). Qed.
Lemma read_short n l a vals : length (a :: vals) < n ->
  ReadAndSet n l false (map Num (a :: vals)) = ReadAndSet n l false (map Num (padded n (last vals a) (a :: vals))).
Proof.
  intro L. unfold ReadAndSet. rewrite columns_short by assumption. f_equal. symmetry.
  rewrite <- (app_nil_r (map Num _)). apply (columns_numbers false n 0%Q). unfold padded. rewrite app_length, repeat_length. lia.
Qed.
Lemma read_bad n l vals rest : length vals < n ->
  ReadAndSet n l false (map Num vals ++ Bad :: rest) = ReadAndSet n l false (map Num (padded n 0%Q vals)).
Proof.
  intro L. unfold ReadAndSet. unfold columns at 1. rewrite loop_bad by assumption. f_equal. symmetry.
  rewrite <- (app_nil_r (map Num _)). apply (columns_numbers false n 0%Q). unfold padded. rewrite app_length, repeat_length. lia.
Qed.
Lemma read_bad_index n l rest : ReadAndSet n l true (Bad :: rest) = ReadAndSet n l false (map Num (repeat 0%Q n)).
Proof.
  unfold ReadAndSet. rewrite columns_bad_index. f_equal. symmetry. rewrite <- (app_nil_r (map Num _)). apply (columns_numbers false n 0%Q). apply repeat_length.
Qed.

Ltac names L := intros idx i vals rest L; unfold ReadAndSet; rewrite columns_numbers by exact L;
  repeat (destruct vals as [|? vals]; try discriminate L); eexists; (split; [reflexivity|reflexivity]).
Lemma SM_names : forall idx i vals rest, length vals = 2 -> exists par,
  SM_read idx ((if idx then [Num i] else []) ++ map Num vals ++ rest) = Ok par /\ by_name SM_columns SM_parameters vals par.
Proof. unfold SM_read. names L. Qed.
Lemma CxSM_names : forall idx i vals rest, length vals = 12 -> exists par,
  CxSM_read idx ((if idx then [Num i] else []) ++ map Num vals ++ rest) = Ok par /\ by_name CxSM_columns CxSM_parameters vals par.
Proof. unfold CxSM_read. names L. Qed.
Lemma N2HDM_names : forall idx i vals rest, length vals = 12 -> exists par,
  N2HDM_read idx ((if idx then [Num i] else []) ++ map Num vals ++ rest) = Ok par /\ by_name N2HDM_columns N2HDM_parameters vals par.
Proof. unfold N2HDM_read. names L. Qed.
Lemma CPintheDark_names : forall idx i vals rest, length vals = 27 -> exists par,
  CPintheDark_read idx ((if idx then [Num i] else []) ++ map Num vals ++ rest) = Ok par /\ by_name CPintheDark_columns CPintheDark_parameters vals par.
Proof. unfold CPintheDark_read. names L. Qed.
(** an integer type is kept *)
Lemma truncate_int z : truncate (inject_Z z) = inject_Z z.
Proof. unfold truncate. cbn. now rewrite Z.quot_1_r. Qed.
Lemma R2HDM_names : forall idx i ty vals rest, length vals = 7 -> exists par,
  R2HDM_read idx ((if idx then [Num i] else []) ++ map Num (inject_Z ty :: vals) ++ rest) = Ok par /\ by_name R2HDM_columns R2HDM_parameters (inject_Z ty :: vals) par.
Proof.
  intros idx i ty vals rest L. unfold R2HDM_read, ReadAndSet. rewrite columns_numbers by (cbn; now rewrite L).
  repeat (destruct vals as [|? vals]; try discriminate L). eexists. split; [reflexivity|]. rewrite truncate_int. reflexivity.
Qed.
Lemma C2HDM_names : forall idx i ty vals rest, length vals = 8 -> exists par,
  C2HDM_read idx ((if idx then [Num i] else []) ++ map Num (inject_Z ty :: vals) ++ rest) = Ok par /\ by_name C2HDM_columns C2HDM_parameters (inject_Z ty :: vals) par.
Proof.
  intros idx i ty vals rest L. unfold C2HDM_read, ReadAndSet. rewrite columns_numbers by (cbn; now rewrite L).
  repeat (destruct vals as [|? vals]; try discriminate L). eexists. split; [reflexivity|]. rewrite truncate_int. reflexivity.
Qed.
