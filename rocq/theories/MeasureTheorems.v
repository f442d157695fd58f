(* C01, C02: transfer accounting. *)
From Coq Require Import ZArith List Bool Lia Permutation.
From Verif Require Import MeasureModel MeasureProofs.
Import ListNotations.
Open Scope Z_scope.

(* Specification, independent of the merge code: offset x was transferred by
   one of the ranges, and n is the number of such offsets. *)
Definition transferred_offset (rs : list range) (x : Z) : Prop :=
  exists r, In r rs /\ start r <= x < stop r.

Definition number_of_offsets (rs : list range) (n : Z) : Prop :=
  exists xs : list Z,
    NoDup xs /\ (forall x, In x xs <-> transferred_offset rs x) /\
    n = Z.of_nat (length xs).

Definition well_formed (r : range) : Prop := start r <= stop r.

(* C01 *)
Theorem transferred_is_union_size :
  forall finished ongoing : list range,
    Forall well_formed finished -> Forall well_formed ongoing ->
    exists n,
      transferred 1 (completed_after finished) ongoing = Bytes n /\
      number_of_offsets (finished ++ ongoing) n.
Proof.
  intros f o Hf Ho. destruct (transferred_spec f o Hf Ho) as (xs & N & I & E).
  exists (Z.of_nat (length xs)). split; [exact E|].
  exists xs. split; [exact N|]. split; [exact I|reflexivity].
Qed.
Print Assumptions transferred_is_union_size.

(* A number is reported only for tickets that allow one operation. *)
Theorem transferred_several_ops :
  forall nops finished ongoing,
    ((2 <= nops)%nat -> transferred nops (completed_after finished) ongoing = NotReported) /\
    ((nops <= 1)%nat -> transferred nops (completed_after finished) ongoing = transferred 1 (completed_after finished) ongoing).
Proof. intros [|[|n]] f o; (split; [intros L; try lia; reflexivity|intros L; try lia; reflexivity]). Qed.
Print Assumptions transferred_several_ops.

(* The specification determines the number. *)
Theorem number_of_offsets_unique :
  forall rs n m, number_of_offsets rs n -> number_of_offsets rs m -> n = m.
Proof.
  intros rs n m (xs & N & I & ->) (ys & N' & I' & ->). f_equal.
  apply cov_count_unique; auto. intros x. rewrite I, I'. tauto.
Qed.
Print Assumptions number_of_offsets_unique.

Example transferred_is_union_size_ex :
  let f := [Range 100 200; Range 0 50; Range 40 110; Range 300 300] in
  let o := [Range 150 260; Range 500 501] in
  Forall well_formed f /\ Forall well_formed o /\
  transferred 1 (completed_after f) o = Bytes 261 /\
  completed_after f = [Range 0 200; Range 300 300].
Proof. cbn. repeat split; repeat constructor; cbn; unfold well_formed; cbn; lia. Qed.

(* C02: the kept ranges do not depend on the completion order ... *)
Theorem completed_order_independent :
  forall rs rs' : list range,
    Forall well_formed rs -> Permutation rs rs' ->
    completed_after rs = completed_after rs'.
Proof. exact completed_perm. Qed.
Print Assumptions completed_order_independent.

(* ... they are well formed, sorted, disjoint and not touching ... *)
Fixpoint sorted_separated (l : list range) : Prop :=
  match l with
  | [] => True
  | r :: l' =>
      start r <= stop r /\ (forall y, In y l' -> stop r < start y) /\
      sorted_separated l'
  end.

Theorem completed_sorted_separated :
  forall rs, Forall well_formed rs -> sorted_separated (completed_after rs).
Proof.
  intros rs W. destruct (fold_add_spec rs []) as (A & _ & _); cbn; auto.
  unfold completed_after. clear W. induction (fold_left rl_add rs []); cbn in *; auto.
  destruct A as (A & B & C). rewrite Forall_forall in B. repeat split; auto.
Qed.
Print Assumptions completed_sorted_separated.

(* ... they cover exactly what was transferred ... *)
Theorem completed_covers_exactly :
  forall rs x, Forall well_formed rs ->
    transferred_offset (completed_after rs) x <-> transferred_offset rs x.
Proof.
  intros rs x W. destruct (fold_add_spec rs []) as (_ & _ & V); cbn; auto.
Qed.
Print Assumptions completed_covers_exactly.

(* ... and the number of bytes reported never decreases when one more
   operation completes. *)
Theorem transferred_never_decreases :
  forall finished ongoing r n m,
    Forall well_formed finished -> Forall well_formed ongoing -> well_formed r ->
    transferred 1 (completed_after finished) ongoing = Bytes n ->
    transferred 1 (completed_after (finished ++ [r])) ongoing = Bytes m ->
    n <= m.
Proof. exact transferred_mono. Qed.
Print Assumptions transferred_never_decreases.

(* The count is also the same when an operation moves from ongoing to
   finished. *)
Theorem transferred_stable_on_completion :
  forall finished ongoing r,
    Forall well_formed finished -> Forall well_formed ongoing -> well_formed r ->
    transferred 1 (completed_after finished) (r :: ongoing) =
    transferred 1 (completed_after (finished ++ [r])) ongoing.
Proof.
  intros f o r W1 W2 W.
  destruct (transferred_spec f (r :: o)) as (xs & N & I & E); auto.
  destruct (transferred_spec (f ++ [r]) o) as (ys & N' & I' & E'); auto.
  { apply Forall_app; auto. }
  rewrite E, E'. do 2 f_equal. apply cov_count_unique; auto.
  intros x. rewrite I, I', <- app_assoc. cbn. tauto.
Qed.
Print Assumptions transferred_stable_on_completion.

Example completed_order_independent_ex :
  let rs := [Range 0 10; Range 10 20; Range 5 7; Range 30 40] in
  let rs' := [Range 30 40; Range 5 7; Range 10 20; Range 0 10] in
  Forall well_formed rs /\ Permutation rs rs' /\
  completed_after rs' = [Range 0 20; Range 30 40] /\
  completed_after rs = [Range 0 20; Range 30 40].
Proof.
  cbn. repeat split; [repeat constructor; unfold well_formed; cbn; lia|].
  apply (Permutation_rev [Range 0 10; Range 10 20; Range 5 7; Range 30 40]).
Qed.

(* Finding: with an operation whose [done] is negative (see
   get_sends_only_ticket_bytes_refuted in ImagesTheorems) the well formedness hypothesis fails and
   reporting raises ValueError. *)
Example negative_range_breaks_reporting :
  transferred 1 (completed_after [Range 100 50]) [] = ValueError.
Proof. reflexivity. Qed.
