(* Theorems about the memory backend: C16. *)
From Coq Require Import ZArith List Bool Lia.
From Verif Require Import BytesLib ExtentsModel MemoryModel MemorySpec.
Import ListNotations.
Open Scope Z_scope.

Definition handle_of (b : backend) : handle := Handle (b_mode b) (b_dirty b) (b_position b) (b_closed b).

(* the world has one bytearray, used by all backends *)
Definition same (w : world) (a : array) : Prop :=
  w_bufs w = [a_data a] /\ map handle_of (w_backends w) = a_handles a
  /\ Forall (fun b => b_buf b = 0%nat /\ 0 <= b_position b) (w_backends w).

Lemma map_set_nth {A B} (f : A -> B) i x l : map f (set_nth i x l) = set_nth i (f x) (map f l).
Proof. revert i. induction l; intros [|i]; cbn; f_equal; auto. Qed.

Lemma Forall_set_nth {A} (P : A -> Prop) i x l : Forall P l -> P x -> Forall P (set_nth i x l).
Proof. intros F X. revert i. induction F; intros [|i]; cbn; constructor; auto. Qed.

Lemma assign_in i n d l : 0 <= i -> zlen d = n -> i + n <= zlen l ->
  assign_slice i (i + n) d l = splice l i d.
Proof.
  intros I N L. unfold assign_slice. pose proof (zlen_nonneg d).
  rewrite !py_stop_nonneg by lia. replace (Z.max _ _) with (i + n) by lia. replace (Z.min i (zlen l)) with i by lia.
  destruct d as [|x d]; cbn [splice].
  - rewrite zlen_nil in N. subst n. cbn [app]. rewrite Z.add_0_r. apply take_drop.
  - replace (zeros (i - zlen l)) with (@nil byte). { rewrite app_nil_r, N. reflexivity. }
    unfold zeros. replace (Z.to_nat (i - zlen l)) with O by lia. reflexivity.
Qed.

(* extending first does not change what a write gives *)
Lemma splice_extend l i d : 0 <= i -> d <> [] -> 0 < i + zlen d - zlen l ->
  splice (l ++ zeros (i + zlen d - zlen l)) i d = splice l i d.
Proof.
  intros I D E. pose proof (zlen_nonneg l). apply bytes_ext.
  - rewrite !zlen_splice by assumption. destruct d; [congruence|]. rewrite zlen_app, zlen_zeros. lia.
  - intros j J. rewrite !getb_splice by assumption. destruct (_ && _); [reflexivity|].
    rewrite getb_app by lia. destruct (j <? zlen l) eqn:Q; [reflexivity|].
    rewrite getb_zeros. symmetry. apply getb_past. lia.
Qed.

Lemma write_same i b d w a : same w a -> nth_error (w_backends w) i = Some b ->
  d <> [] \/ b_position b <= zlen (a_data a) -> b_closed b = false ->
  let '(r, w') := write i b d w in
  let '(r', a') := (if can_write (b_mode b)
      then (inl (VInt (zlen d)), Array (splice (a_data a) (b_position b) d)
              (set_nth i (Handle (b_mode b) true (b_position b + zlen d) false) (a_handles a)))
      else (inr IOError, a)) in
  r = r' /\ same w' a'.
Proof.
  intros (S1 & S2 & S3) N D C. unfold write, writable.
  assert (B : b_buf b = 0%nat /\ 0 <= b_position b).
  { rewrite Forall_forall in S3. apply S3. eapply nth_error_In. eassumption. }
  destruct B as [B1 B2]. rewrite S1, B1. cbn [nth]. pose proof (zlen_nonneg d).
  assert (L : assign_slice (b_position b) (b_position b + zlen d) d
     (if b_position b + zlen d - zlen (a_data a) >? 0
      then a_data a ++ zeros (b_position b + zlen d - zlen (a_data a)) else a_data a)
     = splice (a_data a) (b_position b) d).
  { destruct (_ >? 0) eqn:X.
    - rewrite assign_in; [|lia|reflexivity|rewrite zlen_app, zlen_zeros; lia].
      apply splice_extend; [lia| |lia]. destruct D as [D|D]; [assumption|].
      intros ->. rewrite zlen_nil in X. lia.
    - apply assign_in; try lia. }
  destruct (b_mode b); cbn [negb can_write]; [split; [reflexivity|repeat split; assumption]| |];
    (split; [reflexivity|]; unfold same; cbn [w_bufs w_backends a_data a_handles];
     rewrite L; repeat split; [rewrite map_set_nth, S2, C; reflexivity|];
     apply Forall_set_nth; [assumption|]; cbn; lia).
Qed.

Lemma call_same i o w a : same w a -> sensible i o a ->
  fst (call i o w) = fst (spec_call i o a) /\ same (snd (call i o w)) (snd (spec_call i o a)).
Proof.
  intros SM SE. pose proof SM as (S1 & S2 & S3). unfold call, spec_call, sensible in *.
  assert (N : nth_error (a_handles a) i = option_map handle_of (nth_error (w_backends w) i))
    by (rewrite <- S2; apply nth_error_map).
  rewrite N in *. destruct (nth_error (w_backends w) i) as [b|] eqn:NB; cbn [option_map] in *; [|split; auto].
  assert (B : b_buf b = 0%nat /\ 0 <= b_position b).
  { rewrite Forall_forall in S3. apply S3. eapply nth_error_In. eassumption. }
  destruct B as [B1 B2]. rewrite S1, B1. cbn [nth]. unfold handle_of in SE |- *.
  cbn [h_mode h_pos h_dirty h_closed] in *.
  assert (UPD : forall b', b_buf b' = 0%nat -> 0 <= b_position b' ->
     same (World [a_data a] (set_nth i b' (w_backends w))) (Array (a_data a) (set_nth i (handle_of b') (a_handles a)))).
  { intros b' X1 X2. repeat split; cbn; auto; [rewrite map_set_nth, S2; reflexivity|]. apply Forall_set_nth; auto. }
  destruct o as [t|d|n|n how| | | | | | |]; cbn [fst snd] in *;
    try (destruct (b_closed b) eqn:CL; [split; [reflexivity|assumption]|]).
  - (* readinto *)
    unfold readable. pose proof (zlen_nonneg (target_data t)) as TD.
    remember (Z.min (zlen (target_data t)) (zlen (a_data a) - b_position b)) as n eqn:Hn.
    assert (PS : py_slice (b_position b) (b_position b + n) (a_data a) = sub (b_position b) (zlen (target_data t)) (a_data a)).
    { unfold py_slice. rewrite !py_stop_nonneg by lia.
      replace (Z.min (b_position b) (zlen (a_data a))) with (b_position b) by lia.
      replace (Z.min (b_position b + n) (zlen (a_data a)) - b_position b) with n by lia.
      unfold sub. rewrite Hn. clear Hn. destruct (Z_le_gt_dec (zlen (target_data t)) (zlen (a_data a) - b_position b)).
      - f_equal. lia.
      - rewrite !take_all; [reflexivity| |]; rewrite zlen_drop; lia. }
    assert (LX : zlen (sub (b_position b) (zlen (target_data t)) (a_data a)) = n).
    { rewrite zlen_sub by lia. lia. }
    rewrite PS. remember (sub (b_position b) (zlen (target_data t)) (a_data a)) as x eqn:Hx.
    assert (AS : forall y, zlen y = zlen (target_data t) -> assign_slice 0 n x y = x ++ drop (zlen x) y).
    { intros y Y. unfold assign_slice. rewrite !py_stop_nonneg by lia.
      replace (Z.min 0 (zlen y)) with 0 by lia. rewrite take_nonpos by lia. cbn [app]. f_equal. f_equal. lia. }
    assert (PL : forall y : list byte, zlen y = zlen (target_data t) -> zlen (py_slice 0 n y) = n).
    { intros y Y. unfold py_slice. rewrite !py_stop_nonneg by lia. rewrite zlen_sub by lia. lia. }
    destruct (b_mode b); cbn [can_read negb]; try (split; [reflexivity|assumption]);
      (destruct t as [y|y]; cbn [target_data assign_target] in *;
       [|rewrite PL by reflexivity; rewrite LX, Z.eqb_refl];
       rewrite AS by reflexivity; rewrite LX; cbn [fst snd]; split; [reflexivity| |reflexivity|];
       apply UPD; cbn; lia).
  - (* write *)
    pose proof (write_same i b d w a SM NB SE CL) as Q.
    destruct (write i b d w). destruct (can_write (b_mode b)); exact Q.
  - (* zero *)
    unfold writable.
    pose proof (write_same i b (zeros n) w a SM NB) as Q.
    assert (D : zeros n <> [] \/ b_position b <= zlen (a_data a)).
    { destruct SE as [SE|SE]; [left|right; assumption]. unfold zeros. destruct (Z.to_nat n) eqn:X; [lia|discriminate]. }
    specialize (Q D CL). destruct (b_mode b) eqn:M; cbn [negb can_write] in *; try (split; [reflexivity|assumption]);
      destruct (write i b (zeros n) w); exact Q.
  - (* seek *)
    destruct how; cbn [fst snd]; split; try reflexivity; apply UPD; auto.
  - split; [reflexivity|assumption].
  - split; [reflexivity|]. apply UPD; auto.
  - split; [reflexivity|assumption].
  - split; [reflexivity|assumption].
  - split; [reflexivity|assumption].
  - (* clone *)
    destruct (a_data a) as [|x l] eqn:AD; [congruence|]. cbn [fst snd]. split.
    + rewrite <- S2, map_length. reflexivity.
    + rewrite <- AD. repeat split; cbn; [rewrite map_app, S2; reflexivity|].
      apply Forall_app. split; [assumption|]. constructor; [|constructor]. cbn. lia.
  - split; [reflexivity|]. apply UPD; auto.
Qed.

(* C16: a backend opened over data, and the backends cloned from it, give the
   results of handles of one growable byte array, for every sequence of
   sensible calls. *)
Theorem memory_is_array_partial :
  forall m data prog,
  sensible_run prog (Array data [Handle m false 0 false]) ->
  fst (run prog (open m data)) = fst (spec_run prog (Array data [Handle m false 0 false]))
  /\ w_bufs (snd (run prog (open m data))) = [a_data (snd (spec_run prog (Array data [Handle m false 0 false])))].
Proof.
  intros m data prog.
  assert (G : forall prog w a, same w a -> sensible_run prog a ->
    fst (run prog w) = fst (spec_run prog a) /\ same (snd (run prog w)) (snd (spec_run prog a))).
  { clear prog. induction prog as [|[i o] prog IH]; intros w a SM SE; [split; [reflexivity|assumption]|].
    cbn [run spec_run sensible_run] in *. destruct SE as [S1 S2]. destruct (call_same i o w a SM S1) as [C1 C2].
    destruct (call i o w) as [r w1]. destruct (spec_call i o a) as [r' a1]. cbn [fst snd] in *. subst r'.
    destruct (IH w1 a1 C2 S2) as [I1 I2]. destruct (run prog w1). destruct (spec_run prog a1). cbn [fst snd] in *.
    split; [congruence|assumption]. }
  assert (I : same (open m data) (Array data [Handle m false 0 false])).
  { split; [reflexivity|]. split; [reflexivity|]. constructor; [cbn; lia|constructor]. }
  intro S. destruct (G prog _ _ I S) as [A (B & _)]. auto.
Qed.
Print Assumptions memory_is_array_partial.

(* writing after the end, reading back by a clone with a position of its own *)
Definition ex_prog : list (nat * op) :=
  [(0%nat, Clone); (0%nat, Seek 2 SEEK_END); (0%nat, Write [x0a; x0b]); (0%nat, Seek (-3) SEEK_CUR); (0%nat, Zero 2);
   (1%nat, ReadInto (Memoryview (repeat xff 8))); (1%nat, ReadInto (Bytearray [xff])); (0%nat, Close);
   (0%nat, Size); (1%nat, Size); (1%nat, Extents)].
Example memory_is_array_case :
  sensible_run ex_prog (Array [x01; x02] [Handle MRW false 0 false]) /\
  run ex_prog (open MRW [x01; x02]) =
   ([inl (VBackend 1); inl (VInt 4); inl (VInt 2); inl (VInt 3); inl (VInt 2);
     inl (VRead 6 (Memoryview [x01; x02; x00; x00; x00; x0b; xff; xff])); inl (VRead 0 (Bytearray [xff]));
     inl VNone; inr ValueError; inl (VInt 6); inl (VExtent (ZeroExtent 0 6 false false))],
    World [[x01; x02; x00; x00; x00; x0b]] [Backend MRW 0 true 5 true; Backend MRW 0 false 6 false]).
Proof. split; [vm_compute; intuition congruence|vm_compute; reflexivity]. Qed.

(* A call that raises changes nothing. *)
Theorem memory_failure_no_effect :
  forall i o w e w', call i o w = (inr e, w') -> w' = w.
Proof.
  intros i o w e w' X. unfold call, write in X.
  destruct (nth_error (w_backends w) i) as [b|]; [|congruence].
  destruct o; try (destruct (b_closed b)); try congruence;
    repeat match type of X with
    | (if ?c then _ else _) = _ => destruct c; try congruence
    | (match ?c with _ => _ end) = _ => destruct c; try congruence
    end.
  all: try (destruct (nth (b_buf b) (w_bufs w) []); cbn in X; congruence).
Qed.
Print Assumptions memory_failure_no_effect.
Example memory_failure_no_effect_case :
  call 0 (Write [x01]) (open MR [x05]) = (inr IOError, open MR [x05]).
Proof. reflexivity. Qed.

(* ---- what does not hold of arbitrary calls ---- *)

(* Reading after the end: the count is negative, the position goes back, and
   bytes are removed from the buffer of the caller. *)
Theorem memory_read_past_end_refuted :
  exists m data prog, fst (run prog (open m data)) <> fst (spec_run prog (Array data [Handle m false 0 false]))
  /\ run prog (open m data) =
     ([inl (VInt 3); inl (VRead (-2) (Bytearray [xff; xff]))], World [[x01]] [Backend MR 0 false 1 false])
  /\ prog = [(0%nat, Seek 3 SEEK_SET); (0%nat, ReadInto (Bytearray [xff; xff; xff; xff]))].
Proof.
  exists MR, [x01], [(0%nat, Seek 3 SEEK_SET); (0%nat, ReadInto (Bytearray [xff; xff; xff; xff]))].
  split; [|split; [vm_compute; reflexivity|reflexivity]]. vm_compute. discriminate.
Qed.
Print Assumptions memory_read_past_end_refuted.

(* A clone of an empty backend does not share the data. *)
Theorem memory_clone_empty_refuted :
  exists prog, fst (run prog (open MRW [])) <> fst (spec_run prog (Array [] [Handle MRW false 0 false]))
  /\ fst (run prog (open MRW [])) = [inl (VBackend 1); inl (VInt 1); inl (VBytes [])].
Proof.
  exists [(0%nat, Clone); (0%nat, Write [x01]); (1%nat, Data)].
  split; [vm_compute; discriminate|vm_compute; reflexivity].
Qed.
Print Assumptions memory_clone_empty_refuted.

(* Writing nothing after the end extends the data. *)
Theorem memory_empty_write_refuted :
  exists prog, fst (run prog (open MRW [])) <> fst (spec_run prog (Array [] [Handle MRW false 0 false]))
  /\ fst (run prog (open MRW [])) = [inl (VInt 2); inl (VInt 0); inl (VBytes [x00; x00])].
Proof.
  exists [(0%nat, Seek 2 SEEK_SET); (0%nat, Write []); (0%nat, Data)].
  split; [vm_compute; discriminate|vm_compute; reflexivity].
Qed.
Print Assumptions memory_empty_write_refuted.

(* Positions before the start are accepted, and count from the end. *)
Theorem memory_negative_seek_refuted :
  exists prog, fst (run prog (open MR [x01; x02; x03])) =
    [inl (VInt (-1)); inl (VRead 2 (Bytearray []))] /\
  prog = [(0%nat, Seek (-1) SEEK_SET); (0%nat, ReadInto (Bytearray [xff; xff]))].
Proof.
  eexists. split; [|reflexivity]. vm_compute. reflexivity.
Qed.
Print Assumptions memory_negative_seek_refuted.
