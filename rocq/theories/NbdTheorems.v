(* Theorems about the NBD client: C26, C27, C28, C29. *)
From Coq Require Import ZArith List Bool String Lia.
From Coq.Init Require Import Byte.
From Verif Require Import BytesLib NbdModel NbdSpec NbdProofs.
Import ListNotations.
Open Scope Z_scope.

Ltac enc := repeat lazymatch goal with
  | |- _ /\ _ => split
  | |- u _ _ _ => split; vm_compute; reflexivity
  | |- Forall _ _ => constructor
  | |- payload_bytes _ _ _ => constructor
  | |- descs_bytes _ _ => constructor
  | |- _ = _ => vm_compute; reflexivity end.

(* ---- C26: commands ---- *)

(* Whatever operations are called one after the other, and whatever the
   server answers, the client sends exactly the messages the protocol demands,
   with handles counting from the current one. *)
Theorem commands_sent :
  forall v k l s,
  can_send v -> Forall fits l -> 0 <= s_counter s -> s_counter s + zlen l <= 2 ^ 64 ->
  exists d, all_sent k (s_counter s) l (s_counter (run_ops v k l s)) d
            /\ s_out (run_ops v k l s) = s_out s ++ d.
Proof.
  intros v k l s V F C1 C2. revert s C1 C2.
  induction l as [|o l IH]; intros s C1 C2.
  - exists []. split; [constructor|]. cbn. rewrite app_nil_r. auto.
  - inversion F as [|x y F1 F2]; subst x y. rewrite zlen_cons in C2. pose proof (zlen_nonneg l).
    unfold run_ops in *. cbn [fold_left].
    destruct (demanded k o) as [[[[[fl ty] off] len] data]|] eqn:D.
    + destruct (op_start v k o s fl ty off len data) as (b & i & R & _ & E); auto; [lia|].
      rewrite E.
      destruct (keeps_reply v k (fun s' => s_out s' = s_out s ++ b ++ data /\ s_counter s' = s_counter s + 1))
        with (h := s_counter s) (offset := off) (s := started k o s (b ++ data) i) as [[K1 K2] _]; auto.
      remember (snd (recv_reply v k (s_counter s) off (started k o s (b ++ data) i))) as s1 eqn:S1.
      destruct (IH F2 s1) as (d & A & B); [lia|lia|].
      exists (b ++ data ++ d). split.
      * eapply sent_one; eauto. rewrite <- K2. auto.
      * rewrite B, K1, <- !app_assoc. reflexivity.
    + rewrite op_skip by auto. destruct (IH F2 s) as (d & A & B); [lia|lia|].
      exists d. split; auto. apply sent_skip; auto.
Qed.
Print Assumptions commands_sent.

(* A message has one meaning only; in particular messages with different
   handles are different. *)
Theorem request_decoding :
  forall f t h o n f' t' h' o' n' l,
  request_bytes f t h o n l -> request_bytes f' t' h' o' n' l ->
  f = f' /\ t = t' /\ h = h' /\ o = o' /\ n = n'.
Proof.
  intros f t h o n f' t' h' o' n' l
    (a & b & c & d & e & g & -> & [A _] & [B B'] & [C C'] & [D D'] & [E E'] & [G G'])
    (a1 & b1 & c1 & d1 & e1 & g1 & L & [A1 _] & [B1 B1'] & [C1 C1'] & [D1 D1'] & [E1 E1'] & [G1 G1']).
  assert (X : forall (x x1 y y1 : list byte), zlen x = zlen x1 -> x ++ y = x1 ++ y1 -> x = x1 /\ y = y1).
  { intros x x1 y y1 Z0 Q. unfold zlen in Z0. split.
    - apply (f_equal (firstn (List.length x))) in Q. rewrite firstn_app, firstn_all, Nat.sub_diag in Q.
      cbn in Q. rewrite app_nil_r in Q. rewrite Q. rewrite firstn_app, firstn_all2 by lia.
      replace (List.length x - List.length x1)%nat with O by lia. cbn. apply app_nil_r.
    - apply (f_equal (skipn (List.length x))) in Q. rewrite skipn_app, skipn_all, Nat.sub_diag in Q.
      cbn in Q. rewrite Q. rewrite skipn_app, skipn_all2 by lia.
      replace (List.length x - List.length x1)%nat with O by lia. reflexivity. }
  apply X in L as [_ L]; [|lia]. apply X in L as [-> L]; [|lia]. apply X in L as [-> L]; [|lia].
  apply X in L as [-> L]; [|lia]. apply X in L as [-> L]; [|lia]. subst g1.
  repeat split; congruence.
Qed.
Print Assumptions request_decoding.

(* A request that does not fit in the message is not sent at all. *)
Theorem oversized_request_not_sent :
  forall v k s o,
  ~ fits o -> 0 <= s_counter s < 2 ^ 64 -> demanded k o <> None ->
  fst (do_op v k o s) = inr StructError /\ s_out (snd (do_op v k o s)) = s_out s.
Proof.
  intros v k s o F C D.
  assert (T : forall fl ty h off len, ~ (0 <= off < 2 ^ 64 /\ 0 <= len < 2 ^ 32) ->
                to_bytes fl ty h off len = inr StructError).
  { intros fl ty h off len N. unfold to_bytes, pack. change (256 ^ Z.of_nat 8) with (2 ^ 64).
    change (256 ^ Z.of_nat 4) with (2 ^ 32).
    destruct ((0 <=? REQUEST_MAGIC) && _); auto. destruct (_ && _); auto. destruct (_ && _); auto.
    destruct (_ && _); auto. destruct ((0 <=? off) && (off <? 2 ^ 64)) eqn:E1; auto.
    destruct ((0 <=? len) && (len <? 2 ^ 32)) eqn:E2; auto. lia. }
  destruct o; cbn [fits] in F; cbn [demanded] in D; cbn [do_op].
  - unfold readinto, new_command, send_command, bind, lift. pose proof (zlen_nonneg buf). rewrite T by lia. auto.
  - unfold write, new_command, send_command, bind, lift. pose proof (zlen_nonneg data). rewrite T by lia. auto.
  - unfold zero. change FLAG_SEND_WRITE_ZEROES with (2 ^ 6). rewrite land_pow2 by lia.
    destruct (Z.testbit (k_tflags k) 6); [|congruence]. cbn [negb].
    unfold new_command, send_command, bind, lift. rewrite T by lia. auto.
  - tauto.
  - unfold extents, new_command, send_command, bind, lift. rewrite T by lia. auto.
Qed.
Print Assumptions oversized_request_not_sent.

(* ---- C27: reading ---- *)

(* Structured reply: chunks in any number, order, size, also overlapping; all
   true and covering the request. *)
Theorem structured_read :
  forall v k s img offset buf cs l r,
  can_send v -> k_structured k = true -> fits (ORead offset buf) -> 0 <= s_counter s < 2 ^ 64 ->
  offset + zlen buf <= zlen img ->
  reply_bytes (s_counter s) cs l -> s_in s = l ++ r ->
  Forall (truthful img offset (zlen buf)) cs ->
  (forall i, offset <= i < offset + zlen buf -> Exists (fun c => covers c i) cs) ->
  exists s', readinto v k offset buf s = (inl tt, s')
    /\ s_buf s' = Some (sub offset (zlen buf) img) /\ s_in s' = r.
Proof.
  intros v k s img offset buf cs l r V K F C B R I T CV.
  destruct (op_start v k (ORead offset buf) s 0 0 offset (zlen buf) []) as (b & i & _ & _ & E); auto.
  cbn [do_op] in E. rewrite E.
  destruct (recv_reply_spec v k (s_counter s) offset cs l (started k (ORead offset buf) s (b ++ []) i) r) as [j J]; auto.
  { apply Forall_forall. intros c X. rewrite Forall_forall in T. specialize (T c X).
    destruct c; cbn [truthful acceptable] in *; try contradiction; auto; exists buf; intuition. }
  rewrite J.
  destruct (outcome_read k img offset (zlen buf) cs (set_structured (started k (ORead offset buf) s (b ++ []) i)) buf)
    as (buf' & O1 & O2 & O3 & O4); auto.
  rewrite O1. eexists. split; [reflexivity|]. cbn [s_buf set_in s_in]. rewrite O2. split; auto. f_equal.
  destruct F as [F1 F2]. pose proof (zlen_nonneg buf).
  apply bytes_ext.
  - rewrite zlen_sub. lia.
  - intros x X. rewrite getb_sub by lia. replace (x <? zlen buf) with true by lia.
    apply O4; [lia|]. apply CV. lia.
Qed.
Print Assumptions structured_read.

(* Simple reply, when structured replies were not negotiated. *)
Theorem simple_read :
  forall v k s offset buf data l r,
  can_send v -> k_structured k = false -> fits (ORead offset buf) -> 0 <= s_counter s < 2 ^ 64 ->
  zlen data = zlen buf -> simple_bytes 0 (s_counter s) data l -> s_in s = l ++ r ->
  exists s', readinto v k offset buf s = (inl tt, s') /\ s_buf s' = Some data /\ s_in s' = r.
Proof.
  intros v k s offset buf data l r V K F C L B I.
  destruct (op_start v k (ORead offset buf) s 0 0 offset (zlen buf) []) as (b & i & _ & _ & E); auto.
  cbn [do_op] in E. rewrite E.
  destruct (recv_simple_ok v k (s_counter s) offset (started k (ORead offset buf) s (b ++ []) i) r l data) as [j J]; auto.
  rewrite J. eexists. split; [reflexivity|]. auto.
Qed.
Print Assumptions simple_read.

(* Whatever the server sends, the length of the buffer of the caller does not
   change, and the number of rounds is bounded by the bytes received. *)
Theorem read_keeps_buffer_size :
  forall v k s offset buf b',
  s_buf (snd (readinto v k offset buf s)) = Some b' -> s_buf s = None \/ s_buf s = Some buf ->
  zlen b' = zlen buf.
Proof.
  intros v k s offset buf b' E S0. unfold readinto, new_command in E.
  unfold bind at 1 in E. unfold bind at 1 in E. unfold send_command, bind at 1, lift in E.
  destruct (to_bytes _ _ _ _ _) as [bs|e].
  2:{ cbn in E. congruence. }
  unfold send in E. cbn [s_tick] in E.
  destruct (v_send v (s_tick s)); [cbn in E; congruence|].
  match type of E with s_buf (snd (recv_reply ?vv ?kk ?hh ?oo ?xx)) = _ =>
    destruct (keeps_reply v k (fun s' => exists y, s_buf s' = Some y /\ zlen y = zlen buf))
      with (h := hh) (offset := oo) (s := xx) as [[y [Y1 Y2]] _] end; auto.
  - intros s1 b1 a d [y [Y1 Y2]] Q A1 A2. rewrite Y1 in Q. injection Q as <-.
    eexists. split; [reflexivity|]. rewrite zlen_splice_in; lia.
  - exists buf. auto.
  - congruence.
Qed.
Print Assumptions read_keeps_buffer_size.

(* Whatever the server sends, the loops end before the rounds the model gives
   them are used up. *)
Theorem op_never_out_of_fuel :
  forall v k o s, fst (do_op v k o s) <> inr OutOfFuel.
Proof.
  intros v k o s.
  assert (R : forall h offset s, fst (recv_reply v k h offset s) <> inr OutOfFuel).
  { intros h offset s1. apply (keeps_reply v k (fun _ => True)); auto. }
  assert (T : forall fl ty h off len, to_bytes fl ty h off len <> inr OutOfFuel).
  { intros. unfold to_bytes, pack. repeat (destruct (_ && _); try discriminate). }
  assert (S0 : forall fl ty h off len (m : M unit) s, (forall s, fst (m s) <> inr OutOfFuel) ->
            fst (bind (send_command v fl ty h off len) (fun _ => m) s) <> inr OutOfFuel).
  { intros fl ty h off len m s1 H. unfold send_command, bind, lift, send.
    specialize (T fl ty h off len). destruct (to_bytes fl ty h off len); [|cbn; congruence].
    destruct (v_send v (s_tick s1)); [discriminate|]. apply H. }
  destruct o; cbn [do_op].
  - apply (S0 0 0 (s_counter s)). auto.
  - apply (S0 0 1 (s_counter s) offset (zlen data) (bind (send v data) (fun _ => recv_reply v k (s_counter s) offset))).
    intros s1. unfold bind, send. destruct (v_send v (s_tick s1)); [discriminate|]. apply R.
  - unfold zero. destruct (_ =? 0); [discriminate|]. apply (S0 _ 6 (s_counter s)). auto.
  - unfold flush. destruct (_ =? 0); [discriminate|]. apply (S0 _ 3 (s_counter s)). auto.
  - unfold extents, send_command, bind, lift, send, new_command. cbn [s_tick].
    specialize (T 0 7 (s_counter s) offset length). destruct (to_bytes 0 7 (s_counter s) offset length); [|cbn; congruence].
    destruct (v_send v (s_tick s)); [discriminate|].
    match goal with |- context [recv_reply v k ?hh ?oo ?xx] => specialize (R hh oo xx); destruct (recv_reply v k hh oo xx) as [[[]|] s3] end.
    + discriminate.
    + cbn in *. congruence.
Qed.
Print Assumptions op_never_out_of_fuel.

(* The client does not check that the chunks cover the buffer: a reply
   which is wrong only by leaving out bytes is reported as success, with old
   content of the buffer. (Such a server does not follow the protocol.) *)
Theorem read_checks_cover_refuted :
  exists v k s img offset buf cs l s',
  can_send v /\ k_structured k = true /\ fits (ORead offset buf)
  /\ offset + zlen buf <= zlen img /\ reply_bytes (s_counter s) cs l /\ s_in s = l
  /\ Forall (truthful img offset (zlen buf)) cs
  /\ readinto v k offset buf s = (inl tt, s') /\ s_buf s' <> Some (sub offset (zlen buf) img).
Proof.
  set (l := be 4 0x668e33ef ++ be 2 1 ++ be 2 0 ++ be 8 7 ++ be 4 0 ++ []).
  set (k := Client true (fun _ => None) None 1 2 0).
  set (s := St l [] 0 7 None false [] None).
  exists (Env (fun _ => 3) (fun _ => None)), k, s, [x01; x02], 0, [xff; xff], [CNone], l.
  eexists. split; [intros i; reflexivity|]. split; [reflexivity|]. split; [cbv; intuition discriminate|].
  split; [cbv; discriminate|]. split; [|split; [reflexivity|split; [repeat constructor|split; [vm_compute; reflexivity|]]]].
  - apply last_chunk. exists (be 4 0x668e33ef), (be 2 1), 0, (be 8 7), (be 4 0), (be 2 0), [], 1.
    enc.
  - vm_compute. discriminate.
Qed.
Print Assumptions read_checks_cover_refuted.

(* ---- C28: failed requests ---- *)

(* Structured reply containing an error, possibly mixed with other chunks
   answering the request (an error chunk for the whole request being last):
   the caller gets an error, and exactly the reply was consumed. *)
Theorem failed_request_consumes_reply_partial :
  forall v k s o cs l r,
  can_send v -> k_structured k = true -> fits o -> 0 <= s_counter s < 2 ^ 64 -> demanded k o <> None ->
  reply_bytes (s_counter s) cs l -> s_in s = l ++ r ->
  Exists is_error cs -> Forall (fun c => is_error c \/ answers k o c) cs ->
  exists e s', do_op v k o s = (inr e, s') /\ s_in s' = r
    /\ (e = RequestError \/ exists code, e = ReplyError code /\ 0 < code).
Proof.
  intros v k s o cs l r V K F C D R I EX FA.
  destruct (demanded k o) as [[[[[fl ty] off] len] data]|] eqn:DM; [|congruence].
  destruct (op_start v k o s fl ty off len data) as (b & i & _ & -> & E); auto. rewrite E.
  destruct (recv_reply_spec v k (s_counter s) (op_offset o) cs l (started k o s (b ++ data) i) r) as [j J]; auto.
  { apply Forall_forall. intros c X. rewrite Forall_forall in FA. destruct (FA c X) as [Y|Y].
    - apply error_acceptable; auto.
    - apply answers_acceptable; auto. }
  rewrite J.
  destruct (outcome_error k (op_offset o) cs (set_structured (started k o s (b ++ data) i))) as [O|(code & O & P)].
  - auto.
  - apply Forall_forall. intros c X. rewrite Forall_forall in FA. destruct (FA c X) as [Y|Y]; auto.
    right. intros x m ->. destruct o; cbn in Y; contradiction.
  - rewrite O. eexists _, _. split; [reflexivity|]. auto.
  - rewrite O. eexists _, _. split; [reflexivity|]. split; auto. right. eauto.
Qed.
Print Assumptions failed_request_consumes_reply_partial.

(* Simple reply with an error. *)
Theorem failed_request_consumes_simple_reply_partial :
  forall v k s o l r code,
  can_send v -> fits o -> 0 <= s_counter s < 2 ^ 64 -> demanded k o <> None ->
  match o with ORead _ _ => k_structured k = false | OExtents _ _ => False | _ => True end ->
  simple_bytes code (s_counter s) [] l -> s_in s = l ++ r -> 0 < code < 2 ^ 31 ->
  exists s', do_op v k o s = (inr (ReplyError code), s') /\ s_in s' = r.
Proof.
  intros v k s o l r code V F C D M B I CD.
  destruct (demanded k o) as [[[[[fl ty] off] len] data]|] eqn:DM; [|congruence].
  destruct (op_start v k o s fl ty off len data) as (b & i & _ & -> & E); auto. rewrite E.
  destruct (recv_simple_error v k (s_counter s) (op_offset o) (started k o s (b ++ data) i) r l code (s_counter s)) as [j J]; auto.
  { destruct o; cbn; auto. contradiction. }
  rewrite J. eexists. split; [reflexivity|]. reflexivity.
Qed.
Print Assumptions failed_request_consumes_simple_reply_partial.

(* After a failed request the next read works. *)
Theorem read_after_failed_request :
  forall v k s o cs1 l1 img offset buf cs2 l2 r,
  can_send v -> k_structured k = true -> 0 <= s_counter s < 2 ^ 64 - 1 ->
  fits o -> demanded k o <> None ->
  reply_bytes (s_counter s) cs1 l1 -> Exists is_error cs1 -> Forall (fun c => is_error c \/ answers k o c) cs1 ->
  fits (ORead offset buf) -> offset + zlen buf <= zlen img ->
  reply_bytes (s_counter s + 1) cs2 l2 -> Forall (truthful img offset (zlen buf)) cs2 ->
  (forall i, offset <= i < offset + zlen buf -> Exists (fun c => covers c i) cs2) ->
  s_in s = l1 ++ l2 ++ r ->
  exists e s1 s2, do_op v k o s = (inr e, s1)
    /\ readinto v k offset buf s1 = (inl tt, s2)
    /\ s_buf s2 = Some (sub offset (zlen buf) img) /\ s_in s2 = r.
Proof.
  intros v k s o cs1 l1 img offset buf cs2 l2 r V K C F D R1 E1 F1 F2 B R2 T2 CV I.
  destruct (failed_request_consumes_reply_partial v k s o cs1 l1 (l2 ++ r)) as (e & s1 & X & Y & _); auto; [lia|].
  assert (s_counter s1 = s_counter s + 1) as CT.
  { destruct (demanded k o) as [[[[[fl ty] off] len] data]|] eqn:DM; [|congruence].
    destruct (op_start v k o s fl ty off len data) as (b & i & _ & -> & E); auto; [lia|].
    rewrite E in X.
    destruct (keeps_reply v k (fun s' => s_counter s' = s_counter s + 1))
      with (h := s_counter s) (offset := op_offset o) (s := started k o s (b ++ data) i) as [KK _]; auto.
    rewrite X in KK. auto. }
  destruct (structured_read v k s1 img offset buf cs2 l2 r) as (s2 & Z1 & Z2 & Z3); auto.
  - lia.
  - rewrite CT. auto.
  - exists e, s1, s2. auto.
Qed.
Print Assumptions read_after_failed_request.


(* The reply to a failed block status command may be a simple reply, as it has
   no payload (see nbd.py:567-569). The client does not accept this, and
   leaves the reply in the connection. *)
Theorem failed_request_consumes_simple_reply_refuted :
  exists v k s o l code s',
  can_send v /\ fits o /\ k_structured k = true /\ 0 <= s_counter s < 2 ^ 64 /\ demanded k o <> None
  /\ match o with ORead _ _ => False | _ => True end
  /\ simple_bytes code (s_counter s) [] l /\ s_in s = l /\ 0 < code < 2 ^ 31
  /\ do_op v k o s = (inr ProtocolError, s') /\ s_in s' <> [].
Proof.
  set (l := be 4 0x67446698 ++ be 4 22 ++ be 8 7 ++ []).
  exists (Env (fun _ => 3) (fun _ => None)), (Client true (fun _ => None) None 1 2 0),
    (St l [] 0 7 None false [] None), (OExtents 0 2), l, 22.
  eexists. split; [intros i; reflexivity|]. split; [cbv; intuition discriminate|]. split; [reflexivity|].
  split; [cbv; intuition discriminate|]. split; [discriminate|]. split; [exact I|].
  split; [|split; [reflexivity|split; [lia|split; [vm_compute; reflexivity|vm_compute; discriminate]]]].
  exists (be 4 0x67446698), (be 4 22), (be 8 7). enc.
Qed.
Print Assumptions failed_request_consumes_simple_reply_refuted.

(* An error chunk for the whole request that is not the last chunk: the client
   gives up in the middle of the reply; the connection is not closed. *)
Theorem failed_request_consumes_reply_refuted :
  exists v k s o h l1 l2 s',
  can_send v /\ fits o /\ k_structured k = true /\ h = s_counter s /\ demanded k o <> None
  /\ chunk_bytes h false (CError 22 []) l1 /\ chunk_bytes h true CNone l2 /\ s_in s = l1 ++ l2
  /\ do_op v k o s = (inr ProtocolError, s') /\ s_in s' = l2.
Proof.
  set (l1 := be 4 0x668e33ef ++ be 2 0 ++ be 2 32769 ++ be 8 7 ++ be 4 6 ++ (be 4 22 ++ be 2 0 ++ [])).
  set (l2 := be 4 0x668e33ef ++ be 2 1 ++ be 2 0 ++ be 8 7 ++ be 4 0 ++ []).
  exists (Env (fun _ => 3) (fun _ => None)), (Client true (fun _ => None) None 1 2 0),
    (St (l1 ++ l2) [] 0 7 None false [] None), (ORead 0 [x00]), 7, l1, l2.
  eexists. split; [intros i; reflexivity|]. split; [cbv; intuition discriminate|]. split; [reflexivity|].
  split; [reflexivity|]. split; [discriminate|].
  split; [|split; [|split; [reflexivity|split; [vm_compute; reflexivity|reflexivity]]]].
  - exists (be 4 0x668e33ef), (be 2 0), 32769, (be 8 7), (be 4 6), (be 2 32769), (be 4 22 ++ be 2 0 ++ []), 0.
    enc.
  - exists (be 4 0x668e33ef), (be 2 1), 0, (be 8 7), (be 4 0), (be 2 0), [], 1.
    enc.
Qed.
Print Assumptions failed_request_consumes_reply_refuted.

(* An error code of 2^31 or more in an error offset chunk makes os.strerror()
   fail, and the rest of the reply stays in the connection. *)
Theorem failed_request_big_code_refuted :
  exists v k s o h l1 l2 s',
  can_send v /\ fits o /\ k_structured k = true /\ h = s_counter s /\ demanded k o <> None
  /\ chunk_bytes h false (CErrorOffset (2 ^ 31) [] 0) l1 /\ chunk_bytes h true CNone l2 /\ s_in s = l1 ++ l2
  /\ do_op v k o s = (inr OverflowError, s') /\ s_in s' = l2.
Proof.
  set (l1 := be 4 0x668e33ef ++ be 2 0 ++ be 2 32770 ++ be 8 7 ++ be 4 14 ++ (be 4 (2 ^ 31) ++ be 2 0 ++ [] ++ be 8 0)).
  set (l2 := be 4 0x668e33ef ++ be 2 1 ++ be 2 0 ++ be 8 7 ++ be 4 0 ++ []).
  exists (Env (fun _ => 3) (fun _ => None)), (Client true (fun _ => None) None 1 2 0),
    (St (l1 ++ l2) [] 0 7 None false [] None), (ORead 0 [x00]), 7, l1, l2.
  eexists. split; [intros i; reflexivity|]. split; [cbv; intuition discriminate|]. split; [reflexivity|].
  split; [reflexivity|]. split; [discriminate|].
  split; [|split; [|split; [reflexivity|split; [vm_compute; reflexivity|reflexivity]]]].
  - exists (be 4 0x668e33ef), (be 2 0), 32770, (be 8 7), (be 4 14), (be 2 32770), (be 4 (2 ^ 31) ++ be 2 0 ++ [] ++ be 8 0), 0.
    enc.
  - exists (be 4 0x668e33ef), (be 2 1), 0, (be 8 7), (be 4 0), (be 2 0), [], 1.
    enc.
Qed.
Print Assumptions failed_request_big_code_refuted.

(* ---- C29: block status ---- *)

(* A reply to block status consisting of status chunks: for each context the
   dictionary has the extents of its last chunk, one for each descriptor, in
   order. *)
Theorem block_status_decoded :
  forall v k s offset length cs l r,
  can_send v -> k_structured k = true -> fits (OExtents offset length) -> 0 <= s_counter s < 2 ^ 64 ->
  reply_bytes (s_counter s) cs l -> s_in s = l ++ r ->
  Forall (answers k (OExtents offset length)) cs ->
  exists d s', extents v k offset length s = (inl d, s') /\ s_in s' = r /\
  (forall cs1 i ds cs2 name c,
     cs = cs1 ++ CStatus i ds :: cs2 -> k_meta k i = Some name -> kind_of k name c ->
     (forall j ds', In (CStatus j ds') cs2 -> k_meta k j <> Some name) ->
     assoc name d = Some (extents_of c ds)) /\
  (forall name, (forall i ds, In (CStatus i ds) cs -> k_meta k i <> Some name) -> assoc name d = None).
Proof.
  intros v k s offset length cs l r V K F C R I FA.
  destruct (op_start v k (OExtents offset length) s 0 7 offset length []) as (b & i & _ & _ & E); auto.
  destruct (recv_reply_spec v k (s_counter s) offset cs l (started k (OExtents offset length) s (b ++ []) i) r) as [j J]; auto.
  { apply Forall_forall. intros c X. rewrite Forall_forall in FA.
    apply (answers_acceptable k (OExtents offset length)); auto. }
  rewrite J in E.
  destruct (outcome_status k offset cs (set_structured (started k (OExtents offset length) s (b ++ []) i)) []) as [O1 O2]; auto.
  { apply Forall_forall. intros c X. rewrite Forall_forall in FA. specialize (FA c X).
    destruct c; cbn in FA; try contradiction; auto. tauto. }
  rewrite O1 in E. cbn [do_op] in E.
  destruct (extents v k offset length s) as [[d|e] s'] eqn:X; [|discriminate].
  injection E as E. exists d, s'. split; auto. split; [rewrite E; reflexivity|].
  assert (D : s_reply s' = Some d).
  { unfold extents in X. revert X. unfold bind.
    destruct (new_command None true (Some []) s) as [[h|] s1] eqn:N; [|discriminate].
    destruct (send_command v 0 7 h offset length s1) as [[[]|] s2]; [|discriminate].
    destruct (recv_reply v k h offset s2) as [[[]|] s3]; [|discriminate].
    cbn. intros [= <- <-]. injection N as <- <-.
    assert (s_reply s3 = s_reply (snd (outcome k offset cs (set_structured (started k (OExtents offset length) s (b ++ []) i))))).
    { rewrite E. reflexivity. }
    rewrite H, O2. reflexivity. }
  rewrite E in D. cbn [s_reply set_in] in D. rewrite O2 in D. injection D as <-. rewrite app_nil_r.
  split.
  - intros cs1 i0 ds cs2 name c -> KM KD NL.
    rewrite flat_map_app. cbn [flat_map]. rewrite KM, !rev_app_distr. cbn [rev app].
    rewrite <- !app_assoc, assoc_app. rewrite assoc_none.
    + cbn [app assoc]. rewrite String.eqb_refl. rewrite (context_of_kind k name c) by auto. reflexivity.
    + apply Forall_forall. intros p P. apply in_rev, in_flat_map in P as (q & Q1 & Q2).
      destruct q; cbn in Q2; try contradiction. destruct (k_meta k id) as [nm|] eqn:KN; [|contradiction].
      destruct Q2 as [<-|[]]. cbn. intros ->. eapply NL; eauto.
  - intros name NL. apply assoc_none.
    apply Forall_forall. intros p P. apply in_rev, in_flat_map in P as (q & Q1 & Q2).
    destruct q; cbn in Q2; try contradiction. destruct (k_meta k id) as [nm|] eqn:KN; [|contradiction].
    destruct Q2 as [<-|[]]. cbn. intros ->. eapply NL; eauto.
Qed.
Print Assumptions block_status_decoded.

(* Whatever the server sends: if extents() succeeds each context has at least
   one extent, no extent is empty, and lengths are multiples of the minimum
   block size. *)
Theorem extents_well_formed :
  forall v k s offset length d s' name l,
  extents v k offset length s = (inl d, s') -> In (name, l) d ->
  l <> [] /\ Forall (fun e => 0 < e_length e /\ e_length e mod k_minblock k = 0) l.
Proof.
  intros v k s offset length d s' name l X IN. unfold extents in X. revert X. unfold bind.
  destruct (new_command None true (Some []) s) as [[h|] s1] eqn:N; [|discriminate].
  injection N as <- <-.
  unfold send_command, bind, lift, send.
  destruct (to_bytes _ _ _ _ _) as [bs|]; [|discriminate].
  cbn [s_tick]. destruct (v_send v (s_tick s)); [discriminate|].
  match goal with |- context [recv_reply ?vv ?kk ?hh ?oo ?xx] =>
    destruct (keeps_reply v k (fun s' => forall r, s_reply s' = Some r -> Forall (fun p => good_list k (snd p)) r))
      with (h := hh) (offset := oo) (s := xx) as [K0 _]; auto;
    [| |destruct (recv_reply vv kk hh oo xx) as [[[]|] s3]; [|discriminate]] end.
  - intros s2 nm l2 r2 P2 SR G r3 [= <-]. constructor; auto.
  - intros r [= <-]. constructor.
  - cbn. intros [= <- <-]. cbn [snd] in K0. destruct (s_reply s3) as [r|]; [|contradiction].
    specialize (K0 r eq_refl). rewrite Forall_forall in K0. apply (K0 (name, l) IN).
Qed.
Print Assumptions extents_well_formed.

(* A block status payload whose length is not 4 + 8 n with n >= 1 is rejected
   with a protocol error, whatever it contains. *)
Theorem malformed_status_rejected :
  forall v k s offset length a b f d e x fl r,
  can_send v -> k_structured k = true -> fits (OExtents offset length) -> 0 <= s_counter s < 2 ^ 64 ->
  s_in s = (a ++ b ++ f ++ d ++ e ++ x) ++ r ->
  u 4 0x668e33ef a -> u 2 fl b -> u 2 5 f -> u 8 (s_counter s) d -> u 4 (zlen x) e ->
  (forall n, 1 <= n -> zlen x <> 4 + 8 * n) ->
  exists s', extents v k offset length s = (inr ProtocolError, s').
Proof.
  intros v k s offset length a b f d e x fl r V K F C I A B T D E N.
  destruct (op_start v k (OExtents offset length) s 0 7 offset length []) as (rb & i & _ & _ & EQ); auto.
  cbn [do_op] in EQ.
  assert (RR : exists s', recv_reply v k (s_counter s) offset (started k (OExtents offset length) s (rb ++ []) i)
                          = (inr ProtocolError, s')).
  { unfold recv_reply. cbn [recv_reply_loop].
    assert (zlen a = 4) as LA by apply A. assert (zlen b = 2) as LB by apply B.
    assert (zlen d = 8) as LD by apply D. assert (zlen e = 4) as LE by apply E. assert (zlen f = 2) as LF by apply T.
    remember (started k (OExtents offset length) s (rb ++ []) i) as s0 eqn:S0.
    destruct (recv_app v 4 s0 a ((b ++ f ++ d ++ e) ++ (x ++ r))) as [j R1]; auto.
    { subst s0. cbn [s_in started]. rewrite I, <- !app_assoc. reflexivity. }
    rewrite (bind_inl _ _ _ _ _ R1). rewrite (unbe_u 4 _ a A).
    match goal with |- context [bind get _ ?y] => rewrite (bind_inl get _ y y y) by reflexivity end.
    ceq. cbn iota. rewrite K. cbn [negb].
    match goal with |- context [bind (fun s => (inl tt, set_structured s)) _ ?y] =>
      rewrite (bind_inl _ _ y tt (set_structured y)) by reflexivity end.
    unfold recv_reply_chunk. rewrite bind_bind.
    match goal with |- context [bind (recv v 16) _ ?y] =>
      destruct (recv_app v 16 y (b ++ f ++ d ++ e) (x ++ r)) as [q Q] end.
    { rewrite !zlen_app. lia. }
    { reflexivity. }
    rewrite (bind_inl _ _ _ _ _ Q).
    rewrite (field_first b _ 2 fl) by auto.
    rewrite (field_mid b f (d ++ e) 2 2 5) by auto.
    replace (field 4 8 (b ++ f ++ d ++ e)) with (s_counter s).
    2:{ symmetry. rewrite app_assoc. apply (field_mid (b ++ f) d e); auto. rewrite zlen_app. lia. }
    replace (field 12 4 (b ++ f ++ d ++ e)) with (zlen x).
    2:{ symmetry. rewrite !app_assoc. apply field_end; auto. rewrite !zlen_app. lia. }
    rewrite Z.eqb_refl. cbn [negb]. ceq. cbn iota.
    unfold handle_block_status_chunk.
    assert (((zlen x / 8 =? 0) || negb (zlen x mod 8 =? 4)) = true) as ->.
    { destruct (zlen x / 8 =? 0) eqn:Q1; auto. cbn. destruct (zlen x mod 8 =? 4) eqn:Q2; auto. exfalso.
      apply Z.eqb_neq in Q1. apply Z.eqb_eq in Q2. apply (N (zlen x / 8)).
      - pose proof (Z.div_pos (zlen x) 8 (zlen_nonneg x)). lia.
      - pose proof (Z.div_mod (zlen x) 8). lia. }
    eexists. reflexivity. }
  destruct RR as [s' RR]. rewrite RR in EQ. destruct (extents v k offset length s) as [[z|z] s2]; [discriminate|].
  injection EQ as -> ->. eauto.
Qed.
Print Assumptions malformed_status_rejected.

(* ---- concrete cases ---- *)

(* A client with two contexts; the connection gives 3 bytes at a time. *)
Definition ex_env := Env (fun _ => 3) (fun _ => None).
Definition ex_client := Client true
  (fun i => if i =? 1 then Some "base:allocation"%string
            else if i =? 2 then Some "qemu:dirty-bitmap:b"%string else None)
  (Some "qemu:dirty-bitmap:b"%string) 2 8 64.
Definition ex_state (l : list byte) := St l [] 0 7 None false [] None.
Lemma ex_can_send : can_send ex_env. Proof. intros i. reflexivity. Qed.

(* The encoding of a chunk with payload x. *)
Definition ex_chunk (h fl ty : Z) (x : list byte) :=
  be 4 0x668e33ef ++ be 2 fl ++ be 2 ty ++ be 8 h ++ be 4 (zlen x) ++ x.

(* commands_sent: a read, a write, a zero and a flush the server does not
   support, against a server answering garbage. *)
Example commands_sent_case :
  let l := [ORead 1 [x00; x00]; OWrite 3 [x41]; OZero 4 2 true; OFlush; OExtents 0 8] in
  let s := ex_state [x01; x02; x03] in
  Forall fits l /\ 0 <= s_counter s /\ s_counter s + zlen l <= 2 ^ 64
  /\ zlen (s_out (run_ops ex_env ex_client l s)) = 28 * 4 + 1.
Proof.
  cbv zeta. split; [|repeat split; vm_compute; auto; discriminate].
  repeat constructor; vm_compute; auto; discriminate.
Qed.

Example request_decoding_case :
  request_bytes 0 0 7 1 2 (be 4 0x25609513 ++ be 2 0 ++ be 2 0 ++ be 8 7 ++ be 8 1 ++ be 4 2).
Proof. exists (be 4 0x25609513), (be 2 0), (be 2 0), (be 8 7), (be 8 1), (be 4 2). enc. Qed.

Example oversized_request_not_sent_case :
  ~ fits (OZero 0 (2 ^ 32) true) /\ demanded ex_client (OZero 0 (2 ^ 32) true) <> None
  /\ fst (do_op ex_env ex_client (OZero 0 (2 ^ 32) true) (ex_state [])) = inr StructError.
Proof. split; [cbn [fits]; lia|]. split; vm_compute; [discriminate|reflexivity]. Qed.

(* structured_read: a hole at the end first, then data, then the last chunk *)
Example structured_read_case :
  let img := [x01; x02; x03; x04; x00; x00; x00; x05] in
  let cs := [CHole 4 3; CData 1 [x02; x03; x04]; CNone] in
  let l := ex_chunk 7 0 2 (be 8 4 ++ be 4 3) ++ ex_chunk 7 0 1 (be 8 1 ++ [x02; x03; x04])
           ++ ex_chunk 7 1 0 [] in
  let buf := repeat xff 6 in
  exists s', readinto ex_env ex_client 1 buf (ex_state (l ++ [x77])) = (inl tt, s')
    /\ s_buf s' = Some [x02; x03; x04; x00; x00; x00] /\ s_in s' = [x77].
Proof.
  intros img cs l buf. change [x02; x03; x04; x00; x00; x00] with (sub 1 (zlen buf) img).
  apply structured_read with (cs := cs) (l := l); auto using ex_can_send.
  - split; vm_compute; intuition discriminate.
  - vm_compute. intuition discriminate.
  - vm_compute. discriminate.
  - apply more_chunks; [discriminate|discriminate| |].
    { exists (be 4 0x668e33ef), (be 2 0), 2, (be 8 7), (be 4 12), (be 2 2), (be 8 4 ++ be 4 3), 0. enc. }
    apply more_chunks; [discriminate|discriminate| |].
    { exists (be 4 0x668e33ef), (be 2 0), 1, (be 8 7), (be 4 11), (be 2 1), (be 8 1 ++ [x02; x03; x04]), 0. enc. }
    apply last_chunk.
    exists (be 4 0x668e33ef), (be 2 1), 0, (be 8 7), (be 4 0), (be 2 0), [], 1. enc.
  - repeat constructor; try (vm_compute; discriminate).
    + intros i I. assert (i = 0 \/ i = 1 \/ i = 2) as [->|[->| ->]] by lia; reflexivity.
    + intros i I. change (zlen [x02; x03; x04]) with 3 in I.
      assert (i = 0 \/ i = 1 \/ i = 2) as [->|[->| ->]] by lia; reflexivity.
  - intros i I. change (zlen buf) with 6 in I. unfold cs.
    destruct (Z_lt_ge_dec i 4).
    + constructor 2. constructor 1. cbn [covers]. change (zlen [x02; x03; x04]) with 3. lia.
    + constructor 1. cbn [covers]. lia.
Qed.

Example simple_read_case :
  let k := Client false (fun _ => None) None 1 8 0 in
  let l := be 4 0x67446698 ++ be 4 0 ++ be 8 7 ++ [x41; x42] in
  exists s', readinto ex_env k 3 [x00; x00] (ex_state (l ++ [x77])) = (inl tt, s')
    /\ s_buf s' = Some [x41; x42] /\ s_in s' = [x77].
Proof.
  intros k l. apply simple_read with (l := l); auto using ex_can_send.
  - split; vm_compute; intuition discriminate.
  - vm_compute. intuition discriminate.
  - exists (be 4 0x67446698), (be 4 0), (be 8 7). enc.
Qed.

(* read_keeps_buffer_size: a chunk outside of the request *)
Example read_keeps_buffer_size_case :
  let l := ex_chunk 7 1 1 (be 8 9 ++ [x02; x03; x04]) in
  s_buf (snd (readinto ex_env ex_client 3 [x00; x00] (ex_state l))) = Some [x00; x00].
Proof. vm_compute. reflexivity. Qed.

(* A read failing after some data, followed by a read that works. *)
Example read_after_failed_request_case :
  let img := [x01; x02; x03; x04; x00; x00; x00; x05] in
  let l1 := ex_chunk 7 0 1 (be 8 1 ++ [x02]) ++ ex_chunk 7 1 32769 (be 4 5 ++ be 2 2 ++ [x45; x46]) in
  let l2 := ex_chunk 8 1 1 (be 8 2 ++ [x03; x04]) in
  exists e s1 s2, do_op ex_env ex_client (ORead 1 [xff; xff]) (ex_state (l1 ++ l2 ++ [])) = (inr e, s1)
    /\ readinto ex_env ex_client 2 [x00; x00] s1 = (inl tt, s2)
    /\ s_buf s2 = Some [x03; x04] /\ s_in s2 = [].
Proof.
  intros img l1 l2. change [x03; x04] with (sub 2 (zlen [x00; x00]) img).
  apply read_after_failed_request with (cs1 := [CData 1 [x02]; CError 5 [x45; x46]]) (l1 := l1)
    (cs2 := [CData 2 [x03; x04]]) (l2 := l2); auto using ex_can_send.
  - vm_compute. intuition discriminate.
  - split; vm_compute; intuition discriminate.
  - discriminate.
  - apply more_chunks; [discriminate|discriminate| |].
    { exists (be 4 0x668e33ef), (be 2 0), 1, (be 8 7), (be 4 9), (be 2 1), (be 8 1 ++ [x02]), 0. enc. }
    apply last_chunk.
    exists (be 4 0x668e33ef), (be 2 1), 32769, (be 8 7), (be 4 8), (be 2 32769), (be 4 5 ++ be 2 2 ++ [x45; x46]), 1. enc.
  - constructor 2. constructor 1. cbn. lia.
  - constructor; [right; cbn; unfold zlen; cbn; lia|]. constructor; [left; cbn; lia|constructor].
  - split; vm_compute; intuition discriminate.
  - vm_compute. discriminate.
  - apply last_chunk.
    exists (be 4 0x668e33ef), (be 2 1), 1, (be 8 8), (be 4 10), (be 2 1), (be 8 2 ++ [x03; x04]), 1. enc.
  - constructor; [|constructor]. split; [vm_compute; discriminate|]. split; [vm_compute; discriminate|].
    intros i I. change (zlen [x03; x04]) with 2 in I.
    assert (i = 0 \/ i = 1) as [->| ->] by lia; reflexivity.
Qed.

(* A write refused with EPERM in a simple reply. *)
Example failed_request_consumes_simple_reply_case :
  let l := be 4 0x67446698 ++ be 4 1 ++ be 8 7 ++ [] in
  exists s', do_op ex_env ex_client (OWrite 0 [x41]) (ex_state (l ++ [x77])) = (inr (ReplyError 1), s')
    /\ s_in s' = [x77].
Proof.
  intros l. apply failed_request_consumes_simple_reply_partial with (l := l); auto using ex_can_send.
  - split; vm_compute; intuition discriminate.
  - vm_compute. intuition discriminate.
  - discriminate.
  - exists (be 4 0x67446698), (be 4 1), (be 8 7). enc.
  - lia.
Qed.

(* Two contexts: 6 bytes of data, then 2 bytes of hole; 8 dirty bytes. *)
Example block_status_decoded_case :
  let cs := [CStatus 1 [(6, 0); (2, 3)]; CStatus 2 [(8, 1)]] in
  let l := ex_chunk 7 0 5 (be 4 1 ++ (be 4 6 ++ be 4 0 ++ be 4 2 ++ be 4 3 ++ []))
           ++ ex_chunk 7 1 5 (be 4 2 ++ (be 4 8 ++ be 4 1 ++ [])) in
  exists d s', extents ex_env ex_client 0 8 (ex_state (l ++ [])) = (inl d, s') /\ s_in s' = []
    /\ assoc "base:allocation" d = Some [Extent 6 0; Extent 2 3]
    /\ assoc "qemu:dirty-bitmap:b" d = Some [Extent 8 4].
Proof.
  intros cs l.
  destruct (block_status_decoded ex_env ex_client (ex_state (l ++ [])) 0 8 cs l [])
    as (d & s' & A & B & C & _); auto using ex_can_send.
  - split; vm_compute; intuition discriminate.
  - vm_compute. intuition discriminate.
  - apply more_chunks; [discriminate|discriminate| |].
    { exists (be 4 0x668e33ef), (be 2 0), 5, (be 8 7), (be 4 20), (be 2 5),
        (be 4 1 ++ (be 4 6 ++ be 4 0 ++ be 4 2 ++ be 4 3 ++ [])), 0. enc. }
    apply last_chunk.
    exists (be 4 0x668e33ef), (be 2 1), 5, (be 8 7), (be 4 12), (be 2 5), (be 4 2 ++ (be 4 8 ++ be 4 1 ++ [])), 1. enc.
  - repeat constructor; vm_compute; discriminate.
  - exists d, s'. split; auto. split; auto. split.
    + rewrite (C [] 1 [(6, 0); (2, 3)] [CStatus 2 [(8, 1)]] "base:allocation"%string ALLOC); auto.
      * split; discriminate.
      * intros j ds [X|[]]. injection X as <- <-. vm_compute. discriminate.
    + rewrite (C [CStatus 1 [(6, 0); (2, 3)]] 2 [(8, 1)] [] "qemu:dirty-bitmap:b"%string DIRTY); auto.
      vm_compute. auto.
Qed.

(* extents_well_formed: an empty extent is refused *)
Example extents_well_formed_case :
  fst (extents ex_env ex_client 0 8 (ex_state (ex_chunk 7 1 5 (be 4 1 ++ be 4 0 ++ be 4 0)))) = inr ProtocolError
  /\ fst (extents ex_env ex_client 0 8 (ex_state (ex_chunk 7 1 5 (be 4 1 ++ be 4 3 ++ be 4 0)))) = inr ProtocolError
  /\ fst (extents ex_env ex_client 0 8 (ex_state (ex_chunk 7 1 5 (be 4 1 ++ be 4 4 ++ be 4 0))))
     = inl [("base:allocation"%string, [Extent 4 0])].
Proof. vm_compute. auto. Qed.

(* malformed_status_rejected: 16 bytes of payload *)
Example malformed_status_rejected_case :
  let x := be 4 1 ++ be 4 6 ++ be 4 0 ++ be 4 2 in
  (forall n, 1 <= n -> zlen x <> 4 + 8 * n)
  /\ fst (extents ex_env ex_client 0 8 (ex_state (ex_chunk 7 1 5 x))) = inr ProtocolError.
Proof. intros x. split; [intros n; change (zlen x) with 16; lia|]. vm_compute. reflexivity. Qed.

(* ---- C50: replies to other requests ---- *)

(* A structured reply chunk with the handle of another request is refused,
   whatever it contains. *)
Theorem foreign_chunk_refused :
  forall v k s o a b f d e x fl ty h r,
  can_send v -> k_structured k = true -> fits o -> 0 <= s_counter s < 2 ^ 64 -> demanded k o <> None ->
  s_in s = (a ++ b ++ f ++ d ++ e) ++ r ->
  u 4 0x668e33ef a -> u 2 fl b -> u 2 ty f -> u 8 h d -> u 4 x e ->
  h <> s_counter s ->
  exists s', do_op v k o s = (inr ProtocolError, s') /\ s_in s' = r.
Proof.
  intros v k s o a b f d e x fl ty h r V K F C DM I A B T D E N.
  destruct (demanded k o) as [[[[[dfl dty] off] len] data]|] eqn:DD; [|congruence].
  destruct (op_start v k o s dfl dty off len data) as (rb & i & _ & -> & EQ); auto. rewrite EQ.
  unfold recv_reply. cbn [recv_reply_loop].
  assert (zlen a = 4) as LA by apply A. assert (zlen b = 2) as LB by apply B.
  assert (zlen d = 8) as LD by apply D. assert (zlen e = 4) as LE by apply E. assert (zlen f = 2) as LF by apply T.
  remember (started k o s (rb ++ data) i) as s0 eqn:S0.
  destruct (recv_app v 4 s0 a ((b ++ f ++ d ++ e) ++ r)) as [j R1]; auto.
  { subst s0. cbn [s_in started]. rewrite I, <- !app_assoc. reflexivity. }
  rewrite (bind_inl _ _ _ _ _ R1). rewrite (unbe_u 4 _ a A).
  match goal with |- context [bind get _ ?y] => rewrite (bind_inl get _ y y y) by reflexivity end.
  ceq. cbn iota. rewrite K. cbn [negb].
  match goal with |- context [bind (fun s => (inl tt, set_structured s)) _ ?y] =>
    rewrite (bind_inl _ _ y tt (set_structured y)) by reflexivity end.
  unfold recv_reply_chunk. rewrite bind_bind.
  match goal with |- context [bind (recv v 16) _ ?y] =>
    destruct (recv_app v 16 y (b ++ f ++ d ++ e) r) as [q Q] end.
  { rewrite !zlen_app. lia. }
  { reflexivity. }
  rewrite (bind_inl _ _ _ _ _ Q).
  replace (field 4 8 (b ++ f ++ d ++ e)) with h.
  2:{ symmetry. rewrite app_assoc. apply (field_mid (b ++ f) d e); auto. rewrite zlen_app. lia. }
  apply Z.eqb_neq in N. rewrite N. cbn [negb]. eexists. split; reflexivity.
Qed.
Print Assumptions foreign_chunk_refused.

(* A simple reply without error with the handle of another request is
   refused. *)
Theorem foreign_simple_reply_refused :
  forall v k s o h l r,
  can_send v -> fits o -> 0 <= s_counter s < 2 ^ 64 -> demanded k o <> None ->
  simple_bytes 0 h [] l -> s_in s = l ++ r -> h <> s_counter s ->
  exists s', do_op v k o s = (inr ProtocolError, s').
Proof.
  intros v k s o h l r V F C DM (a & b & c & -> & A & B & D) I N.
  destruct (demanded k o) as [[[[[dfl dty] off] len] data]|] eqn:DD; [|congruence].
  destruct (op_start v k o s dfl dty off len data) as (rb & i & _ & -> & EQ); auto. rewrite EQ.
  unfold recv_reply. cbn [recv_reply_loop].
  assert (zlen a = 4) as LA by apply A. assert (zlen b = 4) as LB by apply B. assert (zlen c = 8) as LC by apply D.
  remember (started k o s (rb ++ data) i) as s0 eqn:S0.
  destruct (recv_app v 4 s0 a ((b ++ c) ++ r)) as [j R1]; auto.
  { subst s0. cbn [s_in started]. rewrite I, app_nil_r, <- !app_assoc. reflexivity. }
  rewrite (bind_inl _ _ _ _ _ R1). rewrite (unbe_u 4 _ a A).
  match goal with |- context [bind get _ ?y] => rewrite (bind_inl get _ y y y) by reflexivity end.
  ceq. cbn iota.
  match goal with |- context [if ?b then _ else _] => destruct b end; [eexists; reflexivity|].
  unfold recv_simple_reply.
  match goal with |- context [bind (recv v 12) _ ?y] =>
    destruct (recv_app v 12 y (b ++ c) r) as [q Q] end.
  { rewrite !zlen_app. lia. }
  { reflexivity. }
  rewrite (bind_inl _ _ _ _ _ Q).
  rewrite (field_first b _ 4 0) by auto. rewrite Z.eqb_refl. cbn [negb].
  replace (field 4 8 (b ++ c)) with h.
  2:{ symmetry. apply field_end; auto. }
  apply Z.eqb_neq in N. rewrite N. cbn [negb]. eexists. reflexivity.
Qed.
Print Assumptions foreign_simple_reply_refused.

(* A simple error reply to another request is taken for this request. *)
Theorem foreign_simple_error_refused_refuted :
  exists v k s o h l s',
  can_send v /\ fits o /\ demanded k o <> None /\ simple_bytes 5 h [] l /\ s_in s = l /\ h <> s_counter s
  /\ do_op v k o s = (inr (ReplyError 5), s').
Proof.
  set (l := be 4 0x67446698 ++ be 4 5 ++ be 8 9 ++ []).
  exists ex_env, ex_client, (ex_state l), (OWrite 0 [x41]), 9, l.
  eexists. split; [exact ex_can_send|]. split; [split; vm_compute; intuition discriminate|].
  split; [discriminate|]. split; [|split; [reflexivity|split; [discriminate|vm_compute; reflexivity]]].
  exists (be 4 0x67446698), (be 4 5), (be 8 9). enc.
Qed.
Print Assumptions foreign_simple_error_refused_refuted.

Example foreign_chunk_refused_case :
  fst (do_op ex_env ex_client (ORead 0 [x00]) (ex_state (ex_chunk 6 1 1 (be 8 0 ++ [x41])))) = inr ProtocolError
  /\ fst (do_op ex_env ex_client (ORead 0 [x00]) (ex_state (ex_chunk 7 1 1 (be 8 0 ++ [x41])))) = inl tt
  /\ fst (do_op ex_env ex_client (OWrite 0 [x00]) (ex_state (be 4 0x67446698 ++ be 4 0 ++ be 8 6))) = inr ProtocolError
  /\ fst (do_op ex_env ex_client (OWrite 0 [x00]) (ex_state (be 4 0x67446698 ++ be 4 0 ++ be 8 7))) = inl tt.
Proof. vm_compute. auto. Qed.
