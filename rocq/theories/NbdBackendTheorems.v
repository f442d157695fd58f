(* Theorems about the NBD backend: C17. *)
From Coq Require Import ZArith List Bool String Lia.
From Coq.Init Require Import Byte.
From Verif Require Import BytesLib NbdModel NbdSpec NbdProofs NbdTheorems NbdBackendModel NbdBackendSpec NbdBackendProofs.
Import ListNotations.
Open Scope Z_scope.

(* Any program using the backend, over any connection that does not break, with
   any server that answers the requests it received as the protocol demands
   (maybe with errors): the export is a byte array of fixed size, every call
   returns what the array demands, and exactly the replies are consumed.
   The requests are not assumed to be the right ones: rs is whatever was sent. *)
Theorem nbd_backend_is_array :
  forall v k b s img calls results b' s' out rs oks img' replies rest,
  can_send v -> 0 <= s_counter s -> s_counter s + zlen calls <= 2 ^ 64 ->
  k_size k = zlen img ->
  bcalls v k calls b s = (results, b', s') ->
  s_out s' = s_out s ++ out -> requests rs out ->
  serves (k_structured k) img rs oks img' replies -> s_in s = replies ++ rest ->
  runs (config_of (b_mode b) (k_tflags k)) calls oks
       (Array img (b_position b) (b_dirty b) (b_closed b))
       (map result_of results)
       (Array img' (b_position b') (b_dirty b') (b_closed b'))
  /\ s_in s' = rest.
Proof.
  intros v k b s img calls results b' s' out rs oks img' replies rest V C1 C2 K E O R S I.
  change (config_of (b_mode b) (k_tflags k)) with (cfg k b). fold (arr img b). fold (arr img' b').
  revert b s img results out rs oks replies C1 C2 K E O R S I.
  induction calls as [|c calls IH]; intros b s img results out rs oks replies C1 C2 K E O R S I; cbn [bcalls] in E.
  - injection E as <- <- <-.
    assert (out = []) as ->.
    { apply (f_equal zlen) in O. rewrite zlen_app in O. pose proof (zlen_nonneg out).
      destruct out; auto. rewrite zlen_cons in O. pose proof (zlen_nonneg out). lia. }
    inversion R as [|f t h o n d m l w B0 D0 R0 Q1 Q2]; subst.
    2:{ exfalso. pose proof (request_bytes_len _ _ _ _ _ _ B0) as L. destruct m; [rewrite (@zlen_nil byte) in L; lia|discriminate]. }
    inversion S; subst. split; [constructor|]. rewrite I. auto.
  - rewrite zlen_cons in C2. pose proof (zlen_nonneg calls).
    destruct (bcall v k c b s) as [[r0 b1] s1] eqn:E0.
    destruct (bcalls v k calls b1 s1) as [[rs0 b2] s2] eqn:E1.
    injection E as <- <- <-.
    pose proof (bcall_sends v k c b s V ltac:(lia)) as BS. rewrite E0 in BS. cbn [snd] in BS.
    assert (s_counter s <= s_counter s1 <= s_counter s + 1) as CT.
    { destruct (req_of k b c) as [[[[[fl ty] off] len] data]|].
      - destruct BS as [(m & _ & _ & B2) _]. lia.
      - destruct BS as (_ & B2 & _). lia. }
    destruct (bcalls_grow v k calls b1 s1) as [w W]; auto; [lia|lia|]. rewrite E1 in W. cbn [snd] in W.
    destruct (req_of k b c) as [[[[[fl ty] off] len] data]|] eqn:RQ.
    + destruct BS as [(m & RB & B1 & B2) DL].
      assert (out = m ++ data ++ w) as ->.
      { rewrite O, B1 in W. rewrite <- !app_assoc in W. apply app_inv_head in W. auto. }
      destruct (requests_first _ _ _ _ _ _ _ _ _ R RB DL) as (rs1 & -> & R1).
      inversion S as [|img0 r1 ok img1 l1 rs2 oks1 img2 l2 A1 S1]; subst.
      destruct (bcall_asked v k c b s img fl ty off len data ok img1 l1 (l2 ++ rest))
        as (res & b3 & s3 & Q & I3 & AC & CF & LN); auto; [lia|rewrite I, app_assoc; auto|].
      rewrite E0 in Q. injection Q as <- <- <-.
      destruct (IH b1 s1 img1 rs0 w rs1 oks1 l2) as [RN RI]; auto; try lia.
      split; auto. cbn [map]. rewrite CF in RN. change (ok :: oks1) with (verdicts (Some ok) oks1).
      econstructor; eauto.
    + destruct BS as (B1 & _ & B3).
      destruct (bcall_local v k c b s img) as (res & b3 & s3 & Q & AC & CF); auto; [lia|].
      rewrite E0 in Q. injection Q as <- <- <-.
      destruct (IH b1 s1 img rs0 out rs oks replies) as [RN RI]; auto; try lia.
      { rewrite B1. auto. } { rewrite B3. auto. }
      split; auto. cbn [map]. rewrite CF in RN. change oks with (verdicts None oks).
      econstructor; eauto.
Qed.
Print Assumptions nbd_backend_is_array.

(* The array keeps its size and changes only where a call that was not refused
   asked for it. *)
Definition touches (c : call) (p : Z) (i : Z) : Prop :=
  match c with
  | BWrite d => p <= i < p + zlen d
  | BZero n => p <= i < p + n
  | _ => False
  end.
Theorem array_step_in_bounds :
  forall g c asked a r a',
  acts g c asked a r a' ->
  zlen (a_data a') = zlen (a_data a)
  /\ (forall i, 0 <= i -> ~ touches c (a_pos a) i -> getb (a_data a') i = getb (a_data a) i)
  /\ (match r with
      | Done n _ => match c with
                    | BReadinto _ | BWrite _ | BZero _ => a_pos a' = a_pos a + n
                    | _ => True
                    end
      | Failed => a_pos a' = a_pos a
      end).
Proof.
  intros g c asked a r a' A.
  destruct A; cbn [a_data a_pos set_data touches]; auto;
    try (match goal with H : same_outside _ _ _ _ |- _ => destruct H; auto end; fail).
  - split; auto. split; auto. lia.
  - unfold expressible in *. split; [apply zlen_splice_in; lia|]. split; auto. intros i I N.
    rewrite getb_splice by lia. destruct (a_pos a <=? i) eqn:X; cbn [andb]; auto.
    replace (i <? a_pos a + zlen d) with false by lia. auto.
  - unfold expressible in *. split; [apply zlen_splice_in; rewrite ?zlen_zeros; lia|]. split; auto. intros i I N.
    rewrite getb_splice by lia. rewrite zlen_zeros. destruct (a_pos a <=? i) eqn:X; cbn [andb]; auto.
    replace (i <? a_pos a + Z.max 0 n) with false by lia. auto.
Qed.
Print Assumptions array_step_in_bounds.

(* A program and a server: an export of 6 bytes; write 2 bytes at 4, a write
   after the end which fails, seek back, read everything in two chunks, zero the
   end, flush, close. *)
Definition ex_calls : list call :=
  [BSeek 4 SEEK_SET; BWrite [x61; x62]; BWrite [x63]; BSeek (-4) SEEK_END;
   BReadinto [xff; xff; xff; xff; xff]; BSeek (-1) SEEK_CUR; BZero 1; BFlush; BClose; BFlush].
Definition ex_k := Client true (fun _ => None) None 1 6 68.
Definition ex_head h fl ty n := be 4 0x668e33ef ++ be 2 fl ++ be 2 ty ++ be 8 h ++ be 4 n.
Definition ex_ok h := be 4 0x67446698 ++ be 4 0 ++ be 8 h ++ [].
Definition ex_read_reply :=
  (ex_head 9 0 1 10 ++ be 8 4 ++ [x61; x62]) ++ (ex_head 9 1 2 12 ++ be 8 2 ++ be 4 2).
Definition ex_replies :=
  ex_ok 7 ++ (be 4 0x67446698 ++ be 4 28 ++ be 8 8 ++ []) ++ ex_read_reply ++
  (ex_head 10 1 0 0 ++ []) ++ ex_ok 11 ++ [] ++ [].
Definition ex_img := [x41; x42; x00; x00; x45; x46].
Definition ex_requests : list request :=
  [Request 0 1 7 4 2 [x61; x62]; Request 0 1 8 6 1 [x63]; Request 0 0 9 2 4 [];
   Request 2 6 10 5 1 []; Request 0 3 11 0 0 []; Request 0 2 12 0 0 []].
Definition ex_oks := [true; false; true; true; true; true].

Example nbd_backend_case :
  exists results b' s' out,
  bcalls ex_env ex_k ex_calls (Backend MODE_RW false 0 false false)
         (St ex_replies [] 0 7 None false [] None) = (results, b', s')
  /\ s_out s' = [] ++ out /\ requests ex_requests out
  /\ serves true ex_img ex_requests ex_oks [x41; x42; x00; x00; x61; x00] ex_replies
  /\ map result_of results
     = [Done 4 []; Done 2 []; Failed; Done 2 []; Done 4 [x00; x00; x61; x62; xff]; Done 5 [];
        Done 1 []; Done 0 []; Done 0 []; Failed]
  /\ s_in s' = [].
Proof.
  eexists _, _, _, _. split; [vm_compute; reflexivity|]. split; [reflexivity|].
  split.
  { match goal with |- requests _ ?w => 
      replace w with
        ((be 4 0x25609513 ++ be 2 0 ++ be 2 1 ++ be 8 7 ++ be 8 4 ++ be 4 2) ++ [x61; x62] ++
         (be 4 0x25609513 ++ be 2 0 ++ be 2 1 ++ be 8 8 ++ be 8 6 ++ be 4 1) ++ [x63] ++
         (be 4 0x25609513 ++ be 2 0 ++ be 2 0 ++ be 8 9 ++ be 8 2 ++ be 4 4) ++ [] ++
         (be 4 0x25609513 ++ be 2 2 ++ be 2 6 ++ be 8 10 ++ be 8 5 ++ be 4 1) ++ [] ++
         (be 4 0x25609513 ++ be 2 0 ++ be 2 3 ++ be 8 11 ++ be 8 0 ++ be 4 0) ++ [] ++
         (be 4 0x25609513 ++ be 2 0 ++ be 2 2 ++ be 8 12 ++ be 8 0 ++ be 4 0) ++ [] ++ [])
        by (vm_compute; reflexivity) end.
    unfold ex_requests.
    repeat (apply a_request; [do 6 eexists; split; [reflexivity|]; enc|reflexivity|]). constructor. }
  split.
  { unfold ex_replies, ex_requests, ex_oks.
    eapply serves_one with (img1 := [x41; x42; x00; x00; x61; x62]).
    { change [x41; x42; x00; x00; x61; x62] with (splice ex_img 4 [x61; x62]).
      apply write_done; [lia|vm_compute; discriminate|].
      left. do 3 eexists. split; [reflexivity|]. enc. }
    eapply serves_one with (img1 := [x41; x42; x00; x00; x61; x62]).
    { apply change_failed; [auto|split; [reflexivity|auto]|]. left. exists 28. split; [lia|].
      do 3 eexists. split; [reflexivity|]. enc. }
    eapply serves_one.
    { apply read_structured with (cs := [CData 4 [x61; x62]; CHole 2 2]); try lia.
      - vm_compute; discriminate.
      - unfold ex_read_reply. apply more_chunks; [discriminate|discriminate| |apply last_chunk].
        + exists (be 4 0x668e33ef), (be 2 0), 1, (be 8 9), (be 4 10), (be 2 1), (be 8 4 ++ [x61; x62]), 0. enc.
        + exists (be 4 0x668e33ef), (be 2 1), 2, (be 8 9), (be 4 12), (be 2 2), (be 8 2 ++ be 4 2), 1. enc.
      - repeat constructor; cbn; try lia; try (vm_compute; discriminate);
          intros i Hi; unfold zlen in Hi; cbn in Hi;
          assert (i = 0 \/ i = 1) as [-> | ->] by lia; reflexivity.
      - intros i Hi. assert (4 <= i \/ i < 4) as [X|X] by lia; [left|right; left]; cbn; unfold zlen; cbn; lia. }
    eapply serves_one with (img1 := [x41; x42; x00; x00; x61; x00]).
    { change [x41; x42; x00; x00; x61; x00] with (splice [x41; x42; x00; x00; x61; x62] 5 (zeros 1)).
      apply zero_done; [lia|vm_compute; discriminate|]. right. split; auto. apply last_chunk.
      exists (be 4 0x668e33ef), (be 2 1), 0, (be 8 10), (be 4 0), (be 2 0), [], 1. enc. }
    eapply serves_one.
    { apply flush_done. left. do 3 eexists. split; [reflexivity|]. enc. }
    eapply serves_one; constructor. }
  split; [vm_compute; reflexivity|reflexivity].
Qed.
(* The other hypotheses. *)
Example nbd_backend_case_hyps :
  can_send ex_env /\ 7 + zlen ex_calls <= 2 ^ 64 /\ k_size ex_k = zlen ex_img.
Proof. split; [exact ex_can_send|]. split; vm_compute; congruence. Qed.

(* Every call ends, with a result or an exception other than running out of
   fuel: the model has no hidden divergence. *)
Theorem nbd_backend_calls_end :
  forall v k c b s, fst (fst (bcall v k c b s)) <> inr (ClientError OutOfFuel).
Proof.
  intros v k c b s. destruct (op_of k b c) as [o|] eqn:O.
  - rewrite (bcall_op v k c b s o O). pose proof (op_never_out_of_fuel v k o s) as N.
    destruct (do_op v k o s) as [[?|?] ?]; cbn in *; congruence.
  - unfold op_of in O. destruct c; cbn [bcall].
    + destruct (readable b); cbn [negb]; [|discriminate]. destruct (b_closed b); [discriminate|].
      destruct (_ <=? 0); [discriminate|discriminate].
    + destruct (writable b); cbn [negb]; [|discriminate]. destruct (b_closed b); discriminate.
    + destruct (writable b); cbn [negb]; [|discriminate]. destruct (b_closed b); discriminate.
    + destruct (b_closed b); discriminate.
    + discriminate.
    + destruct how; try discriminate. destruct (b_closed b); discriminate.
    + destruct (b_closed b); discriminate.
    + destruct (b_closed b); [discriminate|]. destruct (client_close v s). discriminate.
Qed.
Print Assumptions nbd_backend_calls_end.
Example nbd_backend_calls_end_case :
  fst (fst (bcall ex_env ex_k (BWrite [x61]) (Backend MODE_RW false 0 false false)
                  (St [x00] [] 0 7 None false [] None))) = inr (ClientError ProtocolError).
Proof. vm_compute. reflexivity. Qed.

(* A backend asked to zero without allocating (or to deallocate) has clones which
   do otherwise: clone() drops sparse, so zero() of a clone of a sparse backend
   sends NO_HOLE (flag 2). *)
Theorem nbd_clone_keeps_sparse_refuted :
  exists v k s b r b' s' out,
  can_send v /\ b_sparse b = true
  /\ bcall v k (BZero 2) (clone b) s = (r, b', s') /\ result_of r = Done 2 []
  /\ s_out s' = s_out s ++ out /\ request_bytes 2 6 (s_counter s) 0 2 out.
Proof.
  exists ex_env, ex_k, (St (ex_ok 7) [] 0 7 None false [] None), (Backend MODE_RW true 0 false false).
  eexists _, _, _, (be 4 0x25609513 ++ be 2 2 ++ be 2 6 ++ be 8 7 ++ be 8 0 ++ be 4 2).
  split; [exact ex_can_send|]. split; [reflexivity|]. split; [vm_compute; reflexivity|].
  split; [reflexivity|]. split; [vm_compute; reflexivity|].
  do 6 eexists. split; [reflexivity|]. enc.
Qed.
Print Assumptions nbd_clone_keeps_sparse_refuted.
