(* Theorems about the NBD handshake: C56, C57, C58. *)
From Coq Require Import ZArith List Bool String Lia.
From Coq.Init Require Import Byte.
From Verif Require Import BytesLib NbdModel NbdSpec NbdProofs NbdTheorems HandshakeModel HandshakeSpec HandshakeProofs
  NbdBackendModel NbdBackendSpec NbdBackendTheorems ExtentsModel ExtentsSpec ExtentsTheorems.
Import ListNotations.
Open Scope Z_scope.

(* C56: connecting to a server answering as the protocol demands succeeds,
   whatever it supports, however its bytes are split; the client knows exactly
   what the server said, sent exactly what the protocol demands and consumed
   exactly the handshake. *)
Theorem handshake_complete :
  forall v utf8 name dirty a l s r,
  can_send v -> sendable name dirty a -> server_bytes utf8 dirty a l -> s_in s = l ++ r ->
  exists h s' o, connect v utf8 name dirty s = (inl h, s') /\ knows dirty a h
    /\ s_in s' = r /\ s_out s' = s_out s ++ o /\ client_bytes name dirty a o /\ s_counter s' = s_counter s.
Proof.
  intros v utf8 name dirty a l s r V N B I. destruct (handshake_ok v utf8 name dirty a l s r V N B I) as (o & i & E & C).
  unfold connect. rewrite E. eexists _, _, o. split; [reflexivity|]. split; [|auto].
  apply outcome_knows. destruct B as (? & ? & ? & ? & _ & _ & _ & _ & _ & B). auto.
Qed.
Print Assumptions handshake_complete.

(* C56: a handshake succeeds only with answers the protocol allows, on any
   connection. *)
Theorem handshake_sound :
  forall v utf8 name dirty s h s',
  connect v utf8 name dirty s = (inl h, s') ->
  exists a l o, s_in s = l ++ s_in s' /\ server_bytes utf8 dirty a l /\ knows dirty a h
    /\ s_out s' = s_out s ++ o /\ client_bytes name dirty a o.
Proof.
  intros v utf8 name dirty s h s' E. unfold connect in E.
  destruct (newstyle_handshake v utf8 name dirty s) as [[h0|e] s0] eqn:H; [|discriminate]. injection E as <- <-.
  apply handshake_inv in H as (a & l & o & i & B & C & -> & I & S). exists a, l, o. split; auto. split; auto.
  split; [|split; auto; rewrite S; auto].
  apply outcome_knows. destruct B as (? & ? & ? & ? & _ & _ & _ & _ & _ & B). auto.
Qed.
Print Assumptions handshake_sound.

(* C56: with a server giving different ids to different contexts, as it must,
   the client finds the name of every id, and the id of every name. *)
Theorem handshake_contexts :
  forall dirty a h, knows dirty a h ->
  NoDup (map fst (a_set a)) -> NoDup (map snd (a_set a)) ->
  forall n id, In (n, id) (a_set a) <-> name_of_id (h_names h) id = Some n /\ id_of_name (h_names h) n = Some id.
Proof.
  intros dirty a h (_ & K1 & K2 & _) N1 N2 n id. rewrite K1, K2.
  assert (U : forall (A : Type) (f : list byte * Z -> A) l, NoDup (map f l) ->
    forall x, In x l -> last_such (fun p => f p = f x) l x).
  { intros A f l ND x IN. apply in_split in IN as (p & q & ->). exists p, q. split; auto. split; auto.
    apply Forall_forall. intros y Y E. rewrite map_app in ND. cbn [map] in ND. apply NoDup_remove_2 in ND.
    apply ND. apply in_or_app. right. rewrite <- E. apply in_map. auto. }
  split.
  - intros IN. split; [exact (U _ snd _ N2 _ IN)|exact (U _ fst _ N1 _ IN)].
  - intros [(p & q & -> & _) _]. apply in_or_app. right. left. auto.
Qed.
Print Assumptions handshake_contexts.

(* C57: on a connection that does not break, a handshake ends with any bytes
   of the server; when it fails the exception says why, nothing was sent except
   the flags and complete options, and the last of them is ABORT. *)
Theorem handshake_failure_partial :
  forall v utf8 name dirty s e s', can_send v ->
  connect v utf8 name dirty s = (inr e, s') ->
  (e = ProtocolError \/ e = ValueError \/ e = StructError
   \/ exists c p l opt msg, e = OptionError c /\ s_in s = p ++ l ++ s_in s'
      /\ option_reply_bytes opt c msg l /\ 2 ^ 31 < c <= 2 ^ 31 + 9)
  /\ (exists p, s_in s = p ++ s_in s')
  /\ exists o ab, s_out s' = s_out s ++ o ++ ab /\ option_bytes 2 [] ab
     /\ ((o = [] /\ e = ProtocolError) \/ exists f q, o = f ++ q /\ u 4 1 f /\ options_bytes q).
Proof.
  intros v utf8 name dirty s e s' V E. unfold connect in E.
  destruct (newstyle_handshake v utf8 name dirty s) as [[h0|e0] s0] eqn:H; [discriminate|]. injection E as <- <-.
  apply handshake_fails in H as (P & W & o & O & Q); auto.
  destruct (send_option_ok v OPT_ABORT [] s0 V) as [s1 S]; [cbv; intuition discriminate|reflexivity|].
  rewrite S. cbn [snd]. apply send_option_inv in S as (ab & t & AB & ->). rewrite io_in, io_out.
  split. { destruct e0; cbn in W; auto; try contradiction. right; right; right.
           destruct W as (p & l & opt & msg & W). exists reply, p, l, opt, msg. auto. }
  split; auto. exists o, ab. split; [rewrite O, <- app_assoc; auto|]. auto.
Qed.
Print Assumptions handshake_failure_partial.

(* What is missing: "every message of the client comes after its flags". When
   the first message of the server is not the one of a fixed newstyle server,
   ABORT is sent without the flags: the server takes its first half for flags. *)
Definition ex_utf8 (l : list byte) : bool := forallb (fun b => Z_of_byte b <? 128) l.
Definition ex_hello := be 8 0x4e42444d41474943 ++ be 8 0x49484156454F5054 ++ be 2 3.
Definition ex_reply opt ty data := be 8 0x3e889045565a9 ++ be 4 opt ++ be 4 ty ++ be 4 (zlen data) ++ data.
Definition ex_start l := St l [] 0 0 None false [] None.
Theorem abort_after_flags_refuted :
  exists v utf8 name dirty s e s', can_send v /\ connect v utf8 name dirty s = (inr e, s')
  /\ s_out s = [] /\ s_out s' <> []
  /\ ~ exists f q, s_out s' = f ++ q /\ u 4 1 f.
Proof.
  exists ex_env, ex_utf8, [], false, (ex_start (be 8 0x4e42444d41474943 ++ be 8 0x00420281861253 ++ be 2 0)).
  eexists _, _. split; [exact ex_can_send|]. split; [vm_compute; reflexivity|]. split; [reflexivity|].
  split; [discriminate|]. intros (f & q & E & U). cbn [s_out] in E.
  destruct f as [|b0 [|b1 [|b2 [|b3 [|b4 f]]]]]; destruct U as [U1 U2]; try discriminate U1.
  - injection E as <- <- <- <- _. vm_compute in U2. discriminate.
  - rewrite !zlen_cons in U1. pose proof (zlen_nonneg f). lia.
Qed.
Print Assumptions abort_after_flags_refuted.

(* Finding: the name of the dirty bitmap is whatever the server lists; a server
   listing another context makes the client take it for a dirty bitmap. *)
Theorem dirty_bitmap_name_refuted :
  exists v utf8 name s h s' n, can_send v /\ connect v utf8 name true s = (inl h, s')
  /\ h_dirty h = Some n /\ ~ exists b, n = list_byte_of_string "qemu:dirty-bitmap:" ++ b.
Proof.
  exists ex_env, ex_utf8, [], (ex_start (ex_hello ++ ex_reply 8 1 []
    ++ ex_reply 9 4 (be 4 0 ++ list_byte_of_string "base:allocation") ++ ex_reply 9 1 []
    ++ ex_reply 10 4 (be 4 1 ++ list_byte_of_string "base:allocation") ++ ex_reply 10 1 []
    ++ ex_reply 7 3 (be 2 0 ++ be 8 8 ++ be 2 1) ++ ex_reply 7 1 [])).
  eexists _, _, _. split; [exact ex_can_send|]. split; [vm_compute; reflexivity|]. split; [reflexivity|].
  intros (b & E). discriminate E.
Qed.
Print Assumptions dirty_bitmap_name_refuted.

(* Finding: a minimum block size of 0 is accepted (dividing by it fails later,
   see Nbd and Extents). *)
Theorem minimum_block_size_refuted :
  exists v utf8 name s h s' k, can_send v /\ connect v utf8 name false s = (inl h, s')
  /\ to_client h = Some k /\ k_minblock k = 0.
Proof.
  exists ex_env, ex_utf8, [], (ex_start (ex_hello ++ ex_reply 8 (2 ^ 31 + 1) []
    ++ ex_reply 7 3 (be 2 3 ++ be 4 0 ++ be 4 0 ++ be 4 0)
    ++ ex_reply 7 3 (be 2 0 ++ be 8 8 ++ be 2 1) ++ ex_reply 7 1 [])).
  eexists _, _, _. split; [exact ex_can_send|]. split; [vm_compute; reflexivity|]. split; reflexivity.
Qed.
Print Assumptions minimum_block_size_refuted.

(* What the transmission phase uses, in terms of what the server said. *)
Definition client_for (dirty : bool) (a : answers) (k : client) : Prop :=
  k_structured k = a_structured a
  /\ (forall id c, k_meta k id = Some c <->
        exists n, c = string_of_list_byte n /\ last_such (fun p => snd p = id) (a_set a) (n, id))
  /\ (forall c, k_dirty k = Some c <->
        exists n, c = string_of_list_byte n /\ bitmap dirty a = Some n /\ exists id, In (n, id) (a_set a))
  /\ last_such (fun i => exists s f, i = Export s f) (a_infos a) (Export (k_size k) (k_tflags k)).

Theorem handshake_client :
  forall dirty a h, knows dirty a h -> exists k, to_client h = Some k /\ client_for dirty a k.
Proof.
  intros dirty a h (K1 & K2 & _ & K4 & (size & flags & K5 & L) & _). unfold to_client. rewrite K5.
  destruct (h_blocks h) as [[x y] z]. eexists. split; [reflexivity|].
  unfold client_for. cbn [k_structured k_meta k_dirty k_size k_tflags]. split; auto. split.
  { intros id c. destruct (name_of_id (h_names h) id) as [n|] eqn:E; cbn [option_map].
    - apply K2 in E. split.
      + intros X. injection X as <-. eauto.
      + intros (m & -> & X). apply K2 in X, E. congruence.
    - split; [discriminate|]. intros (m & -> & X). apply K2 in X. congruence. }
  split; auto.
  { intros c. destruct (h_dirty h) as [n|] eqn:E; cbn [option_map].
    - split.
      + intros X. injection X as <-. exists n. split; auto. apply K4. auto.
      + intros (m & -> & X). apply K4 in X. congruence.
    - split; [discriminate|]. intros (m & -> & X). apply K4 in X. congruence. }
Qed.
Print Assumptions handshake_client.

(* C58: opening a backend and using it, from the first byte of the connection:
   the image is a byte array. *)
Theorem opened_backend_is_array :
  forall v utf8 name dirty a l mode sparse s img calls replies rest,
  can_send v -> sendable name dirty a -> server_bytes utf8 dirty a l ->
  s_counter s = 0 -> zlen calls <= 2 ^ 64 ->
  s_in s = l ++ replies ++ rest ->
  exists h s1 k, connect v utf8 name dirty s = (inl h, s1) /\ to_client h = Some k /\ client_for dirty a k
  /\ (k_size k = zlen img ->
      forall results b' s' out rs oks img',
      bcalls v k calls (Backend mode sparse 0 false false) s1 = (results, b', s') ->
      s_out s' = s_out s1 ++ out -> requests rs out ->
      serves (a_structured a) img rs oks img' replies ->
      runs (config_of mode (k_tflags k)) calls oks (Array img 0 false false)
           (map result_of results) (Array img' (b_position b') (b_dirty b') (b_closed b'))
      /\ s_in s' = rest).
Proof.
  intros v utf8 name dirty a l mode sparse s img calls replies rest V N B C0 C1 I.
  destruct (handshake_complete v utf8 name dirty a l s (replies ++ rest) V N B I) as (h & s1 & o & E & K & I1 & O & _ & CT).
  destruct (handshake_client dirty a h K) as (k & TK & CK). exists h, s1, k. split; auto. split; auto. split; auto.
  intros KS results b' s' out rs oks img' BC O2 R S.
  assert (ST : k_structured k = a_structured a) by apply CK. rewrite <- ST in S.
  apply (nbd_backend_is_array v k (Backend mode sparse 0 false false) s1 img calls results b' s' out rs oks img' replies rest);
    auto; rewrite CT, C0; lia.
Qed.
Print Assumptions opened_backend_is_array.

(* C58: the same for extents: with a server that has base:allocation and
   reports truly, from the first byte of the connection. *)
Theorem opened_backend_extents :
  forall v utf8 name dirty a l q F ctx s lx rest,
  can_send v -> sendable name dirty a -> server_bytes utf8 dirty a l ->
  a_structured a = true -> (exists id, In (list_byte_of_string "base:allocation", id) (a_set a)) ->
  s_counter s = 0 -> s_in s = l ++ lx ++ rest ->
  match q with
  | QZero => ctx = None \/ ctx = Some "qemu:allocation-depth"%string
  | QDirty => exists n id, ctx = Some (string_of_list_byte n) /\ bitmap dirty a = Some n /\ In (n, id) (a_set a)
  | QOther => False
  end ->
  exists h s1 k, connect v utf8 name dirty s = (inl h, s1) /\ to_client h = Some k /\ client_for dirty a k
  /\ (0 < k_size k -> honest k F ctx (k_size k) 0 0 lx ->
      exists out s', backend_extents v k (has_base_allocation h) q s1 = (out, inl tt, s') /\ s_in s' = rest
      /\ tiles 0 (k_size k) out
      /\ forall e i, In e out -> start_of e <= i < start_of e + length_of e -> says e (flags_of F ctx i)).
Proof.
  intros v utf8 name dirty a l q F ctx s lx rest V N B ST (id & BA) C0 I Q.
  destruct (handshake_complete v utf8 name dirty a l s (lx ++ rest) V N B I) as (h & s1 & o & E & K & I1 & O & _ & CT).
  destruct (handshake_client dirty a h K) as (k & TK & CK). exists h, s1, k. split; auto. split; auto. split; auto.
  intros KS HO.
  assert (HB : has_base_allocation h = true).
  { unfold has_base_allocation. change (utf8_bytes BASE_ALLOCATION) with (list_byte_of_string "base:allocation").
    destruct K as (_ & _ & K & _). destruct (id_of_name (h_names h) (list_byte_of_string "base:allocation")) eqn:X; auto.
    assert (LS : exists i, last_such (fun p => fst p = list_byte_of_string "base:allocation") (a_set a) (list_byte_of_string "base:allocation", i)).
    { clear - BA. revert BA. generalize (list_byte_of_string "base:allocation"). intros n.
      induction (a_set a) as [|[m j] cs IH] using rev_ind; [intros []|]. intros IN.
      destruct (bytes_eqb_spec m n) as [->|D].
      - exists j. apply last_such_snoc. left. auto.
      - apply in_app_or in IN as [IN|[IN|[]]]; [|congruence]. destruct (IH IN) as [i L]. exists i.
        apply last_such_snoc. right. split; auto. }
    destruct LS as [i LS]. apply K in LS. congruence. }
  rewrite HB.
  assert (RG : 0 <= k_size k < 2 ^ 64).
  { destruct CK as (_ & _ & _ & (p & q0 & EI & _)). destruct B as (? & ? & ? & g & _ & _ & _ & _ & GB & _).
    clear - EI GB. revert p EI. induction GB as [|i d l r m ID OB GB IH]; intros p EI.
    - destruct p; discriminate.
    - destruct p as [|p0 p]; cbn [app] in EI.
      + injection EI as -> _. inversion ID; subst.
        match goal with U : u 8 _ _ |- _ => apply u_range in U; change (256 ^ 8) with (2 ^ 64) in U; auto end.
      + injection EI as _ EI. eauto. }
  apply (image_extents_of_honest_server v k q F ctx s1 lx rest); auto.
  - destruct CK as [CK _]. congruence.
  - destruct q; auto. destruct Q as (n & i & -> & Q1 & Q2). split; [discriminate|].
    destruct CK as (_ & _ & CK & _). apply CK. eauto.
  - lia.
  - lia.
  - lia.
  - rewrite CT, C0. auto.
Qed.
Print Assumptions opened_backend_extents.

(* ---- concrete cases ---- *)

(* A server with structured replies, a dirty bitmap, no allocation depth, an
   unknown info and block sizes. *)
Definition ex_bitmap := list_byte_of_string "qemu:dirty-bitmap:b".
Definition ex_base := list_byte_of_string "base:allocation".
Definition ex_answers := Answers true [(ex_bitmap, 0)] [(ex_base, 1); (ex_bitmap, 2)]
  [OtherInfo 2 [x61]; BlockSize 1 4096 65536; Export 8 64].
Definition ex_server := ex_hello ++ ex_reply 8 1 []
  ++ (ex_reply 9 4 (be 4 0 ++ ex_bitmap) ++ ex_reply 9 1 []
  ++ ex_reply 10 4 (be 4 1 ++ ex_base) ++ ex_reply 10 4 (be 4 2 ++ ex_bitmap) ++ ex_reply 10 1 [])
  ++ ex_reply 7 3 (be 2 2 ++ [x61]) ++ ex_reply 7 3 (be 2 3 ++ be 4 1 ++ be 4 4096 ++ be 4 65536)
  ++ ex_reply 7 3 (be 2 0 ++ be 8 8 ++ be 2 64) ++ ex_reply 7 1 [].

Lemma ex_reply_bytes opt ty data : 0 <= opt < 2 ^ 32 -> 0 <= ty < 2 ^ 32 -> zlen data < 2 ^ 32 ->
  option_reply_bytes opt ty data (ex_reply opt ty data).
Proof.
  intros. exists (be 8 0x3e889045565a9), (be 4 opt), (be 4 ty), (be 4 (zlen data)). split; [reflexivity|].
  pose proof (zlen_nonneg data).
  split; [apply (u_be 8); lia|]. split; [apply (u_be 4); lia|]. split; [apply (u_be 4); lia|apply (u_be 4); lia].
Qed.
Ltac ex_r := apply ex_reply_bytes; vm_compute; intuition discriminate.

Lemma ex_server_bytes : server_bytes ex_utf8 true ex_answers ex_server.
Proof.
  exists ex_hello, (ex_reply 8 1 []).
  exists ((ex_reply 9 4 (be 4 0 ++ ex_bitmap) ++ ex_reply 9 1 [])
          ++ ex_reply 10 4 (be 4 1 ++ ex_base) ++ ex_reply 10 4 (be 4 2 ++ ex_bitmap) ++ ex_reply 10 1 []).
  eexists. split; [unfold ex_server; rewrite <- !app_assoc; reflexivity|].
  split. { exists (be 8 0x4e42444d41474943), (be 8 0x49484156454F5054), (be 2 3), 3. split; [reflexivity|].
           split; [apply (u_be 8); lia|]. split; [apply (u_be 8); lia|]. split; [apply (u_be 2); lia|reflexivity]. }
  split; [constructor; ex_r|]. cbn [a_structured ex_answers a_listed a_set a_infos]. split.
  { eexists _, _. split; [reflexivity|]. split.
    { eapply c_context; [apply (u_be 4); lia|reflexivity|ex_r|]. constructor. ex_r. }
    split.
    { eapply c_context; [apply (u_be 4); lia|reflexivity|ex_r|].
      eapply c_context; [apply (u_be 4); lia|reflexivity|ex_r|]. constructor. ex_r. }
    constructor; [left; reflexivity|]. constructor; [right; right; split; [reflexivity|discriminate]|constructor]. }
  split; [|exists 8, 64; cbn; auto].
  eapply g_info; [constructor; [discriminate|discriminate|apply (u_be 2); lia]|ex_r|].
  eapply g_info; [constructor; [apply (u_be 2); lia|apply (u_be 4); lia|apply (u_be 4); lia|apply (u_be 4); lia]|ex_r|].
  eapply g_info; [constructor; [apply (u_be 2); lia|apply (u_be 8); lia|apply (u_be 2); lia]|ex_r|].
  constructor. ex_r.
Qed.

Example handshake_complete_case :
  can_send ex_env /\ sendable [x78] true ex_answers /\ server_bytes ex_utf8 true ex_answers ex_server
  /\ exists s', connect ex_env ex_utf8 [x78] true (ex_start (ex_server ++ [x01; x02]))
     = (inl (Handshaken true [(ex_bitmap, 2); (ex_base, 1)] (Some ex_bitmap) (Some (8, 64)) (1, 4096, 65536)), s')
     /\ s_in s' = [x01; x02] /\ zlen (s_out s') = 4 + 16 + (16 + 31) + (16 + 76) + (16 + 7).
Proof.
  split; [exact ex_can_send|]. split; [vm_compute; reflexivity|]. split; [exact ex_server_bytes|].
  eexists. split; [vm_compute; reflexivity|]. split; reflexivity.
Qed.

Example handshake_contexts_case :
  NoDup (map fst (a_set ex_answers)) /\ NoDup (map snd (a_set ex_answers)).
Proof. split; repeat constructor; cbn; intuition discriminate. Qed.

(* The server refuses the export. *)
Example handshake_failure_case :
  exists s', connect ex_env ex_utf8 [x78] false (ex_start (ex_hello ++ ex_reply 8 (2 ^ 31 + 1) [x6e; x6f]
     ++ ex_reply 7 (2 ^ 31 + 6) [x6e; x6f] ++ [x01]))
  = (inr (OptionError (2 ^ 31 + 6)), s') /\ s_in s' = [x01] /\ zlen (s_out s') = 4 + 16 + 16 + 7 + 16.
Proof. eexists. split; [vm_compute; reflexivity|]. split; reflexivity. Qed.

(* Opening and reading 2 bytes; opening and asking for extents. *)
Example opened_backend_is_array_case :
  exists s1 h k s', connect ex_env ex_utf8 [x78] true
     (ex_start (ex_server ++ ex_chunk 0 1 1 (be 8 0 ++ [x41; x42]) ++ [x07])) = (inl h, s1)
  /\ to_client h = Some k
  /\ bcalls ex_env k [BReadinto [x00; x00]; BTell] (Backend MODE_R false 0 false false) s1
     = ([inl (2, [x41; x42]); inl (2, [])], Backend MODE_R false 2 false false, s') /\ s_in s' = [x07].
Proof.
  eexists _, _, _, _. split; [vm_compute; reflexivity|]. split; [reflexivity|].
  split; [vm_compute; reflexivity|reflexivity].
Qed.
Example opened_backend_extents_case :
  exists s1 h k s' out, connect ex_env ex_utf8 [x78] true
     (ex_start (ex_server ++ ex_status 0 0 1 [(8, 3)] ++ ex_status 0 1 2 [(4, 1); (4, 0)] ++ [x07])) = (inl h, s1)
  /\ to_client h = Some k
  /\ backend_extents ex_env k (has_base_allocation h) QDirty s1 = (out, inl tt, s')
  /\ map (fun e => (start_of e, length_of e)) out = [(0, 4); (4, 4)] /\ s_in s' = [x07].
Proof.
  eexists _, _, _, _, _. split; [vm_compute; reflexivity|]. split; [reflexivity|].
  split; [vm_compute; reflexivity|]. split; reflexivity.
Qed.
