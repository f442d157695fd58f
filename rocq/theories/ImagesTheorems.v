(* Theorems about requests for image data: C20, and what a whole GET, PUT or
   PATCH request does (C48, C49). *)
From Coq Require Import ZArith List Bool Ascii String Lia.
From Verif Require Import BytesLib HeaderModel HeaderSpec HeaderProofs HttpModel OpsModel
  OpsTheorems AuthModel ImagesModel ImagesSpec ImagesProofs.
Import ListNotations.
Open Scope Z_scope.

(* ---- C20 ---- *)

(* No request, successful or not, changes a byte of the image outside of
   [0, ticket size), or without write access. *)
Theorem changes_only_inside_ticket :
  forall v img q a,
  good_backend v ->
  get v img q = Some a \/ put v img q = Some a \/ patch v img q = Some a ->
  forall i, byte_at (a_img a) i <> byte_at img i ->
  exists size, access v q "write" size /\ 0 <= i < size.
Proof.
  intros v img q a GB E i D.
  assert (RF : refused img a -> False).
  { intros (_ & X & _). rewrite X in D. auto. }
  destruct E as [E|[E|E]].
  - apply get_cases in E as [E|(offset & size & tsize & bs & buf & _ & _ & _ & _ & _ & (X & _) & _)];
      [tauto|]. rewrite X in D. tauto.
  - apply put_cases in E as [E|(offset & size & flush & tsize & bs & buf & s & e &
      _ & S & O & _ & _ & A & B & _ & L & W & ->)]; [tauto|].
    destruct (GB _ _ B) as (B1 & B2 & B3).
    apply write_changes_only_requested_range in W as (n & N1 & N2 & N3 & R); auto; [|lia].
    exists tsize. split; auto.
      pose proof (byte_at_replaced img (w_img s) offset n _ i O ltac:(lia) R D). lia.
  - apply patch_cases in E as [E|(msg & _ & [[_ E]|[_ E]])]; [tauto| |].
    + apply zero_cases in E as [E|(offset & size & flush & tsize & bs & buf & s & e &
        _ & _ & _ & S & O & A & _ & _ & L & W & ->)]; [tauto|].
      apply zero_changes_only_requested_range in W as (n & N1 & N2 & R); auto.
      exists tsize. split; auto.
      pose proof (byte_at_replaced img (w_img s) offset n _ i O ltac:(lia) R D). lia.
    + apply flush_cases in E as [E|(tsize & A & ->)]; [tauto|]. cbn in D. tauto.
Qed.
Print Assumptions changes_only_inside_ticket.

(* Partial: a GET request sends only bytes in [0, ticket size), with read
   access, if it starts not after the end of the ticket or of the image.
   Missing: an open range starting later, where it is false, see below. *)
Theorem get_sends_only_ticket_bytes_partial :
  forall v img q a,
  good_backend v -> get v img q = Some a ->
  (forall n size, asks_from q n -> access v q "read" size -> n <= Z.min size (zlen img)) ->
  a_sent a = [] \/
  exists size offset n, access v q "read" size /\ 0 <= offset /\ 0 <= n /\ offset + n <= size /\
    is_range img offset n (a_sent a).
Proof.
  intros v img q a GB E H.
  apply get_cases in E as [(_ & _ & E & _)|(offset & size & tsize & bs & buf &
    O & F & A & B & S & _ & [(_ & _ & X & _)|(_ & s & e & R & _ & X & _)])]; auto.
  specialize (H _ _ F A). destruct (GB _ _ B) as (B1 & B2 & B3).
  assert (Z : 0 <= size /\ offset + size <= tsize).
  { unfold asks_from in F. destruct (q_range q) as [h|].
    - destruct S as (r & _ & _ & S). destruct (r_last r); lia.
    - lia. }
  apply read_sends_only_a_prefix in R as (n & N & R); auto; [|lia].
  right. exists tsize, offset, n. rewrite X. repeat split; auto; try lia; apply R; auto.
Qed.
Print Assumptions get_sends_only_ticket_bytes_partial.

(* Finding: a GET request with an open range starting after the end of the
   ticket succeeds with status 206 and sends bytes after that end, and also
   old content of the buffer, left from earlier requests. *)
Theorem get_sends_only_ticket_bytes_refuted :
  exists v img q a,
  good_backend v /\ access v q "read" 4 /\ get v img q = Some a /\
  a_err a = None /\ a_status a = 206 /\ a_length a = Some (-4) /\
  img = [x01; x02; x03; x04; x05; x06; x07; x08; x09; x0a; x0b; x0c; x0d; x0e; x0f; x10] /\
  i_open v = Backend 4 (repeat xee 16) /\
  a_sent a = [x09; x0a; x0b; x0c; x0d; x0e; x0f; x10; xee; xee; xee; xee].
Proof.
  exists (IEnv None (fun _ _ => Some 4) (Backend 4 (repeat xee 16)) false false
            (fun _ => RAns (Some 16) None false)
            (WOracle (fun _ => None) (fun _ => WFail 0) (fun _ => false) true) 10).
  exists [x01; x02; x03; x04; x05; x06; x07; x08; x09; x0a; x0b; x0c; x0d; x0e; x0f; x10].
  exists (IReq (lits "id") [] (Some (lits "bytes=8-")) None None [] (inl JNull)).
  eexists. split.
  { intros bs buf [= <- <-]. vm_compute. split; [reflexivity|]. split; [discriminate|reflexivity]. }
  split; [reflexivity|]. split; [vm_compute; reflexivity|]. repeat split.
Qed.
Print Assumptions get_sends_only_ticket_bytes_refuted.

(* No access: nothing is read, sent or changed; the answer is an error, and
   the connection is closed if the ticket was the reason. *)
Theorem no_access_does_nothing :
  forall v img q a,
  (get v img q = Some a /\ no_access v q "read")
  \/ ((put v img q = Some a \/ patch v img q = Some a) /\ no_access v q "write") ->
  a_img a = img /\ a_sent a = [] /\ a_op a = None /\ a_log a = [] /\
  exists e, a_err a = Some e /\
    (e = EHttp 403 /\ a_close a = true
     \/ e = EHttp 400 \/ e = EHttp 416 \/ e = EOther \/ e = EOSError).
Proof.
  intros v img q a H.
  assert (X : denied img a).
  { destruct H as [[E A]|[[E|E] A]]; [eapply get_denied|eapply put_denied|eapply patch_denied]; eauto. }
  destruct X as ((A & B & C & D & _) & e & E & F). repeat split; auto.
  exists e. unfold bad_request in F. tauto.
Qed.
Print Assumptions no_access_does_nothing.

(* An operation never runs on a range that is not inside of the ticket, for
   PUT and PATCH. *)
Theorem modifying_operation_inside_ticket :
  forall v img q a o,
  put v img q = Some a \/ patch v img q = Some a -> a_op a = Some o ->
  exists size, access v q "write" size /\ op_inside size o.
Proof.
  intros v img q a o [E|E] O.
  - apply put_cases in E as [E|(offset & size & flush & tsize & bs & buf & s & e &
      _ & S & Of & _ & _ & A & B & _ & L & W & ->)].
    + destruct E as (E & _). congruence.
    + injection O as <-. exists tsize. cbn. auto.
  - apply patch_cases in E as [E|(msg & _ & [[_ E]|[_ E]])].
    + destruct E as (E & _). congruence.
    + apply zero_cases in E as [E|(offset & size & flush & tsize & bs & buf & s & e &
        _ & _ & _ & S & Of & A & _ & _ & L & W & ->)].
      * destruct E as (E & _). congruence.
      * injection O as <-. exists tsize. cbn. auto.
    + apply flush_cases in E as [E|(tsize & A & ->)].
      * destruct E as (E & _). congruence.
      * injection O as <-. exists tsize. cbn. auto.
Qed.
Print Assumptions modifying_operation_inside_ticket.

(* ---- C48: what a successful request does ---- *)

(* PUT: if no error is reported, the image has the bytes of the body at the
   offset of the Content-Range header, and nothing else has changed; the data
   was flushed if this was not disabled. *)
Theorem put_stores_body :
  forall v img q a,
  good_backend v -> cancel_consistent v -> put v img q = Some a -> a_err a = None ->
  exists offset size,
    content_length (i_lim v) (q_clen q) = inl (Some size) /\
    (match q_crange q with
     | None => offset = 0
     | Some h => exists r, content_range_parse (i_lim v) h = inl r /\ offset = cr_first r
     end) /\
    size <= zlen (q_data q) /\
    replaced img (a_img a) offset size (getb (q_data q)) /\
    (if match lookup (q_query q) (lits "flush") with
        | Some f => str_eqb f (lits "y") | None => true end
     then exists log, a_log a = log ++ [EFlush] /\ ~ In EFlush log
     else ~ In EFlush (a_log a)).
Proof.
  intros v img q a GB C E N.
  apply put_cases in E as [(_ & _ & _ & _ & E)|(offset & size & flush & tsize & bs & buf & s & e &
      CL & S & Of & CR & FL & A & B & _ & L & W & ->)]; [tauto|].
  cbn [a_err] in N. apply op_result_none in N as [NC N]. destruct (C NC) as [C1 _].
  destruct (GB _ _ B) as (B1 & B2 & B3).
  assert (e = Success).
  { destruct N as [N|N]; auto. exfalso. eapply write_run_nc; eauto. }
  subst e. exists offset, size. split; auto. split; auto.
  pose proof W as W'. apply write_stores_exact_bytes in W as (X & Y & _ & _); auto; [|lia].
  split; auto. split; auto.
  assert (Z : (match lookup (q_query q) (lits "flush") with
        | Some f => str_eqb f (lits "y") | None => true end) = flush).
  { unfold enum_query in FL. destruct (lookup _ _) as [f|]; [destruct (existsb _ _); [|discriminate]|];
      injection FL as FL; [subst f|]; destruct flush; auto; discriminate. }
  rewrite Z. cbn [a_log].
  pose proof (flush_after_last_modification img (q_data q) bs (zlen buf) offset size flush
    (i_write v) (i_fuel v) s B1 ltac:(lia) Of S (or_introl W')) as F.
  destruct flush; auto. destruct F as (log & F1 & F2 & _). eauto.
Qed.
Print Assumptions put_stores_body.

Lemma integer_member msg name d n :
  integer (JObj msg) (lits name) 0 d = inl n -> (forall x, d = Some x -> 0 <= x) ->
  int_member msg name d n.
Proof.
  unfold integer, int_member. cbn [get_item hbind]. intros E D.
  destruct (lookup msg (lits name)) as [[|b|k| | | |]|]; try discriminate.
  - destruct b; cbn in E; injection E as <-; split; try lia; auto.
  - destruct (Z.ltb_spec k 0); [discriminate|]. injection E as <-. auto.
  - destruct d as [d|]; [|discriminate]. injection E as <-. split; auto.
Qed.

Lemma boolean_member msg name b :
  boolean (JObj msg) (lits name) false = inl b -> flag_member msg name b.
Proof.
  unfold boolean, flag_member. cbn [get_item hbind]. intros E.
  destruct (lookup msg (lits name)) as [[|c|k| | | |]|]; try discriminate; injection E as <-; auto.
Qed.

(* PATCH with op "zero". *)
Theorem zero_request_zeroes :
  forall v img q a msg,
  good_backend v -> cancel_consistent v -> patch v img q = Some a -> a_err a = None ->
  q_json q = inl (JObj msg) -> lookup msg (lits "op") = Some (JStr (lits "zero")) ->
  exists offset size flush,
    int_member msg "size" None size /\
    int_member msg "offset" (Some 0) offset /\
    flag_member msg "flush" flush /\
    replaced img (a_img a) offset size (fun _ => x00) /\
    (if flush : bool then exists log, a_log a = log ++ [EFlush] /\ ~ In EFlush log
     else ~ In EFlush (a_log a)).
Proof.
  intros v img q a msg GB C E N J O.
  apply patch_cases in E as [(_ & _ & _ & _ & E)|(m & M & E)]; [tauto|].
  rewrite J in M. injection M as <-. cbn [get_item] in E. rewrite O in E.
  destruct E as [[_ E]|[X _]]; [|discriminate].
  apply zero_cases in E as [(_ & _ & _ & _ & E)|(offset & size & flush & tsize & bs & buf & s & e &
      I1 & I2 & I3 & S & Of & A & B & _ & L & W & ->)]; [tauto|].
  cbn [a_err] in N. apply op_result_none in N as [NC N]. destruct (C NC) as [C1 _].
  assert (e = Success).
  { destruct N as [N|N]; auto. exfalso. eapply zero_run_nc; eauto. }
  subst e. exists offset, size, flush. cbn [a_log a_img].
  pose proof W as W'. apply zero_zeroes_exactly in W as (X & _); auto.
  destruct (GB _ _ B) as (B1 & B2 & B3).
  pose proof (flush_after_last_modification img [] bs (zlen buf) offset size flush
    (i_write v) (i_fuel v) s B1 ltac:(lia) Of S (or_intror W')) as F.
  split; [apply integer_member; auto; discriminate|].
  split; [apply integer_member; auto; intros y [= <-]; lia|].
  split; [apply boolean_member; auto|]. split; [assumption|].
  destruct flush; auto. destruct F as (log & F1 & F2 & _). eauto.
Qed.
Print Assumptions zero_request_zeroes.

(* PATCH with op "flush". *)
Theorem flush_request_flushes :
  forall v img q a msg,
  patch v img q = Some a -> a_err a = None ->
  q_json q = inl (JObj msg) -> lookup msg (lits "op") = Some (JStr (lits "flush")) ->
  a_img a = img /\ a_log a = [EFlush] /\ wo_flush (i_write v) = true.
Proof.
  intros v img q a msg E N J O.
  apply patch_cases in E as [(_ & _ & _ & _ & E)|(m & M & E)]; [tauto|].
  rewrite J in M. injection M as <-. cbn [get_item] in E. rewrite O in E.
  destruct E as [[X _]|[_ E]]; [discriminate|].
  apply flush_cases in E as [(_ & _ & _ & _ & E)|(tsize & A & ->)]; [tauto|].
  cbn in *. destruct (i_canceled v); [discriminate|].
  destruct (wo_flush (i_write v)); [auto|discriminate].
Qed.
Print Assumptions flush_request_flushes.

(* GET: if no error is reported, exactly the bytes announced are sent; without
   Range header all of the image up to the end of the ticket, otherwise the
   range asked for, with its position in the Content-Range header.  (An open
   range must start not after the end, see above.) *)
Theorem get_sends_requested_bytes :
  forall v img q a,
  good_backend v -> cancel_consistent v -> get v img q = Some a -> a_err a = None ->
  (forall n size, asks_from q n -> access v q "read" size -> n <= Z.min size (zlen img)) ->
  exists tsize offset size,
    access v q "read" tsize /\ asks_from q offset /\
    is_range img offset size (a_sent a) /\ a_length a = Some size /\
    match q_range q with
    | None => a_status a = 200 /\ a_crange a = None /\ size = Z.min tsize (zlen img)
    | Some h =>
        a_status a = 206 /\ a_crange a = Some (offset, offset + size - 1, tsize) /\
        exists r, range_parse None h = inl r /\ r_first r = offset /\
          match r_last r with
          | Some last => offset + size - 1 = last
          | None => offset + size = Z.min tsize (zlen img)
          end
    end.
Proof.
  intros v img q a GB C E N H.
  apply get_cases in E as [(_ & _ & _ & _ & E)|(offset & size & tsize & bs & buf &
    O & F & A & B & S & (I1 & I2 & I3 & I4 & I5) & X)]; [tauto|].
  destruct X as [(_ & _ & _ & _ & X)|(_ & s & e & R & _ & X & _ & X')]; [congruence|].
  rewrite X' in N. apply op_result_none in N as [NC N]. destruct (C NC) as [_ C1].
  assert (e = Success).
  { destruct N as [N|N]; auto. exfalso. eapply read_run_nc; eauto. }
  subst e. specialize (H _ _ F A). destruct (GB _ _ B) as (B1 & B2 & B3).
  assert (Z : 0 <= size).
  { unfold asks_from in F. destruct (q_range q) as [h|].
    - destruct S as (r & _ & _ & S). destruct (r_last r); lia.
    - lia. }
  apply read_sends_exact_bytes in R as [R _]; auto.
  exists tsize, offset, size. rewrite X.
  split; auto. split; auto. split; auto. split; auto.
  unfold asks_from in F. destruct (q_range q) as [h|].
  - destruct S as (r & P & -> & S). split; auto. split; auto. exists r.
    split; [eapply range_parse_mono; eauto|]. split; auto. destruct (r_last r); lia.
  - subst offset. auto.
Qed.
Print Assumptions get_sends_requested_bytes.

(* Requests out of range are answered with 416 and do nothing. *)
Theorem out_of_range_is_416 :
  forall v img q size,
  (forall n m a bs buf h, q_id q <> [] ->
     access v q "read" size -> i_open v = Backend bs buf ->
     q_range q = Some h -> range_parse (i_lim v) h = inl (Range n (Some m)) ->
     Z.min size (zlen img) <= m -> get v img q = Some a ->
     nothing_done img a 416) /\
  (forall n a bs buf r, q_id q <> [] ->
     access v q "write" size -> i_open v = Backend bs buf ->
     content_length (i_lim v) (q_clen q) = inl (Some n) ->
     match q_crange q with
     | None => r = ContentRange 0 None None
     | Some h => content_range_parse (i_lim v) h = inl r
     end ->
     match lookup (q_query q) (lits "flush") with
     | Some f => f = lits "y" \/ f = lits "n" | None => True end ->
     size < cr_first r + n -> put v img q = Some a ->
     nothing_done img a 416).
Proof.
  assert (RF : forall img c a, Some (refuse img c (EHttp 416)) = Some a -> nothing_done img a 416).
  { intros img c a [= <-]. repeat split. }
  intros v img q size. split.
  - intros n m a bs buf h I A B R P L E. unfold get in E.
    destruct (q_id q) as [|c0 id0] eqn:Q; [tauto|]. rewrite R, P in E. cbn [r_first r_last] in E.
    apply range_cases in P as (h' & f & _ & F & X).
    assert (0 <= n).
    { inversion F; subst; try discriminate. injection X as -> ->. eapply decimal_nonneg; eauto. }
    replace (n <? 0) with false in E by lia.
    unfold access in A. unfold enter in E. rewrite Q in *. rewrite A, B in E. clear F X.
    cbn [hbind] in E. unfold allowed_range, available_range in E.
    destruct (Z.gtb_spec (n + (m - n + 1)) size); [cbn [hbind] in E; eauto|].
    cbn [hbind] in E.
    destruct (Z.gtb_spec (n + (m - n + 1)) (Z.min size (zlen img))); [cbn [hbind] in E; eauto|].
    lia.
  - intros n a bs buf r I A B CL CR FL L E. unfold put in E.
    destruct (q_id q) as [|c0 id0] eqn:Q; [tauto|]. rewrite CL in E.
    assert (X : (match q_crange q with
       | Some h => match content_range_parse (i_lim v) h with
                   | inl r0 => inl (cr_first r0) | inr e => inr (hexc_exc e) end
       | None => inl 0 end) = inl (cr_first r)).
    { destruct (q_crange q); [rewrite CR|subst r]; reflexivity. }
    rewrite X in E.
    assert (Y : exists f, enum_query (q_query q) (lits "flush") [lits "y"; lits "n"] (lits "y") = inl f).
    { unfold enum_query. destruct (lookup _ _); eauto.
      destruct FL as [->| ->]; cbn; eauto. }
    destruct Y as [f Y]. rewrite Y in E.
    unfold access in A. unfold enter in E. rewrite Q in *. rewrite A, B in E.
    unfold allowed_range in E. destruct (Z.gtb_spec (cr_first r + n) size); [eauto|lia].
Qed.
Print Assumptions out_of_range_is_416.

(* The connection is closed after a request if the client asks for this, also
   if the request fails; after a request without error it is closed only
   then. *)
Theorem close_as_asked :
  forall v img q a,
  ((get v img q = Some a \/ put v img q = Some a) ->
   (asks_to_close q -> q_id q <> [] -> a_close a = true) /\
   (a_err a = None -> a_close a = true -> asks_to_close q)) /\
  (patch v img q = Some a -> a_err a = None -> a_close a = false).
Proof.
  assert (W : forall q, wants_close q = true <-> asks_to_close q).
  { intros q. unfold wants_close, asks_to_close. destruct (lookup _ _) as [w|]; [|split; discriminate].
    rewrite HttpProofs.str_eqb_eq. split; [intros ->|intros [= ->]]; auto. }
  assert (N : forall c e, fst (op_result c e) = None -> snd (op_result c e) = false).
  { intros [] []; cbn; congruence. }
  intros v img q a. split.
  - intros E. rewrite <- W. split.
    + intros C Q. destruct E as [E|E].
      * unfold get in E. rewrite C in E. destruct (q_id q); [tauto|].
        destruct (match q_range q with Some _ => _ | None => _ end) as [[o sz]|e];
          [|injection E as <-; reflexivity].
        destruct (enter _ _ _) as [[[ts bs] buf]|[e c']]; [|injection E as <-; reflexivity].
        destruct (match sz with Some _ => _ | None => _ end) as [size|e]; [|injection E as <-; reflexivity].
        destruct (i_refused v); [injection E as <-; reflexivity|].
        destruct (read_run _ _ _ _ _ _ _) as [[s1 e]|]; [|discriminate].
        destruct (op_result _ _). injection E as <-. reflexivity.
      * unfold put in E. rewrite C in E. destruct (q_id q); [tauto|].
        destruct (content_length _ _) as [[size|]|e]; [|injection E as <-; reflexivity|injection E as <-; reflexivity].
        destruct (match q_crange q with Some _ => _ | None => _ end) as [o|e];
          [|injection E as <-; reflexivity].
        destruct (enum_query _ _ _ _); [|injection E as <-; reflexivity].
        destruct (enter _ _ _) as [[[ts bs] buf]|[e c']]; [|injection E as <-; reflexivity].
        destruct (allowed_range _ _ _); [|injection E as <-; reflexivity].
        destruct (i_refused v); [injection E as <-; reflexivity|].
        destruct (write_run _ _ _ _ _ _ _ _ _) as [[s1' e]|]; [|discriminate].
        destruct (op_result _ _). injection E as <-. reflexivity.
    + intros NE C. destruct E as [E|E].
      * apply get_cases in E as [(_ & _ & _ & _ & E)|(offset & size & tsize & bs & buf &
          _ & _ & _ & _ & _ & _ & [(_ & _ & _ & _ & X)|(_ & s & e & _ & _ & _ & X & Y)])];
          [tauto|congruence|].
        rewrite Y in NE. rewrite X, (N _ _ NE), orb_false_r in C. auto.
      * apply put_cases in E as [(_ & _ & _ & _ & E)|(offset & size & flush & tsize & bs & buf & s & e &
          _ & _ & _ & _ & _ & _ & _ & _ & _ & _ & ->)]; [tauto|].
        cbn [a_err a_close] in *. rewrite (N _ _ NE), orb_false_r in C. auto.
  - intros E NE. apply patch_cases in E as [(_ & _ & _ & _ & E)|(m & M & [[_ E]|[_ E]])]; [tauto| |].
    + apply zero_cases in E as [(_ & _ & _ & _ & E)|(offset & size & flush & tsize & bs & buf & s & e &
        _ & _ & _ & _ & _ & _ & _ & _ & _ & _ & ->)]; [tauto|]. cbn [a_err a_close] in *. auto.
    + apply flush_cases in E as [(_ & _ & _ & _ & E)|(tsize & A & ->)]; [tauto|].
      cbn [a_err a_close] in *. destruct (i_canceled v); [discriminate|auto].
Qed.
Print Assumptions close_as_asked.

(* Every request gets an answer. *)
Definition with_fuel (v : ienv) (fuel : nat) : ienv :=
  IEnv (i_lim v) (i_auth v) (i_open v) (i_refused v) (i_canceled v) (i_read v) (i_write v) fuel.

Theorem every_request_ends :
  forall v img q,
  good_backend v ->
  (exists fuel a, get (with_fuel v fuel) img q = Some a) /\
  (exists fuel a, put (with_fuel v fuel) img q = Some a) /\
  (exists fuel a, patch (with_fuel v fuel) img q = Some a).
Proof.
  intros v img q GB. split; [|split].
  - unfold get. cbn [with_fuel i_lim i_auth i_open i_refused i_canceled i_read i_write i_fuel].
    destruct (q_id q) as [|c0 id0] eqn:Q; [exists O; eauto|].
    destruct (match q_range q with Some _ => _ | None => _ end) as [[o sz]|e] eqn:R; [|exists O; eauto].
    assert (O : 0 <= o).
    { destruct (q_range q) as [h|]; [|injection R as <-; lia].
      destruct (range_parse (i_lim v) h) as [r|]; [|discriminate].
      destruct (Z.ltb_spec (r_first r) 0); [discriminate|]. injection R as <-. auto. }
    unfold enter. cbn [with_fuel i_lim i_auth i_open]. 
    destruct (i_auth v (q_id q) "read"); [|exists 0%nat; eauto].
    destruct (i_open v) as [[]|bs buf] eqn:B; [exists 0%nat; eauto|exists 0%nat; eauto|].
    destruct (match sz with Some _ => _ | None => _ end) as [size|e]; [|exists 0%nat; eauto].
    destruct (i_refused v); [exists 0%nat; eauto|].
    destruct (GB _ _ B) as (B1 & _).
    destruct (read_terminates img buf bs o size (i_read v) B1 O) as (fuel & [s e] & T).
    exists fuel. rewrite T. destruct (op_result _ _). eauto.
  - unfold put. cbn [with_fuel i_lim i_auth i_open i_refused i_canceled i_read i_write i_fuel].
    destruct (q_id q) as [|c0 id0] eqn:Q; [exists O; eauto|].
    destruct (content_length _ _) as [[size|]|e] eqn:CL; [|exists 0%nat; eauto|exists 0%nat; eauto].
    destruct (match q_crange q with Some _ => _ | None => _ end) as [o|e] eqn:R; [|exists O; eauto].
    assert (O : 0 <= o).
    { destruct (q_crange q) as [h|]; [|injection R as <-; lia].
      destruct (content_range_parse (i_lim v) h) as [r|] eqn:P; [|discriminate].
      injection R as <-. eapply content_range_first_nonneg; eauto. }
    destruct (enum_query _ _ _ _) as [fl|]; [|exists 0%nat; eauto].
    unfold enter. cbn [with_fuel i_lim i_auth i_open].
    destruct (i_auth v (q_id q) "write"); [|exists 0%nat; eauto].
    destruct (i_open v) as [[]|bs buf] eqn:B; [exists 0%nat; eauto|exists 0%nat; eauto|].
    destruct (allowed_range _ _ _); [|exists 0%nat; eauto].
    destruct (i_refused v); [exists 0%nat; eauto|].
    destruct (GB _ _ B) as (B1 & B2 & _).
    destruct (write_terminates img (q_data q) bs (zlen buf) o (Some size) (str_eqb fl (lits "y"))
                (i_write v) B1 ltac:(lia) O) as (fuel & [s1 e] & T).
    { intros n [= <-]. eapply content_length_nonneg; eauto. }
    exists fuel. rewrite T. destruct (op_result _ _). eauto.
  - unfold patch. cbn [with_fuel].
    destruct (q_id q) as [|c0 id0] eqn:Q; [exists O; eauto|].
    destruct (q_json q) as [msg|]; [|exists 0%nat; eauto].
    destruct (enum_json _ _ _) as [op|]; [|exists 0%nat; eauto].
    destruct (str_eqb _ _).
    + unfold patch_zero. cbn [with_fuel i_lim i_auth i_open i_refused i_canceled i_read i_write i_fuel].
      destruct (integer msg (lits "size") 0 None) as [size|] eqn:S; cbn [hbind]; [|exists 0%nat; eauto].
      destruct (integer msg (lits "offset") 0 (Some 0)) as [o|]; cbn [hbind]; [|exists 0%nat; eauto].
      destruct (boolean _ _ _) as [flush|]; cbn [hbind]; [|exists 0%nat; eauto].
      unfold enter. cbn [with_fuel i_lim i_auth i_open].
      destruct (i_auth v (q_id q) "write"); [|exists 0%nat; eauto].
      destruct (i_open v) as [[]|bs buf] eqn:B; [exists 0%nat; eauto|exists 0%nat; eauto|].
      destruct (allowed_range _ _ _); [|exists 0%nat; eauto].
      destruct (i_refused v); [exists 0%nat; eauto|].
      destruct (zero_terminates img o size flush (i_write v)) as (fuel & [s1 e] & T).
      { eapply integer_min; [|exact S]. discriminate. }
      exists fuel. rewrite T. destruct (op_result _ _). eauto.
    + exists 0%nat. unfold patch_flush.
      destruct (enter _ _ _) as [|[? ?]]; [|eauto]. destruct (i_refused _); [eauto|].
      destruct (flush_run _ _) as [s1 e]. destruct (op_result _ _). eauto.
Qed.
Print Assumptions every_request_ends.

(* ---- C49: OPTIONS ---- *)

(* OPTIONS lists exactly the methods the ticket permits: a method is listed if
   and only if authorization for its operation would be granted. *)
Theorem options_lists_permitted_methods :
  forall v s now ops q readers local o t,
  (forall u op, i_auth v u op = None <-> authorize s now (string_of_list_ascii u) op <> Granted) ->
  s (string_of_list_ascii (q_id q)) = Some t -> ops = t_ops t ->
  options v (may ops) readers local q = inl o -> q_id q <> lits "*" ->
  In "OPTIONS"%string (o_allow o) /\
  (In "GET"%string (o_allow o) <-> authorize s now (string_of_list_ascii (q_id q)) "read" = Granted) /\
  (In "PUT"%string (o_allow o) <-> authorize s now (string_of_list_ascii (q_id q)) "write" = Granted) /\
  (In "PATCH"%string (o_allow o) <-> authorize s now (string_of_list_ascii (q_id q)) "write" = Granted) /\
  o_touched o = true /\ o_readers o = Some readers.
Proof.
  intros v s now ops q readers local o t A T -> E N.
  unfold options in E. destruct (q_id q) as [|c0 id0] eqn:Q; [discriminate|].
  destruct (str_eqb _ _) eqn:S. { apply HttpProofs.str_eqb_eq in S. tauto. }
  rewrite <- Q in *. unfold enter in E.
  destruct (i_auth v (q_id q) "read") eqn:R; [|discriminate].
  destruct (i_open v) as [[]|]; try discriminate. injection E as <-.
  assert (G : authorize s now (string_of_list_ascii (q_id q)) "read" = Granted).
  { destruct (authorize s now (string_of_list_ascii (q_id q)) "read") eqn:G; auto;
      exfalso; assert (X : i_auth v (q_id q) "read" = None) by (apply A; rewrite G; discriminate);
      congruence. }
  assert (W : authorize s now (string_of_list_ascii (q_id q)) "write" = Granted <->
              may (t_ops t) "write" = true).
  { unfold authorize in *. rewrite T in *. destruct (t_canceled t); [discriminate|].
    destruct (_ <=? _); [discriminate|]. destruct (may (t_ops t) "write"); cbn; split; congruence. }
  assert (GR : may (t_ops t) "read" = true).
  { unfold authorize in G. rewrite T in G. destruct (t_canceled t); [discriminate|].
    destruct (_ <=? _); [discriminate|]. destruct (may (t_ops t) "read"); auto. discriminate. }
  cbn [o_allow o_touched o_readers]. rewrite GR, W, G.
  destruct (may (t_ops t) "write"); cbn; intuition congruence.
Qed.
Print Assumptions options_lists_permitted_methods.

(* The errors of requests: 400, 416, 403 with a reason, and then the connection is
   closed; other exceptions of the backend and of the connection.  The handler
   closes the connection only if the client asked for it, or with 403. *)
Theorem error_statuses :
  forall v img q a,
  (get v img q = Some a \/ put v img q = Some a \/ patch v img q = Some a) ->
  (forall e, a_err a = Some e ->
   e = EHttp 400 \/ e = EHttp 416 \/ e = EOther \/ e = EOSError \/
   e = EHttp 403 /\ a_close a = true /\ exists op, (op = "read" \/ op = "write")%string /\ forbidden v q op) /\
  (a_close a = true -> asks_to_close q \/ a_err a = Some (EHttp 403)) /\
  (patch v img q = Some a -> a_close a = true -> a_err a = Some (EHttp 403)).
Proof.
  assert (W : forall q, wants_close q = true <-> asks_to_close q).
  { intros q. unfold wants_close, asks_to_close. destruct (lookup _ _) as [w|]; [|split; discriminate].
    rewrite HttpProofs.str_eqb_eq. split; [intros ->|intros [= ->]]; auto. }
  assert (BAD : forall v q img a e, bad_request e -> a = refuse img (a_close a) e ->
    forall e', a_err a = Some e' -> e' = EHttp 400 \/ e' = EHttp 416 \/ e' = EOther \/ e' = EOSError \/
    e' = EHttp 403 /\ a_close a = true /\ exists op, (op = "read" \/ op = "write")%string /\ forbidden v q op).
  { intros v q img a e B -> e' [= <-]. unfold bad_request in B. tauto. }
  assert (EN : forall v q op e c, (op = "read" \/ op = "write")%string -> enter v q op = inr (e, c) ->
    (e = EOther /\ c = false) \/ (e = EHttp 403 /\ c = true /\ exists op, (op = "read" \/ op = "write")%string /\ forbidden v q op)).
  { intros v q op e c O. unfold enter, forbidden, no_access. destruct (i_auth v (q_id q) op) eqn:A.
    - destruct (i_open v) as [[]|] eqn:OP; try discriminate; intros [= <- <-]; eauto 10.
    - intros [= <- <-]. eauto 10. }
  assert (RES : forall v q e err c, op_result (i_canceled v) e = (err, c) ->
    (forall e', err = Some e' -> e' = EHttp 400 \/ e' = EHttp 416 \/ e' = EOther \/ e' = EOSError \/
       e' = EHttp 403 /\ c = true /\ exists op, (op = "read" \/ op = "write")%string /\ forbidden v q op) /\
    (c = true -> err = Some (EHttp 403))).
  { intros v q e err c. unfold op_result, forbidden. destruct (i_canceled v) eqn:C; [intros [= <- <-]; split; auto; intros e' [= <-]; do 4 right; eauto 10|].
    destruct e; intros [= <- <-]; split; try discriminate; intros e' [= <-]; auto. }
  assert (G : forall v img q a, get v img q = Some a ->
   (forall e, a_err a = Some e -> e = EHttp 400 \/ e = EHttp 416 \/ e = EOther \/ e = EOSError \/
     e = EHttp 403 /\ a_close a = true /\ exists op, (op = "read" \/ op = "write")%string /\ forbidden v q op) /\
   (a_close a = true -> asks_to_close q \/ a_err a = Some (EHttp 403))).
  { intros v img q a E. rewrite <- W. unfold get in E. destruct (q_id q) eqn:Q; [injection E as <-; split; [eapply BAD; eauto using bad400|discriminate]|].
    destruct (match q_range q with Some _ => _ | None => _ end) as [[o sz]|e] eqn:R.
    2:{ injection E as <-. split; [|cbn; auto]. eapply BAD; [|reflexivity]. destruct (q_range q) as [h|]; [|discriminate].
        destruct (range_parse (i_lim v) h) as [r|x] eqn:P; [destruct (_ <? _); [|discriminate]; injection R as <-; unfold bad_request; auto|].
        injection R as <-. eapply range_parse_bad; eauto. }
    destruct (enter v q "read") as [[[tsize bs] buf]|[e c]] eqn:X.
    2:{ injection E as <-. destruct (EN _ _ _ _ _ (or_introl eq_refl) X) as [(-> & ->)|(-> & -> & P)]; cbn; rewrite ?orb_true_r, ?orb_false_r; split; auto;
          intros e' [= <-]; auto 12. }
    destruct (match sz with Some _ => _ | None => _ end) as [size|e] eqn:SZ.
    2:{ injection E as <-. split; [|cbn; auto]. eapply BAD; [|reflexivity]. destruct sz as [k|]; [|discriminate].
        unfold allowed_range, available_range in SZ. destruct (_ >? _); cbn in SZ; [injection SZ as <-; unfold bad_request; auto|].
        destruct (_ >? _); cbn in SZ; [injection SZ as <-; unfold bad_request; auto|discriminate]. }
    destruct (i_refused v) eqn:RF.
    { injection E as <-. cbn. split; [|auto]. intros e [= <-]. do 4 right. unfold forbidden. eauto 10. }
    destruct (read_run _ _ _ _ _ _ _) as [[s9 e9]|]; [|discriminate]. destruct (op_result _ _) as [err c] eqn:OR.
    injection E as <-. cbn. destruct (RES _ q _ _ _ OR) as [R1 R2]. split.
    - intros e' Y. destruct (R1 _ Y) as [T|[T|[T|[T|(T & -> & P)]]]]; auto. rewrite orb_true_r. auto 12.
    - rewrite orb_true_iff. intros [Y|Y]; auto. }
  assert (P : forall v img q a, put v img q = Some a ->
   (forall e, a_err a = Some e -> e = EHttp 400 \/ e = EHttp 416 \/ e = EOther \/ e = EOSError \/
     e = EHttp 403 /\ a_close a = true /\ exists op, (op = "read" \/ op = "write")%string /\ forbidden v q op) /\
   (a_close a = true -> asks_to_close q \/ a_err a = Some (EHttp 403))).
  { intros v img q a E. rewrite <- W. unfold put in E. destruct (q_id q) eqn:Q; [injection E as <-; split; [eapply BAD; eauto using bad400|discriminate]|].
    destruct (content_length _ _) as [[size|]|e] eqn:CL.
    2:{ injection E as <-. split; [eapply BAD; eauto using bad400|cbn; auto]. }
    2:{ apply content_length_error in CL. subst. injection E as <-. split; [eapply BAD; [apply bad400|reflexivity]|cbn; auto]. }
    destruct (match q_crange q with Some _ => _ | None => _ end) as [o|e] eqn:R.
    2:{ injection E as <-. split; [|cbn; auto]. eapply BAD; [|reflexivity]. destruct (q_crange q) as [h|]; [|discriminate].
        destruct (content_range_parse (i_lim v) h) as [r|x] eqn:PP; [discriminate|]. injection R as <-. eapply content_range_parse_bad; eauto. }
    destruct (enum_query _ _ _ _) as [f|e] eqn:F.
    2:{ injection E as <-. split; [eapply BAD; [eapply enum_query_bad; eauto|reflexivity]|cbn; auto]. }
    destruct (enter v q "write") as [[[tsize bs] buf]|[e c]] eqn:X.
    2:{ injection E as <-. destruct (EN _ _ _ _ _ (or_intror eq_refl) X) as [(-> & ->)|(-> & -> & P)]; cbn; rewrite ?orb_true_r, ?orb_false_r; split; auto;
          intros e' [= <-]; auto 12. }
    destruct (allowed_range _ _ _) as [u|e] eqn:AL.
    2:{ injection E as <-. split; [|cbn; auto]. eapply BAD; [|reflexivity]. unfold allowed_range in AL. destruct (_ >? _); [|discriminate].
        injection AL as <-. unfold bad_request; auto. }
    destruct (i_refused v) eqn:RF.
    { injection E as <-. cbn. split; [|auto]. intros e [= <-]. do 4 right. unfold forbidden. eauto 10. }
    destruct (write_run _ _ _ _ _ _ _ _ _) as [[s9 e9]|]; [|discriminate]. destruct (op_result _ _) as [err c] eqn:OR.
    injection E as <-. cbn. destruct (RES _ q _ _ _ OR) as [R1 R2]. split.
    - intros e' Y. destruct (R1 _ Y) as [T|[T|[T|[T|(T & -> & P)]]]]; auto. rewrite orb_true_r. auto 12.
    - rewrite orb_true_iff. intros [Y|Y]; auto. }
  assert (PA : forall v img q a, patch v img q = Some a ->
   (forall e, a_err a = Some e -> e = EHttp 400 \/ e = EHttp 416 \/ e = EOther \/ e = EOSError \/
     e = EHttp 403 /\ a_close a = true /\ exists op, (op = "read" \/ op = "write")%string /\ forbidden v q op) /\
   (a_close a = true -> a_err a = Some (EHttp 403))).
  { intros v img q a E. unfold patch in E. destruct (q_id q) eqn:Q; [injection E as <-; split; [eapply BAD; eauto using bad400|discriminate]|].
    destruct (q_json q) as [msg|f].
    2:{ injection E as <-. split; [|discriminate]. eapply BAD; [|reflexivity]. destruct f; unfold bad_request; cbn; auto. }
    destruct (enum_json _ _ _) as [op|e] eqn:J.
    2:{ injection E as <-. split; [|discriminate]. eapply BAD; [|reflexivity]. eapply enum_json_bad; eauto. }
    assert (E1 : forall e c, enter v q "write" = inr (e, c) ->
       (forall e', a_err (refuse img c e) = Some e' -> e' = EHttp 400 \/ e' = EHttp 416 \/ e' = EOther \/ e' = EOSError \/
          e' = EHttp 403 /\ a_close (refuse img c e) = true /\ exists op, (op = "read" \/ op = "write")%string /\ forbidden v q op) /\
       (a_close (refuse img c e) = true -> a_err (refuse img c e) = Some (EHttp 403))).
    { intros e c X. destruct (EN _ _ _ _ _ (or_intror eq_refl) X) as [(-> & ->)|(-> & -> & PP)]; cbn; split; auto; try discriminate;
          intros e' [= <-]; auto 12. }
    destruct (str_eqb op _).
    - unfold patch_zero in E. destruct (hbind _ _) as [[[size o] fl]|e] eqn:H.
      2:{ injection E as <-. split; [|discriminate]. eapply BAD; [|reflexivity].
          destruct (integer msg (lits "size") 0 None) as [n1|x] eqn:S; cbn [hbind] in H; [|injection H as <-; eapply integer_bad; eauto].
          destruct (integer msg (lits "offset") 0 (Some 0)) as [n2|x] eqn:O; cbn [hbind] in H; [|injection H as <-; eapply integer_bad; eauto].
          destruct (boolean msg (lits "flush") false) as [n3|x] eqn:B; cbn [hbind] in H; [discriminate|]. injection H as <-. eapply boolean_bad; eauto. }
      destruct (enter v q "write") as [[[tsize bs] buf]|[e c]] eqn:X; [|injection E as <-; auto].
      destruct (allowed_range _ _ _) as [u|e] eqn:AL.
      2:{ injection E as <-. split; [|discriminate]. eapply BAD; [|reflexivity]. unfold allowed_range in AL. destruct (_ >? _); [|discriminate].
          injection AL as <-. unfold bad_request; auto. }
      destruct (i_refused v) eqn:RF.
      { injection E as <-. cbn. split; [|auto]. intros e [= <-]. do 4 right. unfold forbidden. eauto 10. }
      destruct (zero_run _ _ _ _ _ _) as [[s9 e9]|]; [|discriminate]. destruct (op_result _ _) as [err c] eqn:OR.
      injection E as <-. cbn. exact (RES _ q _ _ _ OR).
    - unfold patch_flush in E. destruct (enter v q "write") as [[[tsize bs] buf]|[e c]] eqn:X; [|injection E as <-; auto].
      destruct (i_refused v) eqn:RF.
      { injection E as <-. cbn. split; [|auto]. intros e [= <-]. do 4 right. unfold forbidden. eauto 10. }
      destruct (flush_run _ _) as [s9 e9]. destruct (op_result _ _) as [err c] eqn:OR.
      injection E as <-. cbn. exact (RES _ q _ _ _ OR). }
  intros v img q a H. split; [|split].
  - destruct H as [H|[H|H]]; [apply (G _ _ _ _ H)|apply (P _ _ _ _ H)|apply (PA _ _ _ _ H)].
  - destruct H as [H|[H|H]]; [apply (G _ _ _ _ H)|apply (P _ _ _ _ H)|]. intros C. right. now apply (PA _ _ _ _ H).
  - intros X C. now apply (PA _ _ _ _ X).
Qed.
Print Assumptions error_statuses.

(* The ticket is canceled before the operation starts: a request that would run
   an operation gets 403 and does nothing; the connection is closed.  It is
   canceled before the operation ends: 403. *)
Theorem canceled_ticket_403 :
  forall v img q a a',
  (get v img q = Some a /\ get (not_canceled v) img q = Some a' \/
   put v img q = Some a /\ put (not_canceled v) img q = Some a' \/
   patch v img q = Some a /\ patch (not_canceled v) img q = Some a') ->
  (i_refused v = true -> a_op a' <> None ->
   a_err a = Some (EHttp 403) /\ a_close a = true /\ a_op a = None /\ a_img a = img /\ a_sent a = [] /\ a_log a = []) /\
  (i_canceled v = true -> a_op a <> None -> a_err a = Some (EHttp 403) /\ a_close a = true).
Proof.
  assert (EN : forall v q op, enter (not_canceled v) q op = enter v q op) by reflexivity.
  intros v img q a a' H. destruct H as [(E & E')|[(E & E')|(E & E')]].
  - unfold get in E, E'. rewrite EN in E'. destruct (q_id q) eqn:Q; [injection E as <-; injection E' as <-; split; intros; cbn in *; congruence|].
    cbn [i_lim not_canceled i_fuel i_read i_refused] in E'.
    destruct (match q_range q with Some _ => _ | None => _ end) as [[o sz]|e]; [|injection E as <-; injection E' as <-; split; intros; cbn in *; congruence].
    destruct (enter v q "read") as [[[tsize bs] buf]|[e c]]; [|injection E as <-; injection E' as <-; split; intros; cbn in *; congruence].
    destruct (match sz with Some _ => _ | None => _ end) as [size|e]; [|injection E as <-; injection E' as <-; split; intros; cbn in *; congruence].
    split.
    + intros R A. rewrite R in E. injection E as <-. cbn. auto 10.
    + intros C A. destruct (i_refused v); [injection E as <-; cbn in A; congruence|].
      destruct (read_run _ _ _ _ _ _ _) as [[s9 e9]|]; [|discriminate]. rewrite C in E. cbn in E. injection E as <-. cbn. rewrite orb_true_r. auto.
  - unfold put in E, E'. rewrite EN in E'. destruct (q_id q) eqn:Q; [injection E as <-; injection E' as <-; split; intros; cbn in *; congruence|].
    cbn [i_lim not_canceled i_fuel i_write i_refused] in E'.
    destruct (content_length _ _) as [[size|]|e]; [|injection E as <-; injection E' as <-; split; intros; cbn in *; congruence
                                                   |injection E as <-; injection E' as <-; split; intros; cbn in *; congruence].
    destruct (match q_crange q with Some _ => _ | None => _ end) as [o|e]; [|injection E as <-; injection E' as <-; split; intros; cbn in *; congruence].
    destruct (enum_query _ _ _ _) as [f|e]; [|injection E as <-; injection E' as <-; split; intros; cbn in *; congruence].
    destruct (enter v q "write") as [[[tsize bs] buf]|[e c]]; [|injection E as <-; injection E' as <-; split; intros; cbn in *; congruence].
    destruct (allowed_range _ _ _) as [u|e]; [|injection E as <-; injection E' as <-; split; intros; cbn in *; congruence].
    split.
    + intros R A. rewrite R in E. injection E as <-. cbn. auto 10.
    + intros C A. destruct (i_refused v); [injection E as <-; cbn in A; congruence|].
      destruct (write_run _ _ _ _ _ _ _ _ _) as [[s9 e9]|]; [|discriminate]. rewrite C in E. cbn in E. injection E as <-. cbn. rewrite orb_true_r. auto.
  - unfold patch in E, E'. destruct (q_id q) eqn:Q; [injection E as <-; injection E' as <-; split; intros; cbn in *; congruence|].
    destruct (q_json q) as [msg|f]; [|injection E as <-; injection E' as <-; split; intros; cbn in *; congruence].
    destruct (enum_json _ _ _) as [op|e]; [|injection E as <-; injection E' as <-; split; intros; cbn in *; congruence].
    destruct (str_eqb op _).
    + unfold patch_zero in E, E'. rewrite EN in E'. cbn [i_lim not_canceled i_fuel i_write i_refused] in E'.
      destruct (hbind _ _) as [[[size o] fl]|e]; [|injection E as <-; injection E' as <-; split; intros; cbn in *; congruence].
      destruct (enter v q "write") as [[[tsize bs] buf]|[e c]]; [|injection E as <-; injection E' as <-; split; intros; cbn in *; congruence].
      destruct (allowed_range _ _ _) as [u|e]; [|injection E as <-; injection E' as <-; split; intros; cbn in *; congruence].
      split.
      * intros R A. rewrite R in E. injection E as <-. cbn. auto 10.
      * intros C A. destruct (i_refused v); [injection E as <-; cbn in A; congruence|].
        destruct (zero_run _ _ _ _ _ _) as [[s9 e9]|]; [|discriminate]. rewrite C in E. cbn in E. injection E as <-. cbn. auto.
    + unfold patch_flush in E, E'. rewrite EN in E'. cbn [i_lim not_canceled i_fuel i_write i_refused] in E'.
      destruct (enter v q "write") as [[[tsize bs] buf]|[e c]]; [|injection E as <-; injection E' as <-; split; intros; cbn in *; congruence].
      split.
      * intros R A. rewrite R in E. injection E as <-. cbn. auto 10.
      * intros C A. destruct (i_refused v); [injection E as <-; cbn in A; congruence|].
        destruct (flush_run _ _) as [s9 e9]. rewrite C in E. cbn in E. injection E as <-. cbn. auto.
Qed.
Print Assumptions canceled_ticket_403.

(* OPTIONS: the answer for "*", without an id, without access, and the features
   for a ticket. *)
Theorem options_answers :
  forall v may readers local q,
  (q_id q = [] -> options v may readers local q = inr (EHttp 400, false)) /\
  (q_id q = lits "*" -> exists o, options v may readers local q = inl o /\
     o_allow o = ["OPTIONS"; "GET"; "PUT"; "PATCH"]%string /\
     o_features o = Some ["checksum"; "extents"; "flush"; "zero"]%string /\
     o_socket o = local /\ o_readers o = None /\ o_touched o = false) /\
  (q_id q <> [] -> q_id q <> lits "*" -> no_access v q "read" ->
     options v may readers local q = inr (EHttp 403, true)) /\
  (forall o, q_id q <> lits "*" -> options v may readers local q = inl o ->
     o_socket o = local /\
     o_features o = (if may "write"%string then Some ["checksum"; "extents"; "flush"; "zero"]%string
                     else if may "read"%string then Some ["checksum"; "extents"]%string else None)).
Proof.
  intros v may readers local q. unfold options. split; [intros ->; reflexivity|]. split; [|split].
  - intros ->. eexists. split; [reflexivity|]. cbn. auto.
  - intros N1 N2 A. destruct (q_id q) as [|c l] eqn:Q; [congruence|]. rewrite <- Q in *.
    destruct (str_eqb _ _) eqn:S; [apply HttpProofs.str_eqb_eq in S; congruence|]. now rewrite (enter_none _ _ _ A).
  - intros o N E. destruct (q_id q) as [|c l] eqn:Q; [discriminate|]. rewrite <- Q in *.
    destruct (str_eqb _ _) eqn:S; [apply HttpProofs.str_eqb_eq in S; congruence|].
    destruct (enter v q "read") as [[[? ?] ?]|[? ?]]; [|discriminate]. injection E as <-. cbn [o_socket o_features].
    destruct (may "write"%string), (may "read"%string); auto.
Qed.
Print Assumptions options_answers.

(* --- cases meeting the hypotheses --- *)

Definition env_ex : ienv :=
  IEnv None (fun u op => if String.eqb op "write" then Some 8 else Some 6)
    (Backend 4 (repeat xee 8)) false false
    (fun _ => RAns (Some 4) None false)
    (WOracle (fun _ => Some 3) (fun _ => WOk 2) (fun _ => false) true) 20.
Definition image_ex : list byte := [x01; x02; x03; x04; x05; x06; x07; x08; x09; x0a].

Example env_ex_good : good_backend env_ex /\ cancel_consistent env_ex.
Proof.
  split.
  - intros bs buf [= <- <-]. vm_compute. repeat split; discriminate.
  - split; reflexivity.
Qed.

(* A PUT and a failing GET with close=y. *)
Example close_ex :
  let q := IReq (lits "id") [(lits "close", lits "y")] (Some (lits "bytes=9-")) None (Some (lits "0")) []
             (inr FBad) in
  asks_to_close q /\ exists a, put env_ex image_ex q = Some a /\ a_err a = None /\ a_close a = true.
Proof. split; [reflexivity|]. eexists. split; [vm_compute; reflexivity|]. split; reflexivity. Qed.

(* A body longer than Content-Length is not stored. *)
Example put_ex :
  exists a, put env_ex image_ex
    (IReq (lits "id") [] None (Some (lits "bytes 3-*/*")) (Some (lits "5"))
       [xa1; xa2; xa3; xa4; xa5; xa6] (inr FBad)) = Some a /\
  a_err a = None /\
  a_img a = [x01; x02; x03; xa1; xa2; xa3; xa4; xa5; x09; x0a] /\
  a_op a = Some (OpWrite 3 5 true) /\
  a_log a = [EWrite 3 1; EWrite 4 2; EWrite 6 2; EFlush].
Proof. eexists. split; [vm_compute; reflexivity|]. repeat split. Qed.

(* One byte more than the ticket allows. *)
Example put_out_of_range_ex :
  put env_ex image_ex
    (IReq (lits "id") [(lits "close", lits "y")] None (Some (lits "bytes 3-*/*")) (Some (lits "6"))
       [xa1; xa2; xa3; xa4; xa5; xa6] (inr FBad))
  = Some (refuse image_ex true (EHttp 416)).
Proof. reflexivity. Qed.

Example get_ex :
  exists a b, get env_ex image_ex
    (IReq (lits "id") [] (Some (lits "bytes=1-4")) None None [] (inr FBad)) = Some a /\
  a_err a = None /\ a_sent a = [x02; x03; x04; x05] /\ a_status a = 206 /\
  a_crange a = Some (1, 4, 6) /\
  get env_ex image_ex (IReq (lits "id") [] None None None [] (inr FBad)) = Some b /\
  a_sent b = [x01; x02; x03; x04; x05; x06] /\ a_status b = 200 /\
  asks_from (IReq (lits "id") [] (Some (lits "bytes=1-4")) None None [] (inr FBad)) 1.
Proof.
  eexists _, _. split; [vm_compute; reflexivity|].
  do 4 (split; [reflexivity|]). split; [vm_compute; reflexivity|]. repeat split.
  exists (FromTo 1 4), (lits "bytes=1-4"). split; auto. split; auto.
  apply (form_from_to (lit "1") (lit "4")); try lia; apply decimal_spec;
    repeat split; (discriminate || (repeat constructor)).
Qed.

Example zero_request_ex :
  exists a, patch env_ex image_ex
    (IReq (lits "id") [] None None None []
       (inl (JObj [(lits "op", JStr (lits "zero")); (lits "size", JInt 3);
                   (lits "offset", JInt 2)]))) = Some a /\
  a_err a = None /\ a_img a = [x01; x02; x00; x00; x00; x06; x07; x08; x09; x0a] /\
  a_log a = [EZero 2 2; EZero 4 1].
Proof. eexists. split; [vm_compute; reflexivity|]. repeat split. Qed.

Example options_ex :
  exists o, options env_ex (may ["read"%string]) (1, 8) true
    (IReq (lits "id") [] None None None [] (inr FBad)) = inl o /\
  o_allow o = ["OPTIONS"; "GET"]%string /\ o_features o = Some BASE_FEATURES.
Proof. eexists. split; [reflexivity|]. split; reflexivity. Qed.

(* The ticket of this request is canceled before the operation. *)
Example canceled_ex :
  let v := IEnv None (i_auth env_ex) (i_open env_ex) true false (i_read env_ex) (i_write env_ex) 20 in
  let q := IReq (lits "id") [] None (Some (lits "bytes 3-*/*")) (Some (lits "2")) [xa1; xa2] (inr FBad) in
  exists a a', put v image_ex q = Some a /\ put (not_canceled v) image_ex q = Some a' /\
    a_op a' = Some (OpWrite 3 2 true) /\ a_err a = Some (EHttp 403) /\ forbidden v q "write".
Proof.
  do 2 eexists. split; [vm_compute; reflexivity|]. split; [vm_compute; reflexivity|]. split; [reflexivity|].
  split; [reflexivity|]. right. left. reflexivity.
Qed.

Example options_features_ex :
  exists o, options env_ex (fun op => String.eqb op "read") (8, 8) true
    (IReq (lits "id") [] None None None [] (inr FBad)) = inl o /\ o_features o = Some ["checksum"; "extents"]%string.
Proof. eexists. split; [vm_compute; reflexivity|]. reflexivity. Qed.
