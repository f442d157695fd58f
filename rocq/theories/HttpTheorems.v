(* Theorems about the HTTP server (properties C21, C22, C23).  The terms of
   the statements are in HttpSpec. *)
From Coq Require Import ZArith List Bool Ascii String Lia.
From Verif Require Import BytesLib HeaderModel HeaderSpec HttpModel HttpSpec HttpProofs.
Import ListNotations.
Open Scope Z_scope.

(* ---- C21 ---- *)

(* Whatever a careful handler does, the bytes taken from the connection are a
   prefix of what the client sent, not longer than the declared length, and
   start with the bytes the handler got (more were taken only if a read
   failed). *)
Theorem body_never_overread :
  forall v h p k inp s r n,
  careful p -> declares (e_limit v) (h_length h) n ->
  run v h p (start k h inp) = (s, r) ->
  exists taken lost,
    inp = taken ++ s_in s /\ zlen taken <= n /\
    taken = delivered v h p (start k h inp) ++ lost.
Proof.
  intros v h p k inp s r n W D E.
  apply declares_cl in D as (D & _ & _).
  pose proof (run_careful v h inp _ _ _ _ [] W (start_good v h k inp) E) as [G|[c G]].
  - destruct G as (A & _ & C). exists (delivered v h p (start k h inp)), [].
    rewrite app_nil_r. repeat split; auto.
    pose proof (cl_value_nonneg v h). cbn in C.
    destruct (s_len s) as [|[m|]]; [rewrite C, zlen_nil| |rewrite C, zlen_nil]; lia.
  - destruct G as (A & _ & C & _). exists (delivered v h p (start k h inp) ++ c), c.
    repeat split; auto. cbn in C. lia.
Qed.
Print Assumptions body_never_overread.

(* The same when the Content-Length header is not valid: nothing is taken. *)
Theorem invalid_length_reads_nothing :
  forall v h p k inp s r e,
  careful p -> content_length (e_limit v) (h_length h) = inr e ->
  run v h p (start k h inp) = (s, r) ->
  s_in s = inp.
Proof.
  intros v h p k inp s r e W D E.
  assert (V : cl_value v h = 0) by (unfold cl_value; rewrite D; reflexivity).
  pose proof (run_careful v h inp _ _ _ _ [] W (start_good v h k inp) E) as [G|[c G]].
  - destruct G as (A & (_ & B) & C). cbn [app] in *.
    destruct (s_len s) as [|[m|]]; [|destruct B as [? B]; congruence|];
      rewrite C in A; auto.
  - destruct G as (_ & (_ & B) & _ & m & M & _). rewrite M in B.
    destruct B as [? B]; congruence.
Qed.
Print Assumptions invalid_length_reads_nothing.

(* When no read of the socket fails the handler got exactly the bytes taken:
   in order and without gaps. *)
Theorem body_delivered_in_order :
  forall v h p k inp s r,
  (forall i, exists m, e_read v i = RGot m) ->
  run v h p (start k h inp) = (s, r) ->
  inp = delivered v h p (start k h inp) ++ s_in s.
Proof.
  intros v h p k inp s r F E. apply (run_delivered _ _ _ _ _ _ F E).
Qed.
Print Assumptions body_delivered_in_order.

(* The whole body is available: a handler asking until it got nothing gets all
   of it.  Reading everything with one call does the same when the socket
   delivers what is asked for. *)
Theorem read_gets_the_body :
  forall v h n k body rest,
  declares (e_limit v) (h_length h) n -> zlen body = n ->
  (forall i, exists m, e_read v i = RGot m /\ n <= m) ->
  exists s, req_read v h None (start k h (body ++ rest)) = (s, inl body)
            /\ s_in s = rest.
Proof.
  intros v h n k body rest D B F.
  unfold req_read, req_length, req_content_length. cbn [s_len s_cl start].
  inversion D as [X|x m C X]; subst.
  - assert (body = []) by (apply zlen_0; lia). subst body. cbn.
    eexists; split; reflexivity.
  - rewrite C. cbn iota. destruct (Z.eqb_spec (zlen body) 0) as [Z|Z].
    + apply zlen_0 in Z. subst. eexists; split; reflexivity.
    + unfold sock_read. cbn [s_ri set_len set_cl start].
      destruct (F (k_ri k)) as (q & -> & Q).
      pose proof (zlen_nonneg body). pose proof (zlen_nonneg rest).
      cbn [s_in next_read set_len set_cl start].
      assert (K : clampz 0 (available (zlen body) (body ++ rest)) q = zlen body).
      { unfold clampz, available. rewrite zlen_app. destruct (Z.ltb_spec (zlen body) 0); lia. }
      rewrite K. rewrite take_app, drop_app, take_all, drop_all by lia.
      rewrite Z.sub_diag, (take_nonpos 0), (drop_nonpos 0), app_nil_r by lia. cbn [app]. eexists; split; reflexivity.
Qed.
Print Assumptions read_gets_the_body.

(* Finding: read() with a negative size is passed to the socket file, which
   then reads until the client closes, taking the following requests. *)
Theorem body_never_overread_refuted :
  exists v h p k inp s r n taken,
  declares (e_limit v) (h_length h) n /\
  run v h p (start k h inp) = (s, r) /\
  inp = taken ++ s_in s /\ n < zlen taken.
Proof.
  exists (Env None (fun _ => RGot 100) (fun _ => None) (fun _ => false)).
  exists (ReqHead (lits "PUT") (lits "/") (Some (lit "1")) false).
  exists (Call (ARead (Some (-1))) (fun _ => Ret)).
  exists (Con [] false 0 0 0), [x01; x02; x03].
  eexists _, _, 1, [x01; x02; x03].
  split; [constructor; reflexivity|]. split; [reflexivity|].
  split; reflexivity.
Qed.
Print Assumptions body_never_overread_refuted.

(* ---- C22 ---- *)

(* Partial: a keep-alive connection stays in sync as long as every handler
   does its part (see HttpSpec).  Requests are handled in the order sent, each
   gets at most one status line; all but the last one, or all if the connection
   stays open, get one complete response; and if the connection stays open the
   input is at the next request.  Handlers that fail are covered by the Router:
   nothing is assumed about them except that they are careful.  Missing: what
   happens if a handler succeeds without reading the body, or the length is
   invalid: then it is false, see below. *)
Theorem keep_alive_in_sync_partial :
  forall v parse app reqs tail n k k' out,
  (forall q, In q reqs ->
     parses parse q /\
     declares (e_limit v) (h_length (q_head q)) (zlen (q_body q)) /\
     does_its_part v (q_head q) (zlen (q_body q)) (app (q_head q))) ->
  (n <= List.length reqs)%nat ->
  k_in k = stream reqs ++ tail -> k_closed k = false ->
  serve n v parse app k = (k', out) ->
  map fst out = map q_head (firstn (List.length out) reqs) /\
  Forall (fun x => (status_lines (snd x) <= 1)%nat) out /\
  (forall i x, nth_error out i = Some x ->
     (S i < List.length out)%nat \/ k_closed k' = false -> one_response (snd x)) /\
  (k_closed k' = false ->
     List.length out = n /\ k_in k' = stream (skipn n reqs) ++ tail).
Proof. intros. eapply serve_sync; eauto. Qed.
Print Assumptions keep_alive_in_sync_partial.

(* The handlers of the services, as far as they use the body, do their part. *)
Theorem put_does_its_part :
  forall v h n fuel buflen,
  declares (e_limit v) (h_length h) n -> does_its_part v h n (put_request fuel buflen).
Proof. exact put_request_part. Qed.
Print Assumptions put_does_its_part.

Theorem json_request_does_its_part :
  forall v h n check,
  declares (e_limit v) (h_length h) n ->
  (forall i m, e_read v i = RGot m -> n <= m) ->
  does_its_part v h n (json_request check).
Proof. exact json_request_part. Qed.
Print Assumptions json_request_does_its_part.

Theorem answers_do_their_part_without_body :
  forall v h b d,
  zlen b < 4096 ->
  does_its_part v h 0 (json_answer b) /\
  does_its_part v h 0 delete_answer /\
  does_its_part v h 0 (get_answer d).
Proof.
  intros. split; [|split]; [apply json_answer_part; auto|apply delete_part|apply get_answer_part].
Qed.
Print Assumptions answers_do_their_part_without_body.

(* A failing handler: if the connection stays open the body was read, and a
   complete response was sent. *)
Theorem error_closes_or_body_was_read :
  forall v parse app k h body rest s e n k' x,
  parse (k_in k) = PRequest h (body ++ rest) ->
  careful (app h) -> declares (e_limit v) (h_length h) n -> zlen body = n ->
  run v h (app h) (start k h (body ++ rest)) = (s, inr e) ->
  handle_one v parse app k = (k', x) ->
  k_closed k' = true \/
  k_in k' = rest /\ exists evs, x = Some (h, evs) /\ one_response evs.
Proof.
  intros v parse app k h body rest s e n k' x P W D B R E.
  eapply handle_one_sync_on in E as (evs & -> & S & _); eauto.
  - destruct (k_closed k'); [auto|]. destruct S; auto. right. eauto.
  - intros s' R'. rewrite R in R'. discriminate.
Qed.
Print Assumptions error_closes_or_body_was_read.

(* A toy wire format for the counterexamples: byte 01 is the head of a GET
   request with Content-Length: 1; 02 of a GET request without length; 03 of a
   PUT request with Content-Length: x. *)
Definition toy (inp : list byte) : parsed :=
  match inp with
  | [] => PEof
  | x01 :: r => PRequest (ReqHead (lits "GET") (lits "/images/a") (Some (lit "1")) false) r
  | x02 :: r => PRequest (ReqHead (lits "GET") (lits "/images/b") None false) r
  | x03 :: r => PRequest (ReqHead (lits "PUT") (lits "/images/c") (Some (lit "x")) false) r
  | _ => PError
  end.
Definition calm : env := Env None (fun _ => RGot 100) (fun _ => None) (fun _ => false).
Definition get_app (h : head) : prog := get_answer [xff].

(* Finding: a GET request with a body.  The client sends one request and gets
   two responses: its body was taken for a request. *)
Theorem keep_alive_in_sync_refuted :
  exists v parse app q k out,
  parses parse q /\
  declares (e_limit v) (h_length (q_head q)) (zlen (q_body q)) /\
  careful (app (q_head q)) /\ healthy v /\
  serve 2 v parse app (Con (stream [q]) false 0 0 0) = (k, out) /\
  List.length out = 2%nat /\ map fst out <> map q_head [q].
Proof.
  exists calm, toy, get_app.
  exists (Request (ReqHead (lits "GET") (lits "/images/a") (Some (lit "1")) false) [x01] [x02]).
  eexists _, _. split; [intros rest; reflexivity|].
  split; [constructor; reflexivity|].
  split; [cbn; intros [?|?]; cbn; auto; intros [?|?]; exact I|].
  split; [split; reflexivity|].
  split; [vm_compute; reflexivity|]. split; [reflexivity|discriminate].
Qed.
Print Assumptions keep_alive_in_sync_refuted.

(* Finding: PUT with an invalid Content-Length is answered with 400, but as the
   length is then taken for missing the connection stays open, and what
   follows the head is taken for a request. *)
Theorem invalid_length_keeps_connection_refuted :
  exists v h rest k evs,
  healthy v /\ content_length (e_limit v) (h_length h) = inr (HttpError 400) /\
  toy (x03 :: rest) = PRequest h rest /\
  handle_one v toy (fun _ => put_request 10 10) (Con (x03 :: rest) false 0 0 0)
    = (k, Some (h, evs)) /\
  evs = [Head 400 1 false; Data [x0a]] /\ k_closed k = false /\ k_in k = rest /\ rest <> [].
Proof.
  exists calm, (ReqHead (lits "PUT") (lits "/images/c") (Some (lit "x")) false), [x02].
  eexists _, _. split; [split; reflexivity|]. split; [reflexivity|]. split; [reflexivity|].
  split; [vm_compute; reflexivity|]. repeat split. discriminate.
Qed.
Print Assumptions invalid_length_keeps_connection_refuted.

(* Finding: when another error is reported while the Content-Length is not
   valid, the error handler itself fails and no response is sent. *)
Theorem every_request_is_answered_refuted :
  exists v h k k',
  healthy v /\ toy (k_in k) = PRequest h [] /\
  handle_one v toy (fun _ => Raise (EHttp 404)) k = (k', Some (h, [])).
Proof.
  exists calm. eexists _, (Con [x03] false 0 0 0), _.
  split; [split; reflexivity|]. split; [reflexivity|]. vm_compute. reflexivity.
Qed.
Print Assumptions every_request_is_answered_refuted.

(* ---- C23 ---- *)

(* The first matching route of any table handles the request. *)
Theorem dispatch_first_match :
  forall l1 r l2 h groups,
  In (h_method h) ALLOWED_METHODS ->
  Forall (fun x => rt_match x (h_path h) = None) l1 ->
  rt_match r (h_path h) = Some groups ->
  dispatch (l1 ++ r :: l2) h =
  match rt_method r (lower (h_method h)) with
  | Some m => m groups
  | None => Raise (EHttp 405)
  end.
Proof.
  intros l1 r l2 h g M F R. unfold dispatch. apply existsb_str in M. rewrite M.
  induction F as [|x l1 X F IH]; cbn.
  - rewrite R. reflexivity.
  - rewrite X. exact IH.
Qed.
Print Assumptions dispatch_first_match.

Theorem dispatch_no_match :
  forall l h,
  In (h_method h) ALLOWED_METHODS ->
  Forall (fun x => rt_match x (h_path h) = None) l ->
  dispatch l h = Raise (EHttp 404).
Proof.
  intros l h M F. unfold dispatch. apply existsb_str in M. rewrite M.
  induction F as [|x l1 X F IH]; cbn; [reflexivity|]. rewrite X. exact IH.
Qed.
Print Assumptions dispatch_no_match.

Theorem dispatch_unknown_method :
  forall l h, ~ In (h_method h) ALLOWED_METHODS -> dispatch l h = Raise (EHttp 405).
Proof.
  intros l h M. unfold dispatch. apply existsb_str_false in M. rewrite M. reflexivity.
Qed.
Print Assumptions dispatch_unknown_method.

(* The services: which code runs for /images/id and its sub resources. *)
Theorem image_requests_dispatched :
  forall l code h id u x m,
  (l = remote_routes \/ l = local_routes) -> plain id ->
  (u = [] /\ x = HImages) \/ (u = lits "/extents" /\ x = HExtents)
  \/ (u = lits "/checksum" /\ x = HChecksum)
  \/ (u = lits "/checksum/algorithms" /\ x = HAlgorithms) ->
  h_path h = lits "/images/" ++ id ++ u ->
  In (h_method h) ALLOWED_METHODS -> m = lower (h_method h) ->
  (In m (methods x) -> dispatch (service_routes l code) h = code x m [id]) /\
  (~ In m (methods x) -> dispatch (service_routes l code) h = Raise (EHttp 405)).
Proof.
  intros l code h id u x m L P U H M ->.
  assert (IR : image_routes l).
  { destruct L as [->| ->]; [exists [(PLit (lits "/info/"), HInfo)]|exists []]; reflexivity. }
  assert (R : first_route l (h_path h) = Some (x, [id])).
  { rewrite H. destruct U as [[-> ->]|U].
    - rewrite app_nil_r. apply route_image; auto.
    - apply route_sub; auto; [|tauto].
      destruct L as [->| ->]; destruct U as [[-> ->]|[[-> ->]|[-> ->]]]; reflexivity. }
  unfold dispatch. apply existsb_str in M. rewrite M, dispatch_routes_first, R.
  split; intros X; [apply existsb_str in X|apply existsb_str_false in X]; rewrite X; reflexivity.
Qed.
Print Assumptions image_requests_dispatched.

(* The routes of the services, services.py:78-85, 123-129, 170-173. *)
Definition routes_of (s : service) : list (pattern * service_handler) :=
  match s with RemoteService => remote_routes | LocalService => local_routes | ControlService => control_routes end.

Lemma skip_prefix_app p s r : skip_prefix p s = Some r -> s = p ++ r.
Proof.
  revert s. induction p as [|c p IH]; intros s E; [now injection E as ->|].
  destruct s as [|d s]; [discriminate|]. cbn in E. destruct (Ascii.eqb_spec c d) as [<-|]; [|discriminate].
  cbn. f_equal. now apply IH.
Qed.

Lemma group_then_app suf s g : group_then suf s = Some g -> exists r, s = g ++ suf ++ r.
Proof.
  revert g. induction s as [|c s IH]; intros g E.
  - cbn in E. destruct (skip_prefix suf []) as [r|] eqn:P; [|discriminate]. injection E as <-.
    apply skip_prefix_app in P. now exists r.
  - assert (H : (match skip_prefix suf (c :: s) with Some _ => Some [] | None => None end) = Some g ->
                exists r, c :: s = g ++ suf ++ r).
    { intros H. destruct (skip_prefix suf (c :: s)) as [r|] eqn:P; [|discriminate]. injection H as <-.
      apply skip_prefix_app in P. now exists r. }
    cbn [group_then] in E. destruct (Ascii.eqb c newline); [auto|].
    destruct (group_then suf s) as [g'|]; [|auto]. injection E as <-.
    destruct (IH g' eq_refl) as (r & ->). now exists r.
Qed.

(* The services serve their API and nothing else: any other request gets 404 or
   405, whatever the handlers do. *)
Theorem only_the_api_is_served :
  forall s h,
  (exists e, (e = 404 \/ e = 405) /\
     forall code, dispatch (service_routes (routes_of s) code) h = Raise (EHttp e)) \/
  (exists x m args, In (x, m) (api s) /\ h_method h = lits m /\ resource x (h_path h) args /\
     forall code, dispatch (service_routes (routes_of s) code) h = code x (lower (h_method h)) args).
Proof.
  intros s h. unfold dispatch.
  destruct (existsb (str_eqb (h_method h)) ALLOWED_METHODS) eqn:M; [|left; exists 405; auto].
  apply existsb_str in M.
  destruct (first_route (routes_of s) (h_path h)) as [[x g]|] eqn:R.
  2:{ left. exists 404. split; [auto|]. intros code. now rewrite dispatch_routes_first, R. }
  destruct (existsb (str_eqb (lower (h_method h))) (methods x)) eqn:A.
  2:{ left. exists 405. split; [auto|]. intros code. now rewrite dispatch_routes_first, R, A. }
  right. apply existsb_str in A.
  assert (P : exists p, In (p, x) (routes_of s) /\ pat_match p (h_path h) = Some g).
  { clear -R. induction (routes_of s) as [|[p y] l IH]; [discriminate|]. cbn [first_route] in R.
    destruct (pat_match p (h_path h)) as [g'|] eqn:E.
    - injection R as -> ->. exists p. split; [now left|exact E].
    - destruct (IH R) as (p' & I & E'). exists p'. split; [now right|exact E']. }
  destruct P as (p & I & P).
  assert (Q : resource x (h_path h) g).
  { destruct s; cbn in I;
      repeat (destruct I as [I|I]; [injection I as <- <-; cbn [pat_match] in P|]); try contradiction;
      match type of P with context [skip_prefix ?pre ?path] => destruct (skip_prefix pre path) as [r|] eqn:S; [|discriminate] end;
      apply skip_prefix_app in S; rewrite S;
      try (injection P as <-; eexists; split; reflexivity);
      match type of P with context [group_then ?suf ?t] => destruct (group_then suf t) as [id|] eqn:G; [|discriminate] end;
      injection P as <-; apply group_then_app in G as (rest & ->); exists rest, id; split; reflexivity. }
  assert (T : exists m, In (x, m) (api s) /\ h_method h = lits m).
  { destruct s; cbn in I;
      repeat (destruct I as [I|I]; [injection I as _ <-|]); try contradiction;
      cbn in M; repeat (destruct M as [M|M]; [rewrite <- M in A |- *|]); try contradiction; cbn in A;
      repeat (destruct A as [A|A]; [try discriminate A|]); try contradiction;
      match goal with |- exists m, _ /\ ?l = lits m => exists (string_of_list_ascii l) end;
      cbn; intuition. }
  destruct T as (m & T1 & T2). exists x, m, g. split; [exact T1|]. split; [exact T2|]. split; [exact Q|].
  intros code. apply existsb_str in A. now rewrite dispatch_routes_first, R, A.
Qed.
Print Assumptions only_the_api_is_served.

(* Adding, changing and removing tickets is not possible over the network or the
   local socket, and no data is served by the control service. *)
Theorem tickets_only_over_control :
  forall s h,
  (s <> ControlService -> forall rest, h_path h = lits "/tickets/" ++ rest ->
     exists e, (e = 404 \/ e = 405) /\ forall code, dispatch (service_routes (routes_of s) code) h = Raise (EHttp e)) /\
  (forall rest, h_path h = lits "/images/" ++ rest ->
     exists e, (e = 404 \/ e = 405) /\
       forall code, dispatch (service_routes (routes_of ControlService) code) h = Raise (EHttp e)).
Proof.
  intros s h. split.
  - intros N rest P. destruct (only_the_api_is_served s h) as [H|(x & m & g & I & _ & (r & R) & _)]; [exact H|].
    exfalso. rewrite P in R. destruct s; [| |congruence]; cbn in I;
      repeat (destruct I as [I|I]; [injection I as <- _; try destruct R as (id & R & _); try destruct R as (R & _); discriminate R|]);
      contradiction.
  - intros rest P. destruct (only_the_api_is_served ControlService h) as [H|(x & m & g & I & _ & (r & R) & _)]; [exact H|].
    exfalso. rewrite P in R. cbn in I.
    repeat (destruct I as [I|I]; [injection I as <- _; try destruct R as (id & R & _); try destruct R as (R & _); discriminate R|]).
    contradiction.
Qed.
Print Assumptions tickets_only_over_control.

(* Every entry of the API is served: a method of a resource named by an id
   without slashes gets to the code of its handler. *)
Theorem the_api_is_served :
  forall s x m h id,
  In (x, m) (api s) -> h_method h = lits m -> plain id ->
  h_path h = match x with
             | HImages => lits "/images/" ++ id
             | HExtents => lits "/images/" ++ id ++ lits "/extents"
             | HChecksum => lits "/images/" ++ id ++ lits "/checksum"
             | HAlgorithms => lits "/images/" ++ id ++ lits "/checksum/algorithms"
             | HTickets => lits "/tickets/" ++ id
             | HInfo => lits "/info/"
             | HProfile => lits "/profile/"
             end ->
  forall code, dispatch (service_routes (routes_of s) code) h =
    code x (lower (lits m)) (match x with HInfo | HProfile => [] | _ => [id] end).
Proof.
  intros s x m h id I M P H code.
  assert (R : first_route (routes_of s) (h_path h) = Some (x, match x with HInfo | HProfile => [] | _ => [id] end)).
  { assert (IR : s <> ControlService -> image_routes (routes_of s)).
    { destruct s; intros N; [exists [(PLit (lits "/info/"), HInfo)]|exists []|congruence]; reflexivity. }
    assert (G : forall l, plain l -> group_then [] l = Some l).
    { induction 1 as [|c l [C1 C2] F IH]; [reflexivity|]. cbn [group_then].
      destruct (Ascii.eqb_spec c newline); [tauto|]. now rewrite IH. }
    rewrite H. destruct s; cbn in I;
      repeat (destruct I as [I|I]; [injection I as <- _|]); try contradiction;
      try (apply route_image; [apply IR; discriminate|exact P]);
      try (apply route_sub; [apply IR; discriminate|exact P|reflexivity|auto]);
      try reflexivity.
    all: cbn; now rewrite (G id P). }
  unfold dispatch.
  assert (A : existsb (str_eqb (h_method h)) ALLOWED_METHODS = true /\
              existsb (str_eqb (lower (lits m))) (methods x) = true).
  { rewrite M. clear -I. destruct s; cbn in I;
      repeat (destruct I as [I|I]; [injection I as <- <-; split; reflexivity|]); contradiction. }
  destruct A as (A & B). rewrite A, dispatch_routes_first, R, M, B. reflexivity.
Qed.
Print Assumptions the_api_is_served.
Example api_ex : In (HTickets, "DELETE"%string) (api ControlService) /\ plain (lits "4b4b-11") /\
  resource HExtents (lits "/images/a/extents") [lits "a"].
Proof.
  split; [cbn; tauto|]. split; [repeat constructor; discriminate|]. exists [], (lits "a"). split; reflexivity.
Qed.

(* A client that is gone gets nothing more, and the connection is closed. *)
Theorem lost_client_gets_nothing :
  forall v h p s0 s e,
  run v h p s0 = (s, inr e) -> e = ETimeout \/ e = EDisconnected \/ e = EOSError ->
  e_lost v (s_li s) = true ->
  exists s', router v h p s0 = (s', inl tt) /\ s_out s' = s_out s /\ s_close s' = true.
Proof.
  intros v h p s0 s e R E L. unfold router. rewrite R. unfold on_error.
  destruct E as [->|[->| ->]]; cbn [is_socket_error]; rewrite L;
    (eexists; split; [reflexivity|]; split; reflexivity).
Qed.
Print Assumptions lost_client_gets_nothing.
Example lost_client_ex :
  let h := ReqHead (lits "PUT") (lits "/images/a") (Some (lit "3")) false in
  let v := Env None (fun i => RFail 0 ETimeout) (fun _ => None) (fun _ => true) in
  exists s, run v h (put_request 10 2) (start (Con [] false 0 0 0) h [x01]) = (s, inr ETimeout) /\
    e_lost v (s_li s) = true.
Proof. eexists. split; reflexivity. Qed.

(* An error before the response was started is reported with its status, once;
   the connection is closed if part of the body was not read. *)
Theorem error_reported :
  forall v h p k inp s e n,
  (forall i, e_write v i = None) ->
  (e = ETimeout \/ e = EDisconnected \/ e = EOSError -> forall i, e_lost v i = false) ->
  declares (e_limit v) (h_length h) n ->
  run v h p (start k h inp) = (s, inr e) -> s_started s = false ->
  exists s' d cl,
    router v h p (start k h inp) = (s', inl tt) /\
    s_out s' = [Head (status_of e) (zlen d) cl; Data d].
Proof.
  intros v h p k inp s e n HW HL D R S.
  destruct (router v h p (start k h inp)) as [s' r] eqn:E.
  pose proof E as E0. unfold router in E. rewrite R in E.
  destruct (start_inv k h inp) as (R0 & H0 & Q0).
  destruct (run_inv _ _ _ _ _ _ R R0 H0 Q0) as (R1 & H1 & Q1).
  destruct (Q1 S) as [O1 W1].
  unfold on_error in E.
  assert (HL' : (if is_socket_error e then (next_lost s, e_lost v (s_li s)) else (s, false)) =
                (if is_socket_error e then (next_lost s, false) else (s, false))).
  { destruct e; cbn; try reflexivity; rewrite HL by auto; reflexivity. }
  rewrite HL' in E.
  assert (X : exists s1, (if is_socket_error e then (next_lost s, false) else (s, false)) = (s1, false)
             /\ s_started s1 = false /\ s_raw s1 = false /\ s_out s1 = []
             /\ s_len s1 = s_len s /\ s_cl s1 = s_cl s).
  { destruct (is_socket_error e); eexists; (split; [reflexivity|]); cbn; auto. }
  destruct X as (s1 & XE & S1 & W & O & _). rewrite XE, S1 in E.
  destruct (req_length v h s1) as [s2 [len|x]] eqn:E2; pose proof (rl_resp _ _ _ _ _ E2) as F.
  - destruct F as (F1 & _ & F2 & F3 & _).
    set (s3 := match len with Some n => if 0 <? n then close_connection s2 else s2 | None => s2 end) in E.
    assert (Y : s_started s3 = false /\ s_raw s3 = false /\ s_out s3 = []).
    { subst s3. destruct len as [m|]; [destruct (0 <? m)|]; cbn; rewrite F1, F2, F3; auto. }
    destruct Y as (Y1 & Y2 & Y3). clearbody s3.
    unfold send_error in E. rewrite Y1 in E.
    pose proof E as E4. unfold resp_write in E4. cbn [s_raw set_rlen set_status] in E4.
    rewrite Y2 in E4. change (zlen (error_body e) <? 4096) with true in E4.
    cbn iota in E4. unfold wfile_write in E4. rewrite HW in E4.
    injection E4 as E4 <-. rewrite <- E4. exists s', (error_body e), (s_rclose s3).
    split; [congruence|]. rewrite <- E4.
    cbn [s_out set_raw emit set_out next_write set_started set_rlen set_status].
    rewrite Y3. reflexivity.
  - exfalso. unfold req_length, req_content_length in E2.
    destruct (s_len s1); [|discriminate]. destruct (s_cl s1); [|discriminate].
    destruct (content_length (e_limit v) (h_length h)) as [o|y] eqn:C; [discriminate|].
    destruct (declares_cl _ _ _ D) as (_ & _ & D3). eapply D3; eauto.
Qed.
Print Assumptions error_reported.

(* The server does not ask if the client is connected for errors that are not
   errors of the socket. *)
Example error_reported_ex :
  let h := ReqHead (lits "PUT") (lits "/images/a") (Some (lit "3")) false in
  let v := Env None (fun i => RGot 100) (fun _ => None) (fun _ => true) in
  exists s s', run v h (Raise (EHttp 416)) (start (Con [] false 0 0 0) h [x01]) = (s, inr (EHttp 416)) /\
    s_started s = false /\ router v h (Raise (EHttp 416)) (start (Con [] false 0 0 0) h [x01]) = (s', inl tt) /\
    s_out s' = [Head 416 1 true; Data [x0a]].
Proof. do 2 eexists. split; [reflexivity|]. split; [reflexivity|]. split; reflexivity. Qed.

(* With a connected client: the same. *)
Theorem error_status :
  forall v h p k inp s e n,
  healthy v -> declares (e_limit v) (h_length h) n ->
  run v h p (start k h inp) = (s, inr e) -> s_started s = false ->
  exists s' d cl,
    router v h p (start k h inp) = (s', inl tt) /\
    s_out s' = [Head (status_of e) (zlen d) cl; Data d].
Proof. intros v h p k inp s e n (HW & HL). eapply error_reported; eauto. Qed.
Print Assumptions error_status.

(* An error after the response was started: nothing more is sent, and the
   connection is closed. *)
Theorem error_after_start :
  forall v h p k inp s e,
  run v h p (start k h inp) = (s, inr e) -> s_started s = true ->
  exists s', router v h p (start k h inp) = (s', inl tt) /\
    s_out s' = s_out s /\ s_close s' = true.
Proof.
  intros v h p k inp s e R S. unfold router. rewrite R.
  destruct (on_error v h e s) as [s' r] eqn:E.
  apply on_error_started in E as (-> & C & O & _); eauto.
Qed.
Print Assumptions error_after_start.

(* Never a second status line, whatever the handler does and whatever fails. *)
Theorem at_most_one_status_line :
  forall v h p k inp s r,
  router v h p (start k h inp) = (s, r) -> (status_lines (s_out s) <= 1)%nat.
Proof. exact router_heads. Qed.
Print Assumptions at_most_one_status_line.

(* A handler that returns without sending anything sends the default empty
   response with the status it has set. *)
Theorem default_response :
  forall v h p k inp s,
  healthy v -> run v h p (start k h inp) = (s, inl tt) -> s_started s = false ->
  exists s', router v h p (start k h inp) = (s', inl tt) /\
    s_out s' = [Head (s_status s) (s_rlen s) (s_rclose s); Data []] /\
    s_close s' = s_close s.
Proof.
  intros v h p k inp s (HW & _) R S. unfold router. rewrite R, S.
  destruct (start_inv k h inp) as (R0 & H0 & Q0).
  destruct (run_inv _ _ _ _ _ _ R R0 H0 Q0) as (R1 & H1 & Q1).
  destruct (Q1 S) as [O1 W1].
  unfold resp_write. rewrite W1. cbn. unfold wfile_write. rewrite HW.
  eexists. split; [reflexivity|]. cbn. rewrite O1. auto.
Qed.
Print Assumptions default_response.

(* The answers of handlers: JSON with status 200, the deletion of a ticket with
   204 and no content. *)
Theorem answers_sent :
  forall v h k inp b,
  healthy v ->
  (exists s, router v h (json_answer b) (start k h inp) = (s, inl tt) /\
     s_out s = [Head 200 (zlen b) false; Data b] /\ s_close s = h_close h /\ s_in s = inp) /\
  (exists s, router v h delete_answer (start k h inp) = (s, inl tt) /\
     s_out s = [Head 204 0 false; Data []] /\ s_close s = h_close h /\ s_in s = inp).
Proof.
  intros v h k inp b (HW & _). split.
  - unfold router, json_answer. cbn [run run_act]. unfold send_json. cbn [s_started start].
    unfold resp_write. cbn [s_raw set_rlen set_status start]. destruct (zlen b <? 4096).
    + unfold wfile_write. rewrite HW. cbn. eexists. split; [reflexivity|]. auto.
    + unfold wfile_write. rewrite HW. cbn [res]. rewrite HW. cbn. eexists. split; [reflexivity|]. auto.
  - unfold router, delete_answer. cbn. unfold resp_write. cbn. unfold wfile_write. rewrite HW. cbn.
    eexists. split; [reflexivity|]. auto.
Qed.
Print Assumptions answers_sent.

(* A PUT request without Content-Length, with an invalid one, or with a body
   that ends before it: 400, and nothing else when no error of the socket
   comes. *)
Theorem put_errors_are_400 :
  forall v h k inp fuel buflen s e,
  (forall i, exists m, e_read v i = RGot m) ->
  run v h (put_request fuel buflen) (start k h inp) = (s, inr e) ->
  (h_length h = None \/ (exists x, content_length (e_limit v) (h_length h) = inr x) -> e = EHttp 400) /\
  (e = EHttp 400 \/ e = EOther /\ exists n, content_length (e_limit v) (h_length h) = inl (Some n)).
Proof.
  intros v h k inp fuel buflen s e F E.
  unfold put_request in E. cbn [run run_act] in E. unfold req_content_length in E. cbn [s_cl start] in E.
  assert (B : forall fuel todo s s' e, run v h (put_body fuel buflen todo) s = (s', inr e) ->
             (exists m, s_len s = Known m) \/ (exists m, s_cl s = Known m) -> e = EHttp 400 \/ e = EOther).
  { clear E. intros f. induction f as [|f IH]; intros todo s1 s2 e1 E K; cbn [put_body] in E; [injection E as _ <-; auto|].
    destruct (todo =? 0); [discriminate|]. cbn [run run_act] in E. unfold req_readinto in E.
    assert (L : exists s3 o, req_length v h s1 = (s3, inl o) /\ s_len s3 = Known o).
    { unfold req_length, req_content_length. destruct (s_len s1) as [|m] eqn:L1; [|exists s1, m; auto].
      destruct K as [[m K]|[m K]]; [discriminate|]. rewrite K. eexists. exists m. split; reflexivity. }
    destruct L as (s3 & o & L & K3). rewrite L in E. destruct o as [len|]; [|cbn in E; injection E as _ <-; auto].
    destruct (len =? 0); [cbn in E; injection E as _ <-; auto|].
    unfold sock_read in E. destruct (F (s_ri s3)) as [m M]. rewrite M in E. cbn [res] in E.
    destruct (zlen _ =? 0); [cbn in E; injection E as _ <-; auto|]. eapply IH; [exact E|]. left. eexists. reflexivity. }
  destruct (content_length (e_limit v) (h_length h)) as [[n|]|x] eqn:C; cbn [res] in E.
  - split.
    + intros [N|[x X]]; [|congruence]. rewrite N in C. discriminate C.
    + destruct (B _ _ _ _ _ E) as [-> | ->]; eauto. right. eexists. reflexivity.
  - cbn in E. injection E as _ <-. auto.
  - cbn in E. injection E as _ <-. auto.
Qed.
Print Assumptions put_errors_are_400.

Example put_errors_ex :
  let h := ReqHead (lits "PUT") (lits "/images/a") (Some (lit "3")) false in
  let v := Env None (fun i => RGot 100) (fun _ => None) (fun _ => true) in
  exists s, run v h (put_request 10 2) (start (Con [] false 0 0 0) h [x01]) = (s, inr (EHttp 400)).
Proof. eexists. vm_compute. reflexivity. Qed.

(* No request, or one that cannot be parsed: the connection is closed, and no
   handler runs. *)
Theorem bad_head_closes :
  forall v parse app k n,
  parse (k_in k) = PEof \/ parse (k_in k) = PError -> k_closed k = false ->
  exists k', serve (S n) v parse app k = (k', []) /\ k_closed k' = true /\ k_in k' = k_in k.
Proof.
  intros v parse app k n P C. cbn [serve]. rewrite C. unfold handle_one. destruct P as [-> | ->]; eexists; (split; [reflexivity|]); auto.
Qed.
Print Assumptions bad_head_closes.

(* End to end: what an unknown path and an unknown method get. *)
Theorem unknown_path_gets_404 :
  forall v parse l k h rest n,
  healthy v -> parse (k_in k) = PRequest h rest ->
  declares (e_limit v) (h_length h) n ->
  In (h_method h) ALLOWED_METHODS ->
  Forall (fun x => rt_match x (h_path h) = None) l ->
  exists k' d cl, handle_one v parse (dispatch l) k =
    (k', Some (h, [Head 404 (zlen d) cl; Data d])).
Proof.
  intros v parse l k h rest n V P D M F. unfold handle_one. rewrite P.
  rewrite dispatch_no_match by auto.
  destruct (error_status v h (Raise (EHttp 404)) k rest (start k h rest) (EHttp 404) n)
    as (s' & d & cl & -> & O); auto.
  rewrite O. eauto.
Qed.
Print Assumptions unknown_path_gets_404.

Theorem unknown_method_gets_405 :
  forall v parse l k h rest n,
  healthy v -> parse (k_in k) = PRequest h rest ->
  declares (e_limit v) (h_length h) n ->
  ~ In (h_method h) ALLOWED_METHODS \/
  (exists l1 r l2 g, l = l1 ++ r :: l2 /\
     Forall (fun x => rt_match x (h_path h) = None) l1 /\
     rt_match r (h_path h) = Some g /\ rt_method r (lower (h_method h)) = None) ->
  exists k' d cl, handle_one v parse (dispatch l) k =
    (k', Some (h, [Head 405 (zlen d) cl; Data d])).
Proof.
  intros v parse l k h rest n V P D M. unfold handle_one. rewrite P.
  assert (X : dispatch l h = Raise (EHttp 405)).
  { destruct M as [M|(l1 & r & l2 & g & -> & F & R & X)].
    - apply dispatch_unknown_method; auto.
    - destruct (existsb (str_eqb (h_method h)) ALLOWED_METHODS) eqn:A.
      + rewrite (dispatch_first_match l1 r l2 h g), X; auto. apply existsb_str; auto.
      + unfold dispatch. rewrite A. reflexivity. }
  rewrite X.
  destruct (error_status v h (Raise (EHttp 405)) k rest (start k h rest) (EHttp 405) n)
    as (s' & d & cl & -> & O); auto.
  rewrite O. eauto.
Qed.
Print Assumptions unknown_method_gets_405.

(* Finding: patterns are not anchored at the end.  Any path starting with
   /images/ is served by some handler of the images routes: what follows
   /extents is ignored, and so is everything after a newline in the ticket
   id. *)
Theorem unknown_path_is_rejected_refuted :
  first_route remote_routes (lits "/images/id/extentsX/y") = Some (HExtents, [lits "id"]) /\
  first_route remote_routes (lits "/images/id" ++ newline :: lits "junk")
    = Some (HImages, [lits "id"]).
Proof. split; reflexivity. Qed.
Print Assumptions unknown_path_is_rejected_refuted.

(* --- cases meeting the hypotheses --- *)

(* Body of 3 bytes read with short reads; the rest stays. *)
Example body_ex :
  let h := ReqHead (lits "PUT") (lits "/images/a") (Some (lit "3")) false in
  let v := Env None (fun i => RGot (if Nat.eqb i 0 then 1 else 5)) (fun _ => None) (fun _ => false) in
  let s0 := start (Con [] false 0 0 0) h [x01; x02; x03; x47] in
  let p := put_request 10 2 in
  careful p /\ declares (e_limit v) (h_length h) 3 /\
  delivered v h p s0 = [x01; x02; x03] /\ s_in (fst (run v h p s0)) = [x47] /\
  snd (run v h p s0) = inl tt.
Proof.
  cbn zeta. split; [|split; [constructor; reflexivity|repeat split]].
  apply (put_does_its_part calm (ReqHead [] [] None false) 0). constructor.
Qed.

(* Two requests on one connection, the second fails with 404. *)
Example keep_alive_ex :
  let app (h : head) := match h_length h with
                        | Some _ => put_request 10 10
                        | None => Raise (EHttp 404)
                        end in
  let q1 := Request (ReqHead (lits "GET") (lits "/images/a") (Some (lit "1")) false) [x01] [x55] in
  let q2 := Request (ReqHead (lits "GET") (lits "/images/b") None false) [x02] [] in
  (forall q, In q [q1; q2] ->
     parses toy q /\
     declares (e_limit calm) (h_length (q_head q)) (zlen (q_body q)) /\
     does_its_part calm (q_head q) (zlen (q_body q)) (app (q_head q))) /\
  map snd (snd (serve 2 calm toy app (Con (stream [q1; q2] ++ [x77]) false 0 0 0)))
  = [ [Head 200 0 false; Data []]; [Head 404 1 false; Data [x0a]] ] /\
  k_in (fst (serve 2 calm toy app (Con (stream [q1; q2] ++ [x77]) false 0 0 0))) = [x77] /\
  k_closed (fst (serve 2 calm toy app (Con (stream [q1; q2] ++ [x77]) false 0 0 0))) = false.
Proof.
  cbn zeta. split; [|vm_compute; auto].
  intros q [<-|[<-|[]]].
  - split; [intros rest; reflexivity|]. split; [constructor; reflexivity|].
    apply put_does_its_part. constructor. reflexivity.
  - split; [intros rest; reflexivity|]. split; [constructor|].
    split; [exact I|]. intros k rest s _ X. discriminate.
Qed.

(* An error with an unread body closes the connection. *)
Example error_ex :
  let h := ReqHead (lits "GET") (lits "/nothing") (Some (lit "1")) false in
  let k := Con [] false 0 0 0 in
  Forall (fun x => rt_match x (h_path h) = None) (service_routes remote_routes (fun _ _ _ => Ret)) /\
  s_out (fst (router calm h (dispatch (service_routes remote_routes (fun _ _ _ => Ret)) h)
                (start k h [x09]))) = [Head 404 1 true; Data [x0a]] /\
  s_close (fst (router calm h (dispatch (service_routes remote_routes (fun _ _ _ => Ret)) h)
                (start k h [x09]))) = true.
Proof. cbn zeta. split; [repeat constructor|]. vm_compute. auto. Qed.

Example dispatch_ex :
  plain (lits "4b4b-11") /\
  In (lits "PATCH") ALLOWED_METHODS /\ lower (lits "PATCH") = lits "patch" /\
  In (lits "patch") (methods HImages) /\ ~ In (lits "post") (methods HImages) /\
  ~ In (lits "TRACE") ALLOWED_METHODS /\
  first_route control_routes (lits "/tickets/x/y") = Some (HTickets, [lits "x/y"]) /\
  first_route remote_routes (lits "/info/") = Some (HInfo, []) /\
  first_route local_routes (lits "/info/") = None.
Proof.
  split; [repeat constructor; discriminate|].
  split; [cbn; tauto|]. split; [reflexivity|]. split; [cbn; tauto|].
  split; [cbn; intuition discriminate|].
  split; [cbn; intuition discriminate|]. repeat split.
Qed.
