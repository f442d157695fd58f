(* The admin client and tool: C79. *)
From Coq Require Import ZArith Lia List Bool String.
From Verif Require Import UrlModel ControlModel ControlSpec ControlTheorems AdminModel AdminSpec AdminProofs.
Import ListNotations.
Open Scope Z_scope.

Section Admin.
Variable v : env.
Variable utf8 : list Z -> str.
Hypothesis ascii : keeps_ascii utf8.
Variable parse_query : str -> list (str * str).
Hypothesis queries : parses parse_query.
Variable pystr : json -> str.

Notation add := (add_ticket v utf8 parse_query pystr).
Notation show := (get_ticket v utf8 parse_query).
Notation modify := (mod_ticket v utf8 parse_query).
Notation del := (del_ticket v utf8 parse_query).

(* C79: add_ticket of a description succeeds if and only if it is valid; then
   the ticket of this description is stored under its uuid, and no other is
   changed.  A refused one changes nothing. *)
Theorem add_ticket_adds now unused fields uuid d :
  dictionary (d_tickets d) -> NoDup (map fst fields) -> given fields "uuid" (JStr uuid) -> plain uuid ->
  let '(r, d') := add (Answered now unused) (JObj fields) d in
  d_profiler d' = d_profiler d /\
  ((ok r /\ valid v (JObj fields) /\
    (exists t, ticket_of v now fields t /\ stored (d_tickets d') uuid t) /\ same_but uuid (d_tickets d) (d_tickets d'))
   \/ (r = inr (ServerError 400) /\ ~ valid v (JObj fields) /\ d_tickets d' = d_tickets d)).
Proof.
  intros D N G (NE & P). unfold add_ticket. unfold given in G. apply (proj2 (lookup_in _ _ _ N)) in G. rewrite G. cbn [format].
  rewrite (request_ticket v utf8 ascii parse_query _ VPut uuid _ d (Put uuid (Some (JObj fields))) P eq_refl).
  pose proof (put_ticket v now unused uuid (JObj fields) (d_tickets d) D) as H.
  assert (O : object (JObj fields)) by (intros d0 Q; injection Q as <-; auto).
  specialize (H O NE). destruct (handle v now unused _ _) as [a s']. cbn [fst snd expect].
  destruct H as [(NV & S & _ & ->)|(V & S & d0 & t & u & Q & T & U & ST & SB)].
  - rewrite S. cbn. split; auto.
  - rewrite S. cbn. split; auto. left. injection Q as <-.
    assert (E : u = uuid).
    { destruct T as (GT & _). rewrite U in GT. unfold given in GT. apply (proj2 (lookup_in _ _ _ N)) in GT. congruence. }
    subst u. split; [eexists; reflexivity|]. split; auto. split; eauto.
Qed.

(* C79: get_ticket returns the ticket as it is, or fails with 404, and changes
   nothing. *)
Theorem get_ticket_shows now unused id d : dictionary (d_tickets d) -> plain id ->
  let '(r, d') := show (Answered now unused) id d in
  d' = d /\
  (not_stored (d_tickets d) id -> r = inr (ServerError 404)) /\
  (forall t, stored (d_tickets d) id t -> exists f, r = inl (Some (JObj f)) /\
    given f "uuid" (t_uuid t) /\ given f "size" (t_size t) /\ given f "ops" (t_ops t) /\
    given f "timeout" (t_timeout t) /\ given f "expires" (JInt (t_expires t)) /\
    given f "canceled" (JBool (t_canceled t))).
Proof.
  intros D (NE & P). unfold get_ticket.
  rewrite (request_ticket v utf8 ascii parse_query _ VGet id _ d (Get id) P eq_refl).
  destruct (lookup id (d_tickets d)) as [t|] eqn:L.
  - pose proof L as S. apply (proj1 (lookup_in _ _ _ D)) in S.
    destruct (ControlTheorems.get_ticket v now unused id t (d_tickets d) D NE) as (_ & X).
    destruct (X S) as (f & E & F). rewrite E. cbn. split; [destruct d; auto|].
    split; [intros NS; destruct (NS t S)|]. intros t' S'. unfold stored in S'. apply (proj2 (lookup_in _ _ _ D)) in S'.
    assert (t' = t) by congruence. subst t'. exists f. tauto.
  - assert (H : handle v now unused (Get id) (d_tickets d) = (Response 404 None, d_tickets d)).
    { destruct id as [|c id]; [congruence|]. cbn [handle]. rewrite L. auto. }
    rewrite H. cbn. split; [destruct d; auto|]. split; auto.
    intros t S. unfold stored in S. apply (proj2 (lookup_in _ _ _ D)) in S. congruence.
Qed.

(* C79: mod_ticket changes the expiration of the ticket only. *)
Theorem mod_ticket_extends now unused id n t d :
  dictionary (d_tickets d) -> plain id -> 0 <= n -> stored (d_tickets d) id t ->
  let '(r, d') := modify (Answered now unused) id (JObj [(lit "timeout", JInt n)]) d in
  ok r /\ d_profiler d' = d_profiler d /\ same_but id (d_tickets d) (d_tickets d') /\
  exists t', stored (d_tickets d') id t' /\ t_expires t' = now + n /\ t_uuid t' = t_uuid t /\ t_size t' = t_size t /\
    t_ops t' = t_ops t /\ t_timeout t' = t_timeout t /\ t_url t' = t_url t /\ t_canceled t' = t_canceled t.
Proof.
  intros D (NE & P) N S. unfold mod_ticket.
  rewrite (request_ticket v utf8 ascii parse_query _ VPatch id _ d _ P eq_refl).
  destruct (patch_ticket v now unused id n t (d_tickets d) D NE N S) as (s' & t' & -> & ST & SB & E & E1 & E2 & E3 & E4 & E5 & E6 & _).
  cbn. split; [eexists; reflexivity|]. split; auto. split; auto. exists t'. auto 10.
Qed.

(* C79: when del_ticket returns the ticket is gone; when it fails with 409 the
   ticket is used and canceled.  No other ticket is changed. *)
Theorem del_ticket_removes now unused id d :
  dictionary (d_tickets d) -> plain id -> e_remove_timeout v <> 0 ->
  let '(r, d') := del (Answered now unused) id d in
  same_but id (d_tickets d) (d_tickets d') /\ d_profiler d' = d_profiler d /\
  ((ok r /\ not_stored (d_tickets d') id) \/
   (r = inr (ServerError 409) /\ exists t t', stored (d_tickets d) id t /\ (0 < u_ongoing (t_usage t))%nat /\
      stored (d_tickets d') id t' /\ t_canceled t' = true)).
Proof.
  intros D (NE & P) R. unfold del_ticket.
  rewrite (request_ticket v utf8 ascii parse_query _ VDelete id _ d _ P eq_refl).
  destruct (handle v now unused (Delete id) (d_tickets d)) as [a s'] eqn:H. cbn [fst snd expect].
  destruct (delete_ticket v now unused id (d_tickets d) a s' D NE R H) as (SB & [(S & NS)|(S & _ & t & t' & ST & U & ST' & C & _)]);
    rewrite S; cbn; (split; [auto|]); (split; [auto|]).
  - left. split; auto. eexists. reflexivity.
  - right. split; auto. exists t, t'. auto.
Qed.

(* C79: removing again succeeds and changes nothing. *)
Theorem del_ticket_again now unused now' unused' id d x d' :
  dictionary (d_tickets d) -> plain id -> e_remove_timeout v <> 0 ->
  del (Answered now unused) id d = (inl x, d') -> del (Answered now' unused') id d' = (inl None, d').
Proof.
  intros D (NE & P) R. unfold del_ticket.
  rewrite !(request_ticket v utf8 ascii parse_query _ VDelete id _ _ _ P eq_refl).
  destruct (handle v now unused (Delete id) (d_tickets d)) as [a s'] eqn:H. cbn [fst snd expect].
  destruct (Z.eqb_spec (status a) 204) as [S|S]; [|discriminate]. intros Q. injection Q as _ <-. cbn [d_tickets d_profiler].
  rewrite (delete_idempotent v now unused id (d_tickets d) a s' now' unused' D NE R H S). reflexivity.
Qed.

(* A call of the client on the tickets. *)
Inductive acall := AAdd (fields : list (str * json)) (uuid : str) | AGet (id : str) | AMod (id : str) (x : json) | ADel (id : str).
Definition call (o : net) (a : acall) (d : daemon) : (option json + aexc) * daemon :=
  match a with
  | AAdd f _ => add o (JObj f) d
  | AGet id => show o id d
  | AMod id x => modify o id x d
  | ADel id => del o id d
  end.
Definition good (a : acall) : Prop :=
  match a with
  | AAdd f u => NoDup (map fst f) /\ given f "uuid" (JStr u) /\ plain u
  | AGet id | AMod id _ | ADel id => plain id
  end.

Definition asked (a : acall) : ControlModel.request :=
  match a with
  | AAdd f u => Put u (Some (JObj f))
  | AGet id => Get id
  | AMod id x => Patch id (Some x)
  | ADel id => Delete id
  end.

Lemma call_eq a : good a -> exists code, (forall o d, call o a d = expect code (match o with
    | NotSent => (inr ClientError, d)
    | Lost now unused => (inr ClientError, Daemon (snd (handle v now unused (asked a) (d_tickets d))) (d_profiler d))
    | Answered now unused => (inl (fst (handle v now unused (asked a) (d_tickets d))), Daemon (snd (handle v now unused (asked a) (d_tickets d))) (d_profiler d))
    end)) /\ about (asked a) (match a with AAdd _ u => u | AGet id | AMod id _ | ADel id => id end) /\ asked a <> Delete [].
Proof.
  destruct a as [f u|id|id x|id]; cbn [good call asked]; intros G.
  - destruct G as (N & G & (NE & P)). exists 200.
    unfold given in G. apply (proj2 (lookup_in _ _ _ N)) in G. split; [|split; [exact G|discriminate]].
    intros o d. unfold add_ticket. rewrite G. cbn [format].
    rewrite (request_ticket v utf8 ascii parse_query o VPut u _ d _ P eq_refl). auto.
  - destruct G as (NE & P). exists 200. split; [|split; [reflexivity|discriminate]].
    intros o d. unfold get_ticket. rewrite (request_ticket v utf8 ascii parse_query o VGet id _ d _ P eq_refl). auto.
  - destruct G as (NE & P). exists 200. split; [|split; [reflexivity|discriminate]].
    intros o d. unfold mod_ticket. rewrite (request_ticket v utf8 ascii parse_query o VPatch id _ d _ P eq_refl). auto.
  - destruct G as (NE & P). exists 204. split; [|split; [reflexivity|congruence]].
    intros o d. unfold del_ticket. rewrite (request_ticket v utf8 ascii parse_query o VDelete id _ d _ P eq_refl). auto.
Qed.

(* C79: whatever happens to a call, it raises nothing but ClientError and
   ServerError, touches only the ticket it names, and what it did to the server
   was done at most once: it left the server as it was, or as the same call
   that is answered would. *)
Theorem call_is_contained o a d r d' : good a -> call o a d = (r, d') ->
  (ok r \/ r = inr ClientError \/ exists code, r = inr (ServerError code)) /\
  d_profiler d' = d_profiler d /\
  same_but (match a with AAdd _ u => u | AGet id | AMod id _ | ADel id => id end) (d_tickets d) (d_tickets d') /\
  (d' = d \/ exists now unused, d' = snd (call (Answered now unused) a d)).
Proof.
  intros G E. destruct (call_eq a G) as (code & C & A & ND). rewrite C in E. remember (asked a) as q.
  remember (match a with AAdd _ u => u | AGet id | AMod id _ | ADel id => id end) as i.
  assert (SB : forall now unused, same_but i (d_tickets d) (snd (handle v now unused q (d_tickets d)))).
  { intros now unused j t NE. destruct (handle v now unused q (d_tickets d)) as [x s'] eqn:H.
    apply (requests_isolated v now unused q (d_tickets d) x s' j t H ND).
    intros A2. apply NE. clear - A A2. destruct q as [x|x [[]|]|x y|x]; cbn [about] in *; try congruence; try contradiction. }
  destruct o as [|now unused|now unused]; cbn [expect] in E.
  - injection E as <- <-. split; auto. split; auto. split; auto. intros j t _. tauto.
  - injection E as <- <-. split; auto. split; auto. cbn [d_tickets]. split; auto. right. exists now, unused.
    rewrite C. cbn [expect]. destruct (_ =? _); auto.
  - assert (X : d' = snd (call (Answered now unused) a d)) by (rewrite C; cbn [expect]; rewrite E; auto).
    destruct (status (fst (handle v now unused q (d_tickets d))) =? code); injection E as <- <-.
    + split; [left; eexists; reflexivity|]. split; auto. split; [apply SB|]. eauto.
    + split; [right; right; eauto|]. split; auto. split; [apply SB|]. eauto.
Qed.

(* C79: a refused call changes nothing, except that a ticket in use is
   canceled when its removal is refused. *)
Theorem refused_call_changes_nothing o a d code d' : good a -> call o a d = (inr (ServerError code), d') ->
  400 <= code -> d_tickets d' = d_tickets d \/ (code = 409 /\ exists id, a = ADel id).
Proof.
  intros G E C4. destruct (call_eq a G) as (c & C & _). rewrite C in E.
  destruct o as [|now unused|now unused]; cbn [expect] in E; try discriminate.
  destruct (handle v now unused (asked a) (d_tickets d)) as [x s'] eqn:H. cbn [fst snd] in E.
  destruct (status x =? c); [discriminate|]. injection E as <- <-. cbn [d_tickets].
  destruct (failed_request_changes_nothing v now unused (asked a) (d_tickets d) x s' H C4) as [->|(S & id & Q)]; auto.
  right. split; auto. destruct a as [f u|i|i y|i]; try discriminate. eauto.
Qed.

(* C79: the profiler is started only when it does not run, and stopped only
   when it runs; a stopped one was written to a file. *)
Theorem profile_calls now unused d :
  (let '(r, d') := start_profile v utf8 parse_query (Answered now unused) d in
   d_tickets d' = d_tickets d /\
   (ok r <-> y_installed (d_profiler d) = true /\ y_running (d_profiler d) = None) /\
   (ok r -> d_profiler d' = Profiler true (Some (lit "cpu")) (y_saved (d_profiler d))) /\
   (~ ok r -> d' = d)) /\
  (let '(r, d') := stop_profile v utf8 parse_query (Answered now unused) d in
   d_tickets d' = d_tickets d /\
   (ok r <-> y_installed (d_profiler d) = true /\ y_running (d_profiler d) <> None) /\
   (ok r -> d_profiler d' = Profiler true None (S (y_saved (d_profiler d)))) /\
   (~ ok r -> d' = d)).
Proof.
  assert (U : forall s, Forall (fun c => 0 <= c < 128) s -> Forall (fun c => c <> 37) s -> unquote utf8 s = s).
  { intros s A B. unfold unquote. rewrite unquote_plain by auto. auto. }
  destruct d as [s [inst run saved]]. cbn [d_profiler d_tickets y_installed y_running y_saved].
  split; unfold start_profile, stop_profile, request;
    (change (negb (sendable _)) with false; cbn iota; unfold serve);
    (change (split_query _) with (lit "/profile/", lit "run=" ++ lit "y") || change (split_query _) with (lit "/profile/", lit "run=" ++ lit "n"));
    cbn iota beta;
    (rewrite U by (repeat constructor; vm_compute; intuition discriminate));
    change (skip (lit "/tickets/") (lit "/profile/")) with (@None str);
    change (skip (lit "/profile/") (lit "/profile/")) with (Some (@nil Z)); cbn iota beta;
    rewrite queries by (cbn; auto);
    cbn [d_profiler d_tickets]; unfold profile_post; cbn [y_installed y_running y_saved];
    (destruct inst; cbn [negb]; [|cbn; split; auto; split; [split; [intros (? & ?); discriminate|intros (? & ?); discriminate]|]; split; auto; intros (? & ?); discriminate]);
    match goal with |- context [enum ?q ?n ?vs ?df] => let e := eval vm_compute in (enum q n vs df) in change (enum q n vs df) with e end; cbn iota beta;
    match goal with |- context [str_eqb ?a ?b] => let e := eval vm_compute in (str_eqb a b) in change (str_eqb a b) with e end; cbn iota beta;
    try (match goal with |- context [enum ?q ?n ?vs ?df] => let e := eval vm_compute in (enum q n vs df) in change (enum q n vs df) with e end; cbn iota beta);
    destruct run as [k|]; cbn; (split; [auto|]);
    (split; [split; [intros (? & ?); try discriminate; auto; split; auto; discriminate
                    |intros (? & ?); try discriminate; try congruence; eexists; reflexivity]|]);
    (split; [intros (? & ?); try discriminate; auto|]; intros X; try reflexivity; exfalso; apply X; eexists; reflexivity).
Qed.

(* C79: the tool ends with status 0 if and only if its call succeeded; an
   error of the server or of the connection is shown without a traceback. *)
Theorem tool_status o c d : let '(e, d') := tool v utf8 parse_query pystr o c d in
  (exit_status e = 0 \/ exit_status e = 1) /\
  (traceback e = true -> exit_status e = 1 /\ d' = d /\ exists x, c = AddTicket x /\
     forall f u, x = Some (JObj f) -> ~ In (lit "uuid", u) f) /\
  (forall id, c = DelTicket id -> (exit_status e = 0 <-> ok (fst (del o id d))) /\ d' = snd (del o id d)) /\
  (forall x, c = AddTicket (Some x) -> (exit_status e = 0 <-> ok (fst (add o x d))) /\ d' = snd (add o x d)) /\
  (forall id, c = ShowTicket id -> (exit_status e = 0 <-> ok (fst (show o id d))) /\ d' = snd (show o id d) /\
     forall x, fst (show o id d) = inl x -> printed e = x) /\
  (forall id n, c = ModTicket id (Some n) -> (exit_status e = 0 <-> ok (fst (modify o id (JObj [(lit "timeout", JInt n)]) d))) /\
     d' = snd (modify o id (JObj [(lit "timeout", JInt n)]) d)) /\
  (c = StartProfile -> (exit_status e = 0 <-> ok (fst (start_profile v utf8 parse_query o d))) /\ d' = snd (start_profile v utf8 parse_query o d)) /\
  (c = StopProfile -> (exit_status e = 0 <-> ok (fst (stop_profile v utf8 parse_query o d))) /\ d' = snd (stop_profile v utf8 parse_query o d)).
Proof.
  assert (F : forall r, let '(e, d') := finish r in
    (exit_status e = 0 \/ exit_status e = 1) /\ ((exit_status e = 0 <-> ok (fst r)) /\ forall x, fst r = inl x -> printed e = x) /\ d' = snd r /\
    (traceback e = true -> exit_status e = 1 /\ (fst r = inr KeyError \/ fst r = inr TypeError))).
  { intros [[x|e] d1]; cbn; [|destruct e; cbn];
      (split; [auto|]); (split; [split; [split; [intros; try discriminate; eexists; reflexivity|intros (? & ?); try discriminate; auto]|intros; congruence]|]);
      (split; [auto|]); intros; try discriminate; auto. }
  assert (EX : forall code m uri b, fst (expect code (request v utf8 parse_query o m uri b d)) <> inr KeyError /\
    fst (expect code (request v utf8 parse_query o m uri b d)) <> inr TypeError).
  { intros code m uri b. unfold request. destruct (negb _); [split; discriminate|].
    destruct o; cbn; try (split; discriminate). destruct (serve _ _ _ _ _ _ _ _ _) as [a ?]. cbn.
    destruct (_ =? _); split; discriminate. }
  destruct c as [[x|]|id|id t|id| |]; cbn [tool].
  - specialize (F (add o x d)). destruct (finish (add o x d)) as [e d']. destruct F as (S & (K & PR) & -> & T). split; auto. split.
    + intros TB. destruct (T TB) as (E1 & X). split; auto.
      unfold add_ticket in *. destruct x as [| | | | | |f]; cbn [fst snd] in *;
        try (split; auto; eexists; split; [reflexivity|]; intros; discriminate).
      destruct (lookup (lit "uuid") f) as [u|] eqn:L.
      * exfalso. destruct (EX 200 VPut (ticket_uri (format pystr u)) (Some (JObj f))) as (A & B). destruct X; auto.
      * split; auto. eexists. split; [reflexivity|]. intros f0 u Q I. injection Q as <-.
        exact (proj1 (lookup_none _ _) L _ I).
    + split; [intros; discriminate|]. split; [intros y Q; injection Q as <-; auto|]. repeat split; intros; discriminate.
  - cbn. split; auto. split; [|repeat split; intros; discriminate]. intros _. split; auto. split; auto. exists None. split; auto. intros; discriminate.
  - specialize (F (show o id d)). destruct (finish (show o id d)) as [e d']. destruct F as (S & (K & PR) & -> & T). split; auto.
    split; [|repeat match goal with |- _ /\ _ => split end; intros; try discriminate; try match goal with Q : _ = _ |- _ => injection Q as <- end; auto].
    intros TB. destruct (T TB) as (_ & X). exfalso. destruct (EX 200 VGet (ticket_uri id) None). destruct X; auto.
  - match goal with |- context [finish ?r] => specialize (F r); destruct (finish r) as [e d'] end. destruct F as (S & (K & PR) & -> & T). split; auto.
    split; [|repeat match goal with |- _ /\ _ => split end; intros; try discriminate; try match goal with Q : _ = _ |- _ => injection Q as <- end; try match goal with Q : t = Some _ |- _ => subst t end; auto].
    intros TB. destruct (T TB) as (_ & X). exfalso.
    unfold mod_ticket in X. destruct X as [X|X]; [exact (proj1 (EX 200 VPatch _ _) X)|exact (proj2 (EX 200 VPatch _ _) X)].
  - specialize (F (del o id d)). destruct (finish (del o id d)) as [e d']. destruct F as (S & (K & PR) & -> & T). split; auto.
    split; [|split; [intros i Q; injection Q as <-; auto|repeat split; intros; discriminate]].
    intros TB. destruct (T TB) as (_ & X). exfalso. destruct (EX 204 VDelete (ticket_uri id) None). destruct X; auto.
  - match goal with |- context [finish ?r] => specialize (F r); destruct (finish r) as [e d'] end. destruct F as (S & (K & PR) & -> & T). split; auto.
    split; [|repeat match goal with |- _ /\ _ => split end; intros; try discriminate; try match goal with Q : _ = _ |- _ => injection Q as <- end; auto].
    intros TB. destruct (T TB) as (_ & X). exfalso.
    destruct X as [X|X]; [exact (proj1 (EX 200 VPost _ _) X)|exact (proj2 (EX 200 VPost _ _) X)].
  - match goal with |- context [finish ?r] => specialize (F r); destruct (finish r) as [e d'] end. destruct F as (S & (K & PR) & -> & T). split; auto.
    split; [|repeat match goal with |- _ /\ _ => split end; intros; try discriminate; try match goal with Q : _ = _ |- _ => injection Q as <- end; auto].
    intros TB. destruct (T TB) as (_ & X). exfalso.
    destruct X as [X|X]; [exact (proj1 (EX 200 VPost _ _) X)|exact (proj2 (EX 200 VPost _ _) X)].
Qed.

(* C79: mod-ticket without --timeout always fails. *)
Theorem mod_ticket_needs_timeout o id d : plain id ->
  let '(e, d') := tool v utf8 parse_query pystr o (ModTicket id None) d in exit_status e = 1 /\ d' = d.
Proof.
  intros (NE & P). cbn [tool]. unfold mod_ticket.
  rewrite (request_ticket v utf8 ascii parse_query o VPatch id _ d _ P eq_refl).
  destruct id as [|c id]; [congruence|]. destruct d as [s p].
  destruct o as [|now unused|now unused]; cbn [handle validate_timeout lookup]; rewrite ?str_eqb_refl; cbn; auto.
Qed.

(* C79: ids in URLs may be percent-encoded, in upper or lower case. *)
Lemma hex_digits c x : hex c = Some x <-> In (c, x) digits.
Proof.
  split.
  - unfold hex. destruct ((48 <=? c) && (c <=? 57)) eqn:A.
    { intros [= <-]. assert (H : In c [48; 49; 50; 51; 52; 53; 54; 55; 56; 57]) by (cbn [In]; lia).
      cbn [In] in H. repeat destruct H as [<-|H]; try contradiction; vm_compute; auto 12. }
    destruct ((65 <=? c) && (c <=? 70)) eqn:B.
    { intros [= <-]. assert (H : In c [65; 66; 67; 68; 69; 70]) by (cbn [In]; lia).
      cbn [In] in H. repeat destruct H as [<-|H]; try contradiction; vm_compute; auto 18. }
    destruct ((97 <=? c) && (c <=? 102)) eqn:C; [|discriminate].
    intros [= <-]. assert (H : In c [97; 98; 99; 100; 101; 102]) by (cbn [In]; lia).
    cbn [In] in H. repeat destruct H as [<-|H]; try contradiction; vm_compute; auto 24.
  - cbn [digits In]. intros H. repeat destruct H as [H|H]; try contradiction; injection H as <- <-; reflexivity.
Qed.
Lemma unquote_other c r : c <> 37 -> unquote_bytes (c :: r) = c :: unquote_bytes r.
Proof.
  intros N. cbn [unquote_bytes].
  destruct r as [|a [|b r]]; destruct c as [|p|p]; auto; do 6 (destruct p as [p|p|]; auto); congruence.
Qed.
Theorem ids_unquoted s t : quoted s t -> unquote_bytes s = t.
Proof.
  induction 1 as [|c s t N H IH|a b x y s t A B H IH|a b s t N H IH|c s S ->].
  - auto.
  - rewrite unquote_other by auto. rewrite IH. auto.
  - apply hex_digits in A, B. cbn [unquote_bytes]. rewrite A, B, IH. auto.
  - change (unquote_bytes (37 :: a :: b :: s)) with
      (match hex a, hex b with
       | Some x, Some y => 16 * x + y :: unquote_bytes s
       | _, _ => 37 :: unquote_bytes (a :: b :: s)
       end).
    rewrite IH. destruct (hex a) as [x|] eqn:A; [destruct (hex b) as [y|] eqn:B|]; auto.
    exfalso. apply (N x y). split; apply hex_digits; auto.
  - destruct S as [->|(a & -> & NA)]; [reflexivity|].
    change (unquote_bytes [37; a]) with (37 :: unquote_bytes [a]). f_equal.
    rewrite unquote_other by auto. auto.
Qed.

(* C79: ids that are no printable ASCII are refused by the client. *)
Theorem unsendable o m id body d c : In c id -> ~ (32 < c < 127) ->
  request v utf8 parse_query o m (ticket_uri id) body d = (inr ClientError, d).
Proof.
  intros I N. unfold request. destruct (sendable (ticket_uri id)) eqn:S; auto. exfalso.
  unfold sendable in S. rewrite forallb_forall in S. specialize (S c). rewrite andb_true_iff, !Z.ltb_lt in S.
  apply N. apply S. unfold ticket_uri. apply in_or_app. auto.
Qed.

(* C79: what is served on the socket: nothing but tickets and the profiler. *)
Theorem only_tickets_and_profile now unused m uri path query body d :
  split_query uri = (path, query) ->
  (forall r, unquote utf8 path <> lit "/tickets/" ++ r) -> (forall r, unquote utf8 path <> lit "/profile/" ++ r) ->
  serve v utf8 parse_query now unused m uri body d = (Response 404 None, d).
Proof.
  intros Q T P. unfold serve. rewrite Q.
  assert (K : forall p s, (forall r, s <> p ++ r) -> skip p s = None).
  { induction p as [|c p IH]; intros s H; [destruct (H s); auto|]. destruct s as [|x s]; [auto|]. cbn [skip].
    destruct (c =? x) eqn:E; auto. apply Z.eqb_eq in E. subst x. apply IH. intros r ->. apply (H r). auto. }
  rewrite !K by auto. auto.
Qed.

(* C79: requests to the profiler. *)
Theorem profile_requests now unused path query body d :
  split_query path = (lit "/profile/", query) ->
  (let '(r, d') := serve v utf8 parse_query now unused VPost path body d in
   d_tickets d' = d_tickets d /\ ControlModel.body r = None /\
   profiles (d_profiler d) (lookup (lit "run") (parse_query query)) (lookup (lit "clock") (parse_query query))
     (status r) (d_profiler d')) /\
  (let '(r, d') := serve v utf8 parse_query now unused VGet path body d in
   d' = d /\
   (y_installed (d_profiler d) = false -> r = Response 404 None) /\
   (y_installed (d_profiler d) = true -> status r = 200 /\ exists f, ControlModel.body r = Some (JObj f) /\
      (given f "running" (JBool true) <-> y_running (d_profiler d) <> None) /\
      (given f "running" (JBool false) <-> y_running (d_profiler d) = None))) /\
  forall m, In m [VPut; VPatch; VDelete] ->
    serve v utf8 parse_query now unused m path body d = (Response 405 None, d).
Proof.
  intros Q.
  assert (U : unquote utf8 (lit "/profile/") = lit "/profile/").
  { unfold unquote. change (unquote_bytes (lit "/profile/")) with (lit "/profile/"). apply ascii.
    repeat constructor; vm_compute; discriminate. }
  unfold serve. rewrite Q, U.
  change (skip (lit "/tickets/") (lit "/profile/")) with (@None str).
  change (skip (lit "/profile/") (lit "/profile/")) with (Some ([] : str)). cbv iota.
  destruct d as [s [i run n]]. cbn [d_profiler d_tickets].
  split; [|split].
  - unfold profile_post. cbn [y_installed y_running y_saved].
    destruct i; [|cbn [negb]; split; [auto|split; [auto|apply not_installed; auto]]]. cbn [negb].
    unfold enum. destruct (lookup (lit "run") (parse_query query)) as [x|] eqn:R.
    2:{ split; [auto|]. split; [auto|]. apply refused; [auto|intros (E & _); discriminate|intros (E & _); discriminate]. }
    cbn [existsb]. unfold str_eqb.
    destruct (list_eq_dec Z.eq_dec x (lit "y")) as [->|NY].
    + cbn [orb]. destruct (list_eq_dec Z.eq_dec (lit "y") (lit "y")) as [_|]; [|congruence].
      destruct (lookup (lit "clock") (parse_query query)) as [c|] eqn:C.
      * destruct (list_eq_dec Z.eq_dec c (lit "cpu")) as [->|NC]; [|destruct (list_eq_dec Z.eq_dec c (lit "wall")) as [->|NW]]; cbn [orb].
        -- destruct run as [y|]; cbn [fst snd status d_tickets d_profiler]; (split; [auto|]); (split; [auto|]).
           ++ apply refused; [auto|intros (_ & E & _); discriminate|intros (E & _); discriminate].
           ++ apply (starts (Profiler true None n) _ _ (lit "cpu")); auto.
        -- destruct run as [y|]; cbn [fst snd status d_tickets d_profiler]; (split; [auto|]); (split; [auto|]).
           ++ apply refused; [auto|intros (_ & E & _); discriminate|intros (E & _); discriminate].
           ++ apply (starts (Profiler true None n) _ _ (lit "wall")); auto.
        -- split; [auto|]. split; [auto|]. apply refused; [auto| |intros (E & _); discriminate].
           intros (_ & _ & [E|[E|E]]); congruence.
      * destruct run as [y|]; cbn [fst snd status d_tickets d_profiler]; (split; [auto|]); (split; [auto|]).
        -- apply refused; [auto|intros (_ & E & _); discriminate|intros (E & _); discriminate].
        -- apply (starts (Profiler true None n) _ _ (lit "cpu")); auto.
    + destruct (list_eq_dec Z.eq_dec x (lit "n")) as [->|NN]; cbn [orb].
      * destruct (list_eq_dec Z.eq_dec (lit "n") (lit "y")) as [E|_]; [discriminate|].
        destruct run as [y|]; cbn [fst snd status d_tickets d_profiler]; (split; [auto|]); (split; [auto|]).
        -- apply (stops (Profiler true (Some y) n) _ _ y); auto.
        -- apply refused; [auto|intros (E & _); discriminate|intros (_ & E); apply E; auto].
      * split; [auto|]. split; [auto|]. apply refused; [auto| |]; intros (E & _); congruence.
  - unfold profile_get. cbn [y_installed y_running].
    destruct i; cbn [negb]; (split; [auto|]); (split; [intros; try discriminate; auto|]); [|discriminate].
    intros _. split; [auto|]. eexists. split; [reflexivity|]. unfold given. cbn [In].
    destruct run as [y|]; (split; split); intros H; try congruence; auto;
      destruct H as [H|[]]; discriminate.
  - intros m [<-|[<-|[<-|[]]]]; auto.
Qed.

End Admin.
Print Assumptions ids_unquoted.
Print Assumptions unsendable.
Print Assumptions only_tickets_and_profile.
Print Assumptions profile_requests.
Example unquoted_ex : quoted (lit "%2fa%2F%zz%") (lit "/a/%zz%").
Proof.
  apply (q_byte 50 102 2 15); [cbn; auto 30|cbn; auto 30|]. apply (q_char 97); [discriminate|].
  apply (q_byte 50 70 2 15); [cbn; auto 30|cbn; auto 30|].
  apply (q_percent 122 122). { intros x y (A & _). cbn in A. intuition discriminate. }
  apply (q_char 122); [discriminate|]. apply (q_char 122); [discriminate|]. apply q_end; auto.
Qed.
Example profile_ex : split_query (lit "/profile/?run=y&clock=wall") = (lit "/profile/", lit "run=y&clock=wall") /\
  profiles (Profiler true None 3) (Some (lit "y")) (Some (lit "wall")) 200 (Profiler true (Some (lit "wall")) 3).
Proof. split; [reflexivity|]. apply (starts (Profiler true None 3) _ _ (lit "wall")); auto. Qed.

(* Library functions for the examples. *)
Definition ex_query (s : str) : list (str * str) := [(lit "run", match rev s with c :: _ => [c] | [] => [] end)].
Definition ex_ticket (id : string) : str * ticket :=
  (lit id, Ticket (JStr (lit id)) (JInt 1) (JList []) (JInt 1) (JInt 1) 2 1 (JStr []) (JStr []) JNull
              (JBool false) (JBool false) false (Usage 0 0 0)).
Definition ex_daemon : daemon := Daemon [ex_ticket "a"; ex_ticket "b"] (Profiler true None 0).
Definition ex_add := add_ticket ex_env (fun l => l) ex_query (fun _ => []).
Definition ex_del := del_ticket ex_env (fun l => l) ex_query.

(* C79, refuted: a call touches only the ticket it names: an empty id removes
   all tickets, "a?b" and "%61" remove the ticket "a". *)
Theorem del_empty_id_refuted : exists o d d', ex_del o [] d = (inl None, d') /\
  d_tickets d <> [] /\ d_tickets d' = [].
Proof. exists (Answered 0 false), ex_daemon. eexists. split; [vm_compute; reflexivity|]. split; [discriminate|reflexivity]. Qed.

Theorem del_other_id_refuted : exists o d d1 d2,
  ex_del o (lit "a?b") d = (inl None, d1) /\ ex_del o (lit "%61") d = (inl None, d2) /\
  map fst (d_tickets d) = [lit "a"; lit "b"] /\ map fst (d_tickets d1) = [lit "b"] /\ map fst (d_tickets d2) = [lit "b"].
Proof. exists (Answered 0 false), ex_daemon. eexists. eexists. split; [vm_compute; reflexivity|]. split; [vm_compute; reflexivity|]. auto. Qed.

(* C79, refuted: calls raise only the errors of the library. *)
Theorem add_without_uuid_refuted : exists o x d, fst (ex_add o x d) = inr KeyError.
Proof. exists (Answered 0 false), (JObj []), ex_daemon. reflexivity. Qed.

Example library_case : keeps_ascii (fun l => l) /\ parses ex_query.
Proof. split; [intros l _; auto|]. intros x [<-|[<-|[]]]; reflexivity. Qed.

Example calls_case :
  plain (lit "01234567-89ab-cdef-xx") /\ plain (lit "a") /\ dictionary (d_tickets ex_daemon) /\ e_remove_timeout ex_env <> 0 /\
  NoDup (map fst (ex_fields (JInt 10))) /\ given (ex_fields (JInt 10)) "uuid" (JStr (lit "01234567-89ab-cdef-xx")) /\
  (let '(r, d) := ex_add (Answered 1000 false) (JObj (ex_fields (JInt 10))) ex_daemon in
   r = inl None /\ map fst (d_tickets d) = [lit "01234567-89ab-cdef-xx"; lit "a"; lit "b"]) /\
  (let '(r, d) := ex_del (Answered 1000 false) (lit "a") ex_daemon in r = inl None /\ map fst (d_tickets d) = [lit "b"]) /\
  (let '(r, d) := ex_del (Lost 1000 false) (lit "a") ex_daemon in r = inr ClientError /\ map fst (d_tickets d) = [lit "b"]).
Proof.
  assert (P : forall s, s <> [] -> forallb (fun c => (32 <? c) && (c <? 127) && negb (c =? 63) && negb (c =? 37)) s = true -> plain s).
  { intros s N H. split; auto. apply Forall_forall. intros c I. rewrite forallb_forall in H. specialize (H c I). unfold plain_char. lia. }
  split; [apply P; [discriminate|reflexivity]|]. split; [apply P; [discriminate|reflexivity]|].
  split; [repeat constructor; cbn; intuition discriminate|]. split; [discriminate|].
  split; [repeat constructor; vm_compute; intuition discriminate|]. split; [vm_compute; auto|].
  vm_compute. auto.
Qed.

Example tool_case :
  fst (tool ex_env (fun l => l) ex_query (fun _ => []) (Answered 0 false) (ShowTicket (lit "x")) ex_daemon) = Ended 1 false None /\
  fst (tool ex_env (fun l => l) ex_query (fun _ => []) (Answered 0 false) StartProfile ex_daemon) = Ended 0 false None /\
  fst (tool ex_env (fun l => l) ex_query (fun _ => []) (Answered 0 false) StopProfile ex_daemon) = Ended 1 false None.
Proof. vm_compute. auto. Qed.

Print Assumptions add_ticket_adds.
Print Assumptions get_ticket_shows.
Print Assumptions mod_ticket_extends.
Print Assumptions del_ticket_removes.
Print Assumptions del_ticket_again.
Print Assumptions call_is_contained.
Print Assumptions refused_call_changes_nothing.
Print Assumptions profile_calls.
Print Assumptions tool_status.
Print Assumptions mod_ticket_needs_timeout.
Print Assumptions del_empty_id_refuted.
Print Assumptions del_other_id_refuted.
Print Assumptions add_without_uuid_refuted.

(* An id with a space is not sent; a path that is served by nothing gets 404. *)
Example unsendable_case :
  In 32 (lit "a b") /\ ~ (32 < 32 < 127) /\
  request ex_env (fun l => l) ex_query (Answered 0 false) VGet (ticket_uri (lit "a b")) None ex_daemon = (inr ClientError, ex_daemon) /\
  split_query (lit "/images/x?y=z") = (lit "/images/x", lit "y=z") /\
  serve ex_env (fun l => l) ex_query 0 false VGet (lit "/images/x?y=z") None ex_daemon = (Response 404 None, ex_daemon).
Proof. split; [cbn; auto|]. split; [lia|]. vm_compute. auto. Qed.
