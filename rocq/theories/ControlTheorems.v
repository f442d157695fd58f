(* Theorems about ticket descriptions and the control API: C42, C52. *)
From Coq Require Import ZArith List Bool String Lia.
From Verif Require Import UrlModel ControlModel ControlSpec.
Import ListNotations.
Open Scope Z_scope.

Lemma str_eqb_spec a b : reflect (a = b) (str_eqb a b).
Proof. unfold str_eqb. destruct (list_eq_dec Z.eq_dec a b); constructor; auto. Qed.
Lemma str_eqb_refl a : str_eqb a a = true.
Proof. destruct (str_eqb_spec a a); auto. Qed.

Lemma lookup_in {A} k (d : list (str * A)) x : NoDup (map fst d) -> (lookup k d = Some x <-> In (k, x) d).
Proof.
  induction d as [|[k' y] d IH]; intros N; cbn [lookup In]; [intuition discriminate|].
  cbn [map fst] in N. inversion N as [|? ? N1 N2]; subst. destruct (str_eqb_spec k k') as [->|E].
  - split.
    + intros Q. injection Q as ->. auto.
    + intros [Q|Q]; [congruence|]. exfalso. apply N1. apply in_map_iff. exists (k', x). auto.
  - rewrite IH by auto. split; auto. intros [Q|Q]; congruence.
Qed.
Lemma lookup_none {A} k (d : list (str * A)) : lookup k d = None <-> forall x, ~ In (k, x) d.
Proof.
  induction d as [|[k' y] d IH]; cbn [lookup In]; [intuition|].
  destruct (str_eqb_spec k k') as [->|E].
  - split; [discriminate|]. intros H. exfalso. apply (H y). auto.
  - rewrite IH. split.
    + intros H x [Q|Q]; [congruence|]. eapply H; eauto.
    + intros H x Q. apply (H x). auto.
Qed.

Lemma isinstance_str x : isinstance x Tstr = true <-> is_str x.
Proof. unfold is_str. destruct x; cbn; split; try discriminate; eauto; intros [y H]; congruence. Qed.
Lemma isinstance_list x : isinstance x Tlist = true <-> is_list x.
Proof. unfold is_list. destruct x; cbn; split; try discriminate; eauto; intros [y H]; congruence. Qed.
Lemma isinstance_bool x : isinstance x Tbool = true <-> is_bool x.
Proof. unfold is_bool. destruct x; cbn; split; try discriminate; eauto; intros [y H]; congruence. Qed.
Lemma isinstance_int x : isinstance x Tint = true <-> is_int x.
Proof.
  unfold is_int, is_bool. destruct x; cbn; split; try discriminate; eauto; intros [[y H]|[y H]]; congruence.
Qed.
Definition typed (t : type) (x : json) : Prop :=
  match t with Tstr => is_str x | Tint => is_int x | Tlist => is_list x | Tbool => is_bool x end.
Lemma isinstance_typed x t : isinstance x t = true <-> typed t x.
Proof. destruct t; [apply isinstance_str|apply isinstance_int|apply isinstance_list|apply isinstance_bool]. Qed.

Lemma required_spec d k t : NoDup (map fst d) ->
  match required d (lit k) t with
  | inl x => given d k x /\ typed t x
  | inr _ => forall x, given d k x -> ~ typed t x
  end.
Proof.
  intros N. unfold required, validate, given. destruct (lookup (lit k) d) as [x|] eqn:L.
  - pose proof L as L'. apply lookup_in in L; auto. destruct (isinstance x t) eqn:I.
    + split; auto. apply isinstance_typed. auto.
    + intros y Y T. apply isinstance_typed in T. apply lookup_in in Y; auto. congruence.
  - rewrite lookup_none in L. intros x X. exfalso. eapply L; eauto.
Qed.
Lemma optional_spec d k t dflt : NoDup (map fst d) ->
  match optional d (lit k) t dflt with
  | inl x => value_or d k dflt x /\ (forall y, given d k y -> typed t y) /\ (typed t x \/ x = dflt)
  | inr _ => exists x, given d k x /\ ~ typed t x
  end.
Proof.
  intros N. unfold optional, validate, given, value_or. destruct (lookup (lit k) d) as [x|] eqn:L.
  - pose proof L as L'. apply lookup_in in L; auto. destruct (isinstance x t) eqn:I.
    + apply isinstance_typed in I. split; [left; auto|]. split; auto.
      intros y Y. apply lookup_in in Y; auto. congruence.
    + exists x. split; auto. intros T. apply isinstance_typed in T. congruence.
  - rewrite lookup_none in L. split; auto. split; auto. intros y Y. exfalso. eapply L; eauto.
Qed.
Lemma supports_spec s : supports s = true <-> In s [lit "file"; lit "http"; lit "https"; lit "nbd"].
Proof.
  unfold supports. rewrite existsb_exists. split.
  - intros (x & I & E). destruct (str_eqb_spec s x); [subst; auto|discriminate].
  - intros I. exists s. split; auto. apply str_eqb_refl.
Qed.
Lemma as_int_number x : is_int x -> number x (as_int x).
Proof. intros [[n ->]|[b ->]]; unfold number; cbn; auto. destruct b; auto. Qed.

Ltac req d k t N :=
  let H := fresh "R" in pose proof (required_spec d k t N) as H; cbn [typed] in H;
  destruct (required d (lit k) t); [destruct H|].
Ltac opt d k t f N :=
  let H := fresh "R" in pose proof (optional_spec d k t f N) as H; cbn [typed] in H;
  destruct (optional d (lit k) t f); [destruct H as (? & ? & ?)|].

Lemma new_ticket_spec v now x : object x ->
  match new_ticket v now x with
  | inl t => valid v x /\ exists d, x = JObj d /\ ticket_of v now d t
  | inr _ => ~ valid v x
  end.
Proof.
  intros O. unfold new_ticket. destruct x as [| | | | | |d]; try (intros (d & E & _); discriminate).
  specialize (O d eq_refl). rename O into N.
  assert (forall k (P : json -> Prop), (forall x, given d k x -> ~ P x) ->
            (exists y, given d k y /\ P y) -> False) as NO.
  { intros k P H (y & G & Y). eapply H; eauto. }
  req d "uuid"%string Tstr N. 2:{ intros (d' & E & HH & _). injection E as <-. eauto. }
  req d "size"%string Tint N. 2:{ intros (d' & E & _ & HH & _). injection E as <-. eauto. }
  req d "ops"%string Tlist N. 2:{ intros (d' & E & _ & _ & HH & _). injection E as <-. eauto. }
  req d "timeout"%string Tint N. 2:{ intros (d' & E & _ & _ & _ & HH & _). injection E as <-. eauto. }
  opt d "inactivity_timeout"%string Tint (JInt (e_inactivity v)) N.
  2:{ intros (d' & E & _ & _ & _ & _ & _ & HH & _). injection E as <-. destruct R as (y & G & Y). eauto. }
  req d "url"%string Tstr N.
  2:{ intros (d' & E & _ & _ & _ & _ & (s & G & _) & _). injection E as <-. eapply R; eauto. exists s. auto. }
  match goal with H : is_str j4 |- _ => destruct H as [u ->] end. cbn [text].
  assert (forall s, given d "url" (JStr s) -> s = u) as U.
  { intros s G. apply lookup_in in G; auto. match goal with H : given d "url" (JStr u) |- _ => apply lookup_in in H; auto end.
    congruence. }
  destruct (urlparse (e_netloc_ok v) u) as [p|] eqn:UP.
  2:{ intros (d' & E & _ & _ & _ & _ & (s & G & p & Q & _) & _). injection E as <-. apply U in G. subst. congruence. }
  destruct (supports (p_scheme p)) eqn:SP; cbn [negb].
  2:{ intros (d' & E & _ & _ & _ & _ & (s & G & p' & Q & I) & _). injection E as <-. apply U in G. subst.
      apply supports_spec in I. congruence. }
  apply supports_spec in SP.
  opt d "transfer_id"%string Tstr JNull N.
  2:{ intros (d' & E & _ & _ & _ & _ & _ & _ & HH & _). injection E as <-. destruct R as (y & G & Y). eauto. }
  opt d "filename"%string Tstr JNull N.
  2:{ intros (d' & E & _ & _ & _ & _ & _ & _ & _ & HH & _). injection E as <-. destruct R as (y & G & Y). eauto. }
  opt d "sparse"%string Tbool (JBool false) N.
  2:{ intros (d' & E & _ & _ & _ & _ & _ & _ & _ & _ & HH & _). injection E as <-. destruct R as (y & G & Y). eauto. }
  opt d "dirty"%string Tbool (JBool false) N.
  2:{ intros (d' & E & _ & _ & _ & _ & _ & _ & _ & _ & _ & HH). injection E as <-. destruct R as (y & G & Y). eauto. }
  split.
  - exists d. split; auto. repeat (split; eauto). exists u. split; auto. exists p. auto.
  - exists d. split; auto. unfold ticket_of. cbn [t_uuid t_size t_ops t_timeout t_inactivity t_expires t_access t_url
      t_transfer_id t_filename t_sparse t_dirty t_canceled t_usage].
    repeat (split; auto).
    + match goal with H : value_or d "transfer_id" JNull j4 |- _ => destruct H as [G|[A ->]] end.
      * left. destruct j4; auto. exfalso. match goal with H : forall y, given d "transfer_id" y -> is_str y |- _ => destruct (H _ G) end.
        discriminate.
      * right. split; auto. match goal with H : is_str j |- _ => destruct H as [s ->] end. exists s. auto.
    + exists (as_int j2). split; auto. apply as_int_number. auto.
Qed.

(* C42: accepted exactly when valid. *)
Theorem ticket_accepted_iff :
  forall v now x, object x -> ((exists t, new_ticket v now x = inl t) <-> valid v x).
Proof.
  intros v now x O. pose proof (new_ticket_spec v now x O) as H. destruct (new_ticket v now x) as [t|e].
  - destruct H as [H _]. split; eauto.
  - split; [intros [t T]; discriminate|]. intros V. contradiction.
Qed.
Print Assumptions ticket_accepted_iff.

(* The values are those given, or the defaults. *)
Theorem ticket_values :
  forall v now d t, NoDup (map fst d) -> new_ticket v now (JObj d) = inl t -> ticket_of v now d t.
Proof.
  intros v now d t N E. pose proof (new_ticket_spec v now (JObj d)) as H. rewrite E in H.
  destruct H as [_ (d' & Q & T)].
  - intros d' Q. injection Q as <-. auto.
  - injection Q as <-. auto.
Qed.
Print Assumptions ticket_values.

Definition ex_env := Env (fun _ => true) (fun s => s) 60 60.
Definition ex_fields (size : json) : list (str * json) :=
  [(lit "url", JStr (lit "nbd:unix:/run/s")); (lit "uuid", JStr (lit "01234567-89ab-cdef-xx"));
   (lit "size", size); (lit "ops", JList [JStr (lit "read")]); (lit "timeout", JInt 300);
   (lit "sparse", JBool true); (lit "other", JNull)].
Example ticket_case :
  NoDup (map fst (ex_fields (JInt 10)))
  /\ new_ticket ex_env 1000 (JObj (ex_fields (JInt 10)))
     = inl (Ticket (JStr (lit "01234567-89ab-cdef-xx")) (JInt 10) (JList [JStr (lit "read")]) (JInt 300)
                   (JInt 60) 1300 1000 (JStr (lit "nbd:unix:/run/s"))
                   (JStr (lit "(ticket/01234567-89ab-cdef)")) JNull (JBool true) (JBool false) false (Usage 0 0 0))
  /\ new_ticket ex_env 1000 (JObj (tl (ex_fields (JInt 10)))) = inr (Missing (lit "url"))
  /\ new_ticket ex_env 1000 (JObj (ex_fields (JStr (lit "10")))) = inr (BadValue (lit "size")).
Proof.
  split; [|vm_compute; auto].
  repeat constructor; vm_compute; intuition discriminate.
Qed.

(* Too liberal: a boolean is accepted as size, also a negative size, and
   operations that do not exist or are not strings. *)
Theorem ticket_size_checked_refuted :
  exists v d t, NoDup (map fst d) /\ new_ticket v 0 (JObj d) = inl t /\ t_size t = JBool true.
Proof.
  exists ex_env, (ex_fields (JBool true)). eexists. split; [repeat constructor; vm_compute; intuition discriminate|].
  split; [vm_compute; reflexivity|reflexivity].
Qed.
Print Assumptions ticket_size_checked_refuted.
Theorem ticket_negative_size_refuted :
  exists v d t, NoDup (map fst d) /\ new_ticket v 0 (JObj d) = inl t /\ t_size t = JInt (-1).
Proof.
  exists ex_env, (ex_fields (JInt (-1))). eexists. split; [repeat constructor; vm_compute; intuition discriminate|].
  split; [vm_compute; reflexivity|reflexivity].
Qed.
Print Assumptions ticket_negative_size_refuted.

(* ---- The store ---- *)
Lemma in_drop {A} k (s : list (str * A)) i t : In (i, t) (drop_key k s) <-> In (i, t) s /\ i <> k.
Proof.
  unfold drop_key. rewrite filter_In. cbn [fst]. destruct (str_eqb_spec k i); cbn; intuition congruence.
Qed.
Lemma in_set {A} k (x : A) s i t : In (i, t) (set_key k x s) <-> (i = k /\ t = x) \/ (In (i, t) s /\ i <> k).
Proof.
  unfold set_key. cbn [In]. rewrite in_drop. intuition congruence.
Qed.
Lemma nodup_drop {A} k (s : list (str * A)) : NoDup (map fst s) -> NoDup (map fst (drop_key k s)).
Proof.
  induction s as [|[i t] s IH]; cbn; auto. intros N. inversion N; subst.
  destruct (negb (str_eqb k i)); cbn; auto. constructor; auto.
  intros I. apply in_map_iff in I as ([i' t'] & Q & I). cbn in Q. subst.
  apply in_drop in I as [I _]. apply H1. apply in_map_iff. exists (i, t'). auto.
Qed.
Lemma nodup_set {A} k (x : A) s : NoDup (map fst s) -> NoDup (map fst (set_key k x s)).
Proof.
  intros N. unfold set_key. cbn [map fst]. constructor; [|apply nodup_drop; auto].
  intros I. apply in_map_iff in I as ([i' t'] & Q & I). cbn in Q. subst. apply in_drop in I as [_ I]. auto.
Qed.

(* The store stays a dictionary, whatever happens. *)
Theorem store_is_dictionary :
  forall v now e s, dictionary s -> dictionary (snd (happens v now e s)).
Proof.
  unfold dictionary. intros v now e s D. destruct e as [r unused|id u|id]; cbn [happens].
  - destruct (handle v now unused r s) as [a s'] eqn:H. cbn [snd]. revert H. unfold handle.
    destruct r as [[|c id]|[|c id] [b|]|[|c id] [b|]|[|c id]];
      repeat match goal with |- context [match ?x with _ => _ end] => destruct x eqn:?E end;
      intros Q; injection Q as <- <-; auto using nodup_set, nodup_drop. constructor.
  - destruct (lookup id s); cbn [snd]; auto using nodup_set.
  - destruct (lookup id s); cbn [snd]; auto using nodup_set.
Qed.
Print Assumptions store_is_dictionary.
Example store_is_dictionary_case :
  let t := Ticket (JStr (lit "a")) (JInt 1) (JList []) (JInt 1) (JInt 1) 2 1 (JStr []) (JStr []) JNull
                  (JBool false) (JBool false) false (Usage 0 0 0) in
  dictionary [(lit "a", t); (lit "b", t)]
  /\ map fst (snd (happens ex_env 0 (Request (Put (lit "x") (Some (JObj (ex_fields (JInt 10))))) false)
                          [(lit "a", t); (lit "b", t)])) = [lit "01234567-89ab-cdef-xx"; lit "a"; lit "b"].
Proof. split; [repeat constructor; vm_compute; intuition discriminate|vm_compute; reflexivity]. Qed.

Lemma same_refl s : same s s.
Proof. intros i t. tauto. Qed.

(* C42: a description that is not valid is a client error and nothing changes;
   a valid one is stored under its uuid and nothing else changes. *)
Theorem put_ticket :
  forall v now unused id x s, dictionary s -> object x -> id <> [] ->
  let '(a, s') := handle v now unused (Put id (Some x)) s in
  (~ valid v x /\ status a = 400 /\ body a = None /\ s' = s)
  \/ (valid v x /\ status a = 200
      /\ exists d t uuid, x = JObj d /\ ticket_of v now d t /\ t_uuid t = JStr uuid
         /\ stored s' uuid t /\ same_but uuid s s').
Proof.
  intros v now unused id x s D O I. destruct id as [|c id]; [congruence|]. cbn [handle].
  pose proof (new_ticket_spec v now x O) as H. destruct (new_ticket v now x) as [t|e].
  - right. destruct H as [V (d & -> & T)]. split; auto. split; auto. exists d, t.
    assert (exists uuid, t_uuid t = JStr uuid) as [uuid U].
    { destruct T as (G & _). destruct V as (d' & Q & (y & G' & [s0 ->]) & _). injection Q as <-.
      exists s0. specialize (O d eq_refl). apply lookup_in in G, G'; auto. congruence. }
    exists uuid. split; auto. split; auto. split; auto. rewrite U. cbn [text]. split.
    + apply in_set. auto.
    + intros i t' NE. unfold stored. rewrite in_set. intuition congruence.
  - left. auto.
Qed.
Print Assumptions put_ticket.
Example put_ticket_case :
  let '(a, s') := handle ex_env 1000 false (Put (lit "x") (Some (JObj (ex_fields (JInt 10))))) [] in
  status a = 200 /\ map fst s' = [lit "01234567-89ab-cdef-xx"].
Proof. vm_compute. auto. Qed.

(* Not JSON, or no id: nothing changes. *)
Theorem put_not_json :
  forall v now unused id s, handle v now unused (Put id None) s = (Response 400 None, s).
Proof. intros v now unused [|c id] s; reflexivity. Qed.
Print Assumptions put_not_json.

(* The ticket is stored under the uuid of the description, not under the id of
   the URL: the ticket of another id can be replaced. *)
Theorem put_uses_url_id_refuted :
  exists v now unused id x s s', handle v now unused (Put id (Some x)) s = (Response 200 None, s')
  /\ id <> [] /\ not_stored s' id.
Proof.
  exists ex_env, 0, false, (lit "a"), (JObj (ex_fields (JInt 10))), []. eexists.
  split; [vm_compute; reflexivity|]. split; [discriminate|].
  intros t I. vm_compute in I. intuition discriminate.
Qed.
Print Assumptions put_uses_url_id_refuted.

(* ---- C52 ---- *)

Lemma new_ticket_uuid v now x t : new_ticket v now x = inl t ->
  exists d u, x = JObj d /\ lookup (lit "uuid") d = Some (JStr u) /\ t_uuid t = JStr u.
Proof.
  unfold new_ticket. destruct x as [| | | | | |d]; try discriminate. intros E. exists d.
  destruct (required d (lit "uuid") Tstr) as [j|] eqn:R; [|discriminate].
  assert (t_uuid t = j) as ->.
  { repeat match type of E with context [match ?x with _ => _ end] => destruct x; try discriminate end;
    injection E as <-; reflexivity. }
  unfold required, validate in R. destruct (lookup (lit "uuid") d) as [y|]; [|discriminate].
  destruct y; cbn in R; try discriminate. injection R as <-. eauto.
Qed.

(* Which ticket a request is about. *)
Definition about (r : request) (id : str) : Prop :=
  match r with
  | Get i | Patch i _ | Delete i => i = id
  | Put _ (Some (JObj d)) => lookup (lit "uuid") d = Some (JStr id)
  | _ => False
  end.
(* Other tickets are not touched, unless all are removed. *)
Theorem requests_isolated :
  forall v now unused r s a s' id t,
  handle v now unused r s = (a, s') -> r <> Delete [] -> ~ about r id ->
  (stored s' id t <-> stored s id t).
Proof.
  intros v now unused r s a s' id t H ND NA. unfold stored. revert H. unfold handle.
  assert (forall k (x : ticket), k <> id -> (In (id, t) (set_key k x s) <-> In (id, t) s)) as SK.
  { intros k x NE. rewrite in_set. intuition congruence. }
  assert (forall k : str, k <> id -> (In (id, t) (drop_key k s) <-> In (id, t) s)) as DK.
  { intros k NE. rewrite in_drop. intuition congruence. }
  destruct r as [[|c i]|[|c i] [b|]|[|c i] [b|]|[|c i]]; cbn [about] in NA; try congruence;
    repeat match goal with |- context [match ?x with _ => _ end] => destruct x eqn:?E end;
    intros Q; injection Q as <- <-; try tauto; try (apply SK; auto); try (apply DK; auto).
  destruct (new_ticket_uuid _ _ _ _ E) as (d & u & -> & L & U). rewrite U. cbn [text].
  intros <-. auto.
Qed.
Print Assumptions requests_isolated.
Example requests_isolated_case : ~ about (Delete (lit "a")) (lit "b") /\ Delete (lit "a") <> Delete [].
Proof. cbn. split; discriminate. Qed.

(* A request that fails changes nothing, but a removal that times out leaves the
   ticket canceled. *)
Theorem failed_request_changes_nothing :
  forall v now unused r s a s',
  handle v now unused r s = (a, s') -> 400 <= status a -> s' = s \/ (status a = 409 /\ exists id, r = Delete id).
Proof.
  intros v now unused r s a s' H ST. revert H. unfold handle.
  destruct r as [[|c i]|[|c i] [b|]|[|c i] [b|]|[|c i]];
    repeat match goal with |- context [match ?x with _ => _ end] => destruct x eqn:?E end;
    intros Q; injection Q as <- <-; cbn [status] in *; try lia; auto; right; eauto.
Qed.
Print Assumptions failed_request_changes_nothing.

Lemma validate_timeout_code p c : validate_timeout p = inr c -> c = 400 \/ (c = 500 /\ forall d, p <> JObj d).
Proof.
  unfold validate_timeout. destruct p; intros E; try (right; split; [congruence|discriminate]).
  left. repeat match type of E with context [match ?x with _ => _ end] => destruct x end; congruence.
Qed.

(* Status codes: only these; 500 only for a patch which is JSON but no object. *)
Theorem control_status_codes :
  forall v now unused r s, In (status (fst (handle v now unused r s))) [200; 204; 400; 404; 409; 500]
  /\ (status (fst (handle v now unused r s)) = 500 ->
      exists id x, r = Patch id (Some x) /\ forall d, x <> JObj d).
Proof.
  intros v now unused r s. unfold handle.
  destruct r as [[|c i]|[|c i] [b|]|[|c i] [b|]|[|c i]];
    repeat match goal with |- context [match ?x with _ => _ end] => destruct x eqn:?E end;
    cbn [fst status In]; try (split; [auto 10|intros X; discriminate X]).
  apply validate_timeout_code in E as [->|[-> E]]; (split; [auto 10|]); intros X; [discriminate X|].
  eexists _, _. split; [reflexivity|]. auto.
Qed.
Print Assumptions control_status_codes.
Theorem patch_not_object_refuted :
  exists v now unused r s, status (fst (handle v now unused r s)) = 500.
Proof. exists ex_env, 0, false, (Patch (lit "a") (Some (JList []))), []. reflexivity. Qed.
Print Assumptions patch_not_object_refuted.

(* GET shows the ticket. *)
Theorem get_ticket :
  forall v now unused id t s, dictionary s -> id <> [] ->
  (not_stored s id -> handle v now unused (Get id) s = (Response 404 None, s))
  /\ (stored s id t ->
      exists d, handle v now unused (Get id) s = (Response 200 (Some (JObj d)), s)
      /\ given d "uuid" (t_uuid t) /\ given d "size" (t_size t) /\ given d "ops" (t_ops t)
      /\ given d "timeout" (t_timeout t) /\ given d "inactivity_timeout" (t_inactivity t)
      /\ given d "sparse" (t_sparse t) /\ given d "dirty" (t_dirty t)
      /\ given d "expires" (JInt (t_expires t)) /\ given d "canceled" (JBool (t_canceled t))
      /\ given d "connections" (JInt (Z.of_nat (u_connections (t_usage t))))
      /\ (exists b, given d "active" (JBool b) /\ (b = true <-> (0 < u_ongoing (t_usage t))%nat))
      /\ (exists n, given d "idle_time" (JInt n)
          /\ n = if Nat.ltb 0 (u_ongoing (t_usage t)) then 0 else now - t_access t)
      /\ (forall s0, t_filename t = JStr s0 -> s0 <> [] -> given d "filename" (JStr s0))
      /\ (forall s0, t_transfer_id t = JStr s0 -> s0 <> [] -> given d "transfer_id" (JStr s0))
      /\ (forall l, t_ops t = JList l -> (List.length l <= 1)%nat ->
            given d "transferred" (JInt (u_transferred (t_usage t))))
      /\ NoDup (map fst d)).
Proof.
  intros v now unused id t s D I. destruct id as [|c id]; [congruence|]. cbn [handle]. split.
  - intros NS. destruct (lookup (c :: id) s) eqn:L; auto. apply lookup_in in L; auto. exfalso. eapply NS; eauto.
  - intros S. apply lookup_in in S; auto. rewrite S. unfold info. eexists. split; [reflexivity|].
    unfold given. repeat (split; [solve [cbn [In app]; auto 20]|]).
    split.
    { exists (match u_ongoing (t_usage t) with O => false | _ => true end). split; [cbn [In app]; auto|]. destruct (u_ongoing (t_usage t)); split; intros; try discriminate; try lia; auto. }
    split.
    { exists (if match u_ongoing (t_usage t) with O => false | _ => true end then 0 else now - t_access t).
      split; [cbn [In app]; auto 10|]. destruct (u_ongoing (t_usage t)); auto. }
    split.
    { intros s0 E NE. apply in_or_app. right. apply in_or_app. right. apply in_or_app. left.
      rewrite E. cbn [is_true]. destruct s0; [congruence|]. left. auto. }
    split.
    { intros s0 E NE. apply in_or_app. right. apply in_or_app. left.
      rewrite E. cbn [is_true]. destruct s0; [congruence|]. left. auto. }
    split.
    { intros l E NE. apply in_or_app. right. apply in_or_app. right. apply in_or_app. right.
      rewrite E. destruct l as [|x [|y l]]; cbn in NE; try lia; left; auto. }
    destruct (is_true (t_transfer_id t)), (is_true (t_filename t)), (t_ops t) as [| | | | |[|? [|? ?]]|];
      cbn [map fst app]; repeat constructor; vm_compute; intuition discriminate.
Qed.
Print Assumptions get_ticket.

(* Nothing else is shown: transfer_id and filename only when given, transferred
   only for a ticket that allows at most one operation. *)
Theorem get_ticket_no_more :
  forall v now unused id t s d, dictionary s -> id <> [] -> stored s id t ->
  handle v now unused (Get id) s = (Response 200 (Some (JObj d)), s) ->
  forall k x, In (k, x) d ->
    In k (map lit ["active"; "canceled"; "connections"; "expires"; "idle_time"; "inactivity_timeout"; "ops"; "size";
                   "sparse"; "dirty"; "timeout"; "url"; "uuid"]%string)
    \/ (k = lit "transfer_id" /\ x = t_transfer_id t /\ exists c r, x = JStr (c :: r))
    \/ (k = lit "filename" /\ x = t_filename t /\ exists c r, x = JStr (c :: r))
    \/ (k = lit "transferred" /\ forall a b l, t_ops t <> JList (a :: b :: l)).
Proof.
  intros v now unused id t s d D I S E k x K. destruct id as [|c id]; [congruence|]. cbn [handle] in E.
  apply lookup_in in S; auto. rewrite S in E. unfold info in E. injection E as E.
  rewrite <- E in K. clear E. apply (in_app_or (_ :: _ :: _ :: _ :: _ :: _ :: _ :: _ :: _ :: _ :: _ :: _ :: [_])) in K.
  destruct K as [K|K].
  { left. cbn [In] in K. repeat destruct K as [K|K]; try contradiction; injection K as <- _; cbn [map In]; auto 20. }
  right. apply in_app_or in K. destruct K as [K|K].
  { left. destruct (t_transfer_id t) as [| | | | [|a r]| |]; cbn [is_true] in K; cbn [In] in K; try contradiction.
    all: destruct K as [K|[]]; injection K as <- <-; eauto. }
  right. apply in_app_or in K. destruct K as [K|K].
  { left. destruct (t_filename t) as [| | | | [|a r]| |]; cbn [is_true] in K; cbn [In] in K; try contradiction.
    all: destruct K as [K|[]]; injection K as <- <-; eauto. }
  right. destruct (t_ops t) as [| | | | |[|? [|? ?]]|]; cbn [In] in K; try contradiction; destruct K as [K|[]]; injection K as <- _; split; auto; discriminate.
Qed.
Print Assumptions get_ticket_no_more.

Example get_ticket_case :
  let t := Ticket (JStr (lit "a")) (JInt 1) (JList [JStr (lit "read")]) (JInt 1) (JInt 1) 2 1 (JStr []) (JStr (lit "t"))
                  (JStr (lit "disk")) (JBool false) (JBool false) true (Usage 1 1 7) in
  dictionary [(lit "a", t)] /\ stored [(lit "a", t)] (lit "a") t.
Proof. cbv zeta. split; [repeat constructor; auto|left; auto]. Qed.

(* What was put is what is shown, until someone changes the ticket. *)
Theorem put_then_get :
  forall v now unused id d uuid s s1 now' unused',
  dictionary s -> NoDup (map fst d) -> id <> [] -> given d "uuid" (JStr uuid) -> uuid <> [] ->
  handle v now unused (Put id (Some (JObj d))) s = (Response 200 None, s1) ->
  exists d', handle v now' unused' (Get uuid) s1 = (Response 200 (Some (JObj d')), s1)
  /\ (forall k x, In k ["uuid"; "size"; "ops"; "timeout"; "inactivity_timeout"; "sparse"; "dirty"]%string ->
       given d k x -> given d' k x)
  /\ (forall k x, In k ["transfer_id"; "filename"]%string -> given d k (JStr x) -> x <> [] -> given d' k (JStr x))
  /\ given d' "canceled" (JBool false) /\ given d' "active" (JBool false).
Proof.
  intros v now unused id d uuid s s1 now' unused' D N I G U H.
  assert (object (JObj d)) as O. { intros d0 Q. injection Q as <-. auto. }
  pose proof (put_ticket v now unused id (JObj d) s D O I) as P. rewrite H in P.
  destruct P as [[_ [X _]]|(_ & _ & d0 & t & u & Q & T & TU & S & _)]; [discriminate X|].
  injection Q as <-.
  assert (forall k x y, given d k x -> given d k y -> x = y) as FUN.
  { intros k x y A B. apply lookup_in in A, B; auto. congruence. }
  destruct T as (T1 & T2 & T3 & T4 & T5 & T6 & T7 & T8 & T9 & T10 & _ & _ & T11 & T12).
  assert (u = uuid) as ->. { rewrite TU in T1. specialize (FUN _ _ _ T1 G). congruence. }
  assert (dictionary s1) as D1.
  { pose proof (store_is_dictionary v now (Request (Put id (Some (JObj d))) unused) s D) as X.
    cbn [happens] in X. rewrite H in X. auto. }
  destruct (get_ticket v now' unused' uuid t s1 D1 U) as [_ X].
  destruct (X S) as (d' & E & G1 & G2 & G3 & G4 & G5 & G6 & G7 & _ & G8 & _ & (b & G9 & B) & _ & G10 & G11 & _).
  exists d'. split; auto.
  assert (forall k f x, value_or d k f x -> forall y, given d k y -> x = y) as OPT.
  { intros k f x [A|[A _]] y Y; [eauto|]. exfalso. eapply A; eauto. }
  split; [|split; [|split]].
  - intros k x K. cbn [In] in K. destruct K as [<-|[<-|[<-|[<-|[<-|[<-|[<-|[]]]]]]]]; intros Y.
    + rewrite (FUN _ _ _ Y T1). auto.
    + rewrite (FUN _ _ _ Y T2). auto.
    + rewrite (FUN _ _ _ Y T3). auto.
    + rewrite (FUN _ _ _ Y T4). auto.
    + rewrite <- (OPT _ _ _ T6 _ Y). auto.
    + rewrite <- (OPT _ _ _ T9 _ Y). auto.
    + rewrite <- (OPT _ _ _ T10 _ Y). auto.
  - intros k x K. cbn [In] in K. destruct K as [<-|[<-|[]]]; intros Y NE.
    + apply G11; auto. destruct T7 as [A|[A _]]; [eauto|]. exfalso. eapply A; eauto.
    + apply G10; auto. eapply OPT; eauto.
  - rewrite T11 in G8. auto.
  - rewrite T12 in B. cbn in B. destruct b; auto. exfalso. assert (0 < 0)%nat by tauto. lia.
Qed.
Print Assumptions put_then_get.
Example put_then_get_case :
  exists s1, handle ex_env 1000 false (Put (lit "x") (Some (JObj (ex_fields (JInt 10))))) [] = (Response 200 None, s1)
  /\ status (fst (handle ex_env 2000 false (Get (lit "01234567-89ab-cdef-xx")) s1)) = 200.
Proof. eexists. split; vm_compute; reflexivity. Qed.

(* PATCH changes the expiration only. *)
Theorem patch_ticket :
  forall v now unused id n t s, dictionary s -> id <> [] -> 0 <= n -> stored s id t ->
  exists s' t', handle v now unused (Patch id (Some (JObj [(lit "timeout", JInt n)]))) s = (Response 200 None, s')
  /\ stored s' id t' /\ same_but id s s' /\ t_expires t' = now + n
  /\ t_uuid t' = t_uuid t /\ t_size t' = t_size t /\ t_ops t' = t_ops t /\ t_timeout t' = t_timeout t
  /\ t_url t' = t_url t /\ t_canceled t' = t_canceled t /\ t_usage t' = t_usage t /\ t_access t' = t_access t.
Proof.
  intros v now unused id n t s D I N S. destruct id as [|c id]; [congruence|]. cbn [handle].
  cbn [validate_timeout lookup]. rewrite str_eqb_refl. cbn [isinstance as_int].
  replace (n <? 0) with false by lia. unfold stored in S. apply lookup_in in S; auto. rewrite S.
  eexists _, _. split; [reflexivity|]. split; [apply in_set; auto|]. split; [|cbn; auto 10].
  intros i t' NE. unfold stored. rewrite in_set. intuition congruence.
Qed.
Print Assumptions patch_ticket.

(* DELETE: with a timeout configured, 204 means the ticket is gone; 409 that it
   is canceled and still used; nothing else. *)
Theorem delete_ticket :
  forall v now unused id s a s', dictionary s -> id <> [] -> e_remove_timeout v <> 0 ->
  handle v now unused (Delete id) s = (a, s') ->
  same_but id s s'
  /\ ((status a = 204 /\ not_stored s' id)
      \/ (status a = 409 /\ unused = false
          /\ exists t t', stored s id t /\ (0 < u_ongoing (t_usage t))%nat
             /\ stored s' id t' /\ t_canceled t' = true /\ t_uuid t' = t_uuid t /\ t_usage t' = t_usage t)).
Proof.
  intros v now unused id s a s' D I T. destruct id as [|c id]; [congruence|]. cbn [handle].
  assert (not_stored (drop_key (c :: id) s) (c :: id)) as ND.
  { intros t X. apply in_drop in X as [_ X]. auto. }
  assert (same_but (c :: id) s (drop_key (c :: id) s)) as SD.
  { intros i t NE. unfold stored. rewrite in_drop. intuition. }
  destruct (lookup (c :: id) s) as [t|] eqn:L.
  2:{ intros Q. injection Q as <- <-. split; [intros i t _; tauto|]. left. split; auto. intros t X.
      rewrite lookup_none in L. eapply L; eauto. }
  apply lookup_in in L; auto. destruct (u_ongoing (t_usage t)) as [|n] eqn:U.
  { intros Q. injection Q as <- <-. auto. }
  replace (e_remove_timeout v =? 0) with false by lia. destruct unused.
  { intros Q. injection Q as <- <-. auto. }
  intros Q. injection Q as <- <-. split.
  - intros i t' NE. unfold stored. rewrite in_set. intuition congruence.
  - right. split; auto. split; auto. eexists t, _. split; auto. split; [lia|]. split; [apply in_set; auto|]. auto.
Qed.
Print Assumptions delete_ticket.

(* Removing again answers 204 and changes nothing. *)
Theorem delete_idempotent :
  forall v now unused id s a s' now' unused',
  dictionary s -> id <> [] -> e_remove_timeout v <> 0 ->
  handle v now unused (Delete id) s = (a, s') -> status a = 204 ->
  handle v now' unused' (Delete id) s' = (Response 204 None, s').
Proof.
  intros v now unused id s a s' now' unused' D I T H ST.
  destruct (delete_ticket v now unused id s a s' D I T H) as [_ [[_ N]|[X _]]]; [|congruence].
  destruct id as [|c id]; [congruence|]. cbn [handle].
  destruct (lookup (c :: id) s') as [t|] eqn:L; auto.
  assert (dictionary s') as D'.
  { pose proof (store_is_dictionary v now (Request (Delete (c :: id)) unused) s D) as X.
    cbn [happens] in X. rewrite H in X. auto. }
  apply lookup_in in L; auto. exfalso. eapply N; eauto.
Qed.
Print Assumptions delete_idempotent.
Example delete_case :
  let t n := Ticket (JStr (lit "a")) (JInt 1) (JList []) (JInt 1) (JInt 1) 2 1 (JStr []) (JStr []) JNull
                    (JBool false) (JBool false) false (Usage n n 0) in
  handle ex_env 0 true (Delete (lit "a")) [(lit "a", t 1%nat); (lit "b", t 0%nat)] = (Response 204 None, [(lit "b", t 0%nat)])
  /\ status (fst (handle ex_env 0 false (Delete (lit "a")) [(lit "a", t 1%nat)])) = 409.
Proof. vm_compute. auto. Qed.

(* Without a timeout (remove_timeout = 0) 204 is answered although the ticket is
   still there and used. *)
Theorem delete_without_timeout_refuted :
  exists v now unused id s s' t, dictionary s /\ id <> []
  /\ handle v now unused (Delete id) s = (Response 204 None, s') /\ stored s' id t
  /\ (0 < u_ongoing (t_usage t))%nat.
Proof.
  set (t := Ticket (JStr (lit "a")) (JInt 1) (JList []) (JInt 1) (JInt 1) 2 1 (JStr []) (JStr []) JNull
                    (JBool false) (JBool false) false (Usage 1 1 0)).
  exists (Env (fun _ => true) (fun s => s) 60 0), 0, false, (lit "a"), [(lit "a", t)]. eexists _, _.
  split; [repeat constructor; auto|]. split; [discriminate|]. split; [vm_compute; reflexivity|].
  split; [left; reflexivity|]. cbn. lia.
Qed.
Print Assumptions delete_without_timeout_refuted.

(* DELETE without id removes all tickets, also those being used. *)
Theorem delete_all :
  forall v now unused s, handle v now unused (Delete []) s = (Response 204 None, []).
Proof. reflexivity. Qed.
Print Assumptions delete_all.

(* ---- Histories ---- *)
(* Requests at some time, in order, mixed with the activity of transfers. *)
Fixpoint history (v : env) (h : list (Z * event)) (s : store) : store :=
  match h with
  | [] => s
  | (now, e) :: r => history v r (snd (happens v now e s))
  end.

(* What a ticket allows does not change, and canceled tickets stay canceled. *)
Definition same_permission (t t' : ticket) : Prop :=
  t_uuid t' = t_uuid t /\ t_size t' = t_size t /\ t_ops t' = t_ops t /\ t_url t' = t_url t
  /\ t_timeout t' = t_timeout t /\ t_inactivity t' = t_inactivity t
  /\ t_transfer_id t' = t_transfer_id t /\ t_filename t' = t_filename t
  /\ t_sparse t' = t_sparse t /\ t_dirty t' = t_dirty t
  /\ (t_canceled t = true -> t_canceled t' = true).
Lemma same_permission_refl t : same_permission t t.
Proof. unfold same_permission. auto 20. Qed.
Lemma same_permission_trans t1 t2 t3 : same_permission t1 t2 -> same_permission t2 t3 -> same_permission t1 t3.
Proof.
  unfold same_permission. intros (a1&a2&a3&a4&a5&a6&a7&a8&a9&a10&a11) (b1&b2&b3&b4&b5&b6&b7&b8&b9&b10&b11).
  repeat split; try congruence. auto.
Qed.

(* Events that may replace or remove the ticket. *)
Definition replaces (e : event) (id : str) : Prop :=
  match e with
  | Request (Put u b) _ => about (Put u b) id
  | Request (Delete i) _ => i = id \/ i = []
  | _ => False
  end.

Lemma happens_keeps v now e s id t : dictionary s -> stored s id t -> ~ replaces e id ->
  exists t', stored (snd (happens v now e s)) id t' /\ same_permission t t'.
Proof.
  intros D S R. unfold stored in *.
  assert (forall i t0 t1, lookup i s = Some t0 -> same_permission t0 t1 ->
            exists t', In (id, t') (set_key i t1 s) /\ same_permission t t') as SET.
  { intros i t0 t1 L P. destruct (list_eq_dec Z.eq_dec i id) as [->|NE].
    - apply lookup_in in S; auto. assert (t0 = t) as -> by congruence. exists t1. split; auto. apply in_set. auto.
    - exists t. split; [|apply same_permission_refl]. apply in_set. auto. }
  assert (exists t', In (id, t') s /\ same_permission t t') as KEEP.
  { exists t. split; auto. apply same_permission_refl. }
  destruct e as [r unused|i u|i]; cbn [happens].
  - destruct (handle v now unused r s) as [a s'] eqn:H. cbn [snd].
    destruct r as [i|i b|i b|i].
    + assert (s' = s) as ->; auto. revert H. unfold handle. destruct i; [congruence|].
      destruct (lookup (z :: i) s); congruence.
    + exists t. split; [|apply same_permission_refl].
      apply (requests_isolated v now unused (Put i b) s a s' id t H); auto. discriminate.
    + revert H. unfold handle. destruct i as [|c i]; [intros Q; injection Q as _ <-; auto|].
      destruct b as [b|]; [|intros Q; injection Q as _ <-; auto].
      destruct (validate_timeout b); [|intros Q; injection Q as _ <-; auto].
      destruct (lookup (c :: i) s) eqn:L; intros Q; injection Q as _ <-; auto.
      eapply SET; eauto. unfold same_permission. cbn. auto 20.
    + exists t. split; [|apply same_permission_refl].
      apply (requests_isolated v now unused (Delete i) s a s' id t H); auto; cbn in *.
      * intros Q. injection Q as ->. auto.
      * tauto.
  - destruct (lookup i s) eqn:L; cbn [snd]; auto. eapply SET; eauto. unfold same_permission. cbn. auto 20.
  - destruct (lookup i s) eqn:L; cbn [snd]; auto. eapply SET; eauto. unfold same_permission. cbn. auto 20.
Qed.

(* C52: a ticket that is neither replaced nor removed stays what it is,
   whatever else happens in any order. *)
Theorem ticket_persists :
  forall v h s id t, dictionary s -> stored s id t -> (forall now e, In (now, e) h -> ~ replaces e id) ->
  exists t', stored (history v h s) id t' /\ same_permission t t'.
Proof.
  intros v h. induction h as [|[now e] h IH]; intros s id t D S R; cbn [history].
  - exists t. split; auto. apply same_permission_refl.
  - destruct (happens_keeps v now e s id t D S) as (t1 & S1 & P1).
    { apply (R now). left. auto. }
    destruct (IH (snd (happens v now e s)) id t1) as (t2 & S2 & P2); auto.
    + apply store_is_dictionary. auto.
    + intros n e' I. apply (R n). right. auto.
    + exists t2. split; auto. eapply same_permission_trans; eauto.
Qed.
Print Assumptions ticket_persists.
Example ticket_persists_case :
  let t := Ticket (JStr (lit "a")) (JInt 1) (JList []) (JInt 1) (JInt 1) 2 1 (JStr []) (JStr []) JNull
                  (JBool false) (JBool false) true (Usage 1 1 0) in
  let h := [(5, Touch (lit "a")); (6, Use (lit "a") (Usage 0 0 9)); (7, Request (Delete (lit "b")) true);
            (8, Request (Patch (lit "a") (Some (JObj [(lit "timeout", JInt 4)]))) true)] in
  (forall now e, In (now, e) h -> ~ replaces e (lit "a"))
  /\ map (fun p => t_expires (snd p)) (history ex_env h [(lit "a", t); (lit "b", t)]) = [12].
Proof.
  cbv zeta. split; [|vm_compute; reflexivity].
  intros now e I. cbn [In] in I. intuition; subst; try (injection H as <- <-); cbn in *; try tauto.
  all: match goal with H : (_, _) = (_, _) |- _ => injection H as <- <-; cbn in *; intuition discriminate end.
Qed.

(* An access gives the ticket its full time again, and changes no other
   ticket. *)
Theorem touch_extends :
  forall v now id t s, dictionary s -> stored s id t ->
  let s' := snd (happens v now (Touch id) s) in
  (exists t', stored s' id t' /\ same_permission t t' /\ t_expires t' = now + as_int (t_timeout t) /\ t_access t' = now /\
     t_canceled t' = t_canceled t /\ t_usage t' = t_usage t) /\
  (forall other x, other <> id -> (stored s' other x <-> stored s other x)).
Proof.
  intros v now id t s D S. cbv zeta. cbn [happens snd]. pose proof S as S0. apply lookup_in in S; auto. rewrite S.
  split.
  - eexists. split; [left; reflexivity|]. split; [|auto]. unfold same_permission. cbn. auto 12.
  - intros other x N. unfold stored, set_key. cbn [In]. split.
    + intros [E|I]; [congruence|]. unfold drop_key in I. apply filter_In in I. tauto.
    + intros I. right. unfold drop_key. apply filter_In. split; auto. cbn [fst]. unfold str_eqb.
      destruct (list_eq_dec Z.eq_dec id other); [congruence|auto].
Qed.
Print Assumptions touch_extends.
Example touch_case :
  let t := Ticket (JStr (lit "a")) (JInt 1) (JList [JStr (lit "read")]) (JInt 300) (JInt 1) 320 20 (JStr []) (JStr (lit "t"))
                  (JStr (lit "disk")) (JBool false) (JBool false) true (Usage 1 1 7) in
  dictionary [(lit "a", t)] /\ stored [(lit "a", t)] (lit "a") t /\
  map (fun p => t_expires (snd p)) (snd (happens ex_env 100 (Touch (lit "a")) [(lit "a", t)])) = [400].
Proof. cbv zeta. split; [repeat constructor; auto|]. split; [left; auto|reflexivity]. Qed.
