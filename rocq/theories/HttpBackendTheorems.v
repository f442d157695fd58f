(* Theorems about the HTTP backend: C38, C41 and C54, C55. *)
From Coq Require Import ZArith List Bool Ascii String Lia.
From Verif Require Import BytesLib HeaderModel HeaderSpec HeaderProofs HttpModel OpsModel OpsTheorems
  ImagesModel ImagesSpec ImagesProofs ImagesTheorems ExtentsModel HttpBackendModel HttpBackendSpec
  HttpBackendProofs.
Import ListNotations.
Open Scope Z_scope.

(* ---- C38 ---- *)

(* from_dict gives back the extent, for any object having the members of
   to_dict, in any order, also with members added by a later version. *)
Lemma lookup_in {A} (d : list (str * A)) k v :
  NoDup (map fst d) -> In (k, v) d -> lookup d k = Some v.
Proof.
  induction d as [|[k' v'] d IH]; intros N I; [destruct I|]. cbn [lookup map fst] in *.
  inversion_clear N as [|? ? N1 N2]. destruct I as [[= -> ->]|I].
  - replace (str_eqb k k) with true; auto. symmetry. apply HttpProofs.str_eqb_eq. auto.
  - destruct (str_eqb k' k) eqn:E; auto. apply HttpProofs.str_eqb_eq in E. subst k'.
    exfalso. apply N1. apply (in_map fst) in I. exact I.
Qed.

Lemma has_member j l k v : has_members j l -> In (k, v) l -> item j k = inl v.
Proof.
  intros (d & -> & N & H) I. cbn [item]. rewrite (lookup_in d (lits k) v); auto.
Qed.

Lemma has_member_or j l k v x : has_members j l -> In (k, v) l -> item_or j k x = inl v.
Proof.
  intros (d & -> & N & H) I. cbn [item_or]. rewrite (lookup_in d (lits k) v); auto.
Qed.

Theorem from_dict_any_order :
  (forall j start length zero hole,
     has_members j [("start", JInt start); ("length", JInt length); ("zero", JBool zero);
                    ("hole", JBool hole)]%string ->
     exists x, from_dict false j = inl x /\ same_extent (ZeroExtent start length zero hole) x) /\
  (forall j start length dirty zero,
     has_members j [("start", JInt start); ("length", JInt length); ("dirty", JBool dirty);
                    ("zero", JBool zero)]%string ->
     exists x, from_dict true j = inl x /\ same_extent (DirtyExtent start length dirty zero) x).
Proof.
  split; intros j start length a b H; eexists; unfold from_dict.
  - rewrite (has_member j _ "start" _ H), (has_member j _ "length" _ H), (has_member j _ "zero" _ H),
      (has_member_or j _ "hole" _ JNull H) by (cbn; auto). cbn. split; reflexivity.
  - rewrite (has_member j _ "start" _ H), (has_member j _ "length" _ H), (has_member j _ "dirty" _ H),
      (has_member_or j _ "zero" _ (JBool false) H) by (cbn; auto). cbn. split; reflexivity.
Qed.
Print Assumptions from_dict_any_order.

Lemma to_dict_members e :
  match e with
  | ZeroExtent start length zero hole =>
      has_members (to_dict e) [("start", JInt start); ("length", JInt length); ("zero", JBool zero);
                               ("hole", JBool hole)]%string
  | DirtyExtent start length dirty zero =>
      has_members (to_dict e) [("start", JInt start); ("length", JInt length); ("dirty", JBool dirty);
                               ("zero", JBool zero)]%string
  end.
Proof.
  destruct e; eexists; (split; [reflexivity|]); (split;
    [cbn; repeat constructor; cbn; intuition discriminate|]);
    intros k v I; cbn in I; decompose [or] I; try tauto;
    match goal with X : (_, _) = (_, _) |- _ => injection X as <- <- end; cbn; auto.
Qed.

Definition is_dirty (e : image_extent) : bool :=
  match e with ZeroExtent _ _ _ _ => false | DirtyExtent _ _ _ _ => true end.

Theorem extent_round_trip :
  forall e, exists x, from_dict (is_dirty e) (to_dict e) = inl x /\ same_extent e x.
Proof.
  intros e. pose proof (to_dict_members e) as H.
  destruct e; apply from_dict_any_order in H; exact H.
Qed.
Print Assumptions extent_round_trip.

(* Objects from old servers: without "hole" (the field is then None), or
   without "zero" in a dirty extent, which is then treated as data. *)
Theorem old_server_extents :
  (forall d start length zero,
     has_members (JObj d) [("start", JInt start); ("length", JInt length); ("zero", JBool zero)]%string ->
     ~ In (lit "hole") (map fst d) ->
     from_dict false (JObj d) = inl (JExt (JInt start) (JInt length) (JBool zero) JNull)) /\
  (forall d start length dirty,
     has_members (JObj d) [("start", JInt start); ("length", JInt length); ("dirty", JBool dirty)]%string ->
     ~ In (lit "zero") (map fst d) ->
     exists x, from_dict true (JObj d) = inl x /\ same_extent (DirtyExtent start length dirty false) x).
Proof.
  assert (L : forall (d : list (str * json)) k, ~ In k (map fst d) -> lookup d k = None).
  { induction d as [|[k' v'] d IH]; intros k N; auto. cbn in *.
    destruct (str_eqb k' k) eqn:E; [apply HttpProofs.str_eqb_eq in E; tauto|]. apply IH. tauto. }
  split; intros d start length a H N; [|eexists]; unfold from_dict.
  - rewrite (has_member _ _ "start" _ H), (has_member _ _ "length" _ H), (has_member _ _ "zero" _ H)
      by (cbn; auto). cbn [cbind item_or]. rewrite (L d (lits "hole")) by auto. reflexivity.
  - rewrite (has_member _ _ "start" _ H), (has_member _ _ "length" _ H), (has_member _ _ "dirty" _ H)
      by (cbn; auto). cbn [cbind item_or]. rewrite (L d (lits "zero")) by auto. split; reflexivity.
Qed.
Print Assumptions old_server_extents.

Lemma map_exc_to_dict dirty l :
  Forall (fun e => is_dirty e = dirty) l ->
  exists xs, map_exc (from_dict dirty) (map to_dict l) = inl xs /\ Forall2 same_extent l xs.
Proof.
  induction 1 as [|e l E _ (xs & X & Y)]; cbn [map map_exc].
  - exists []. auto.
  - destruct (extent_round_trip e) as (x & P & Q). rewrite E in P. rewrite P, X. cbn. eauto.
Qed.

(* Without the extents feature the image is one extent with data, and the
   changed extents are not known: nothing is asked for then. *)
Theorem no_extents_feature :
  forall W (serve : W -> message -> option response * W) (s : hb W), h_can_extents s = false ->
  extents serve true s = (inr XUnsupported, s) /\
  (forall r s', extents serve false s = (inl r, s') -> exists n, h_size s' = Some n /\
     r = [JExt (JInt 0) (JInt n) (JBool false) (JBool false)]).
Proof.
  intros W serve s C. unfold extents. rewrite C. split; [reflexivity|].
  intros r s' E. cbn [negb] in E. destruct (size serve s) as [[n|e] s1] eqn:Z; cbn [cbind] in E; [|discriminate].
  injection E as <- <-. exists n. split; auto.
  apply size_eq in Z as (_ & _ & _ & _ & _ & _ & _ & Z). auto.
Qed.

Print Assumptions no_extents_feature.

(* What OPTIONS tells a client: every member is there exactly once with the
   value of the server. *)
Theorem options_members e a :
  let told := fun name => match options_json e a with
    | JObj l => filter (fun m => str_eqb (fst m) (lits name)) l | _ => [] end in
  told "max_readers"%string = match o_readers a with Some (r, _) => [(lits "max_readers", JInt r)] | None => [] end /\
  told "max_writers"%string = match o_readers a with Some (_, w) => [(lits "max_writers", JInt w)] | None => [] end /\
  told "features"%string = match o_features a with
    | Some l => [(lits "features", JList (map (fun f => JStr (lits f)) l))] | None => [] end /\
  told "unix_socket"%string = match o_socket a, se_local e with
    | true, Some p => [(lits "unix_socket", JStr p)] | _, _ => [] end.
Proof.
  cbv zeta. unfold options_json. destruct (o_socket a), (se_local e), (o_features a), (o_readers a) as [[r w]|]; cbn; auto.
Qed.
Print Assumptions options_members.

(* A server that answers the request for one byte with the size, and no
   feature known; readers and writers that differ. *)
Example no_extents_case :
  let serve := fun (w : unit) (m : message) => (None, w) in
  let s := HB 0 (Some 4096) None None false false false 0 0 tt [] in
  fst (extents serve false s) = inl [JExt (JInt 0) (JInt 4096) (JBool false) (JBool false)] /\
  fst (extents serve true s) = inr XUnsupported.
Proof. split; reflexivity. Qed.
Example options_members_case e : exists l,
  options_json e (Options [] (Some ["zero"%string]) false (Some (8, 1)) true) = JObj l /\
  In (lits "max_readers", JInt 8) l /\ In (lits "max_writers", JInt 1) l.
Proof. eexists. split; [reflexivity|]. cbn. auto. Qed.

(* Over the API: extents(context) of the HTTP backend gives the extents
   reported by the backend of the server, if it succeeds and the extents were
   not asked for before. *)
Theorem extents_over_http :
  forall id envs dirty s r s',
  (forall img l, se_ext (envs (iw_n (h_world s))) dirty img = Some l ->
     Forall (fun e => is_dirty e = dirty) l) ->
  h_can_extents s = true -> (if dirty : bool then h_dirty s else h_zero s) = None ->
  extents (imageio id envs) dirty s = (inl r, s') ->
  exists l, se_ext (envs (iw_n (h_world s))) dirty (iw_img (h_world s)) = Some l /\
    Forall2 same_extent l r.
Proof.
  intros id envs dirty s r s' K C N E. unfold extents in E. rewrite C in E. cbn [negb] in E.
  unfold cached_extents in E. rewrite N in E. unfold get_extents in E.
  destruct (request _ _ _) as [x s1] eqn:R. apply request_eq in R as (p & w & S & -> & ->).
  apply srv_extents in S as (_ & _ & S). destruct p as [p|]; [|discriminate].
  cbn [cbind] in E. destruct (p_status p =? 404); [discriminate|].
  destruct (Z.eqb_spec (p_status p) 200) as [PS|]; cbn [negb] in E; [|discriminate].
  destruct (S p eq_refl PS) as (l & L & J). rewrite J in E.
  destruct (map_exc_to_dict dirty l) as (xs & X & Y); [eauto|].
  rewrite X in E. injection E as <- <-. eauto.
Qed.
Print Assumptions extents_over_http.

(* ---- C41: what is sent to any server ---- *)

Lemma put_message_asks {W} (s : hb W) n body :
  0 <= h_pos s -> 0 < n ->
  asks (put_message n body s) (AskWrite (h_pos s) n body (negb (h_can_flush s))).
Proof.
  intros P N. unfold put_message.
  replace (AskWrite (h_pos s) n body (negb (h_can_flush s))) with
    (AskWrite (h_pos s) ((h_pos s + n - 1) - h_pos s + 1) body (negb (h_can_flush s)))
    by (f_equal; lia).
  constructor.
  - replace (h_pos s + n - 1 - h_pos s + 1) with n by lia. apply show_decimal. lia.
  - apply (cr_form (show (h_pos s)) (show (h_pos s + n - 1)) (lit "*")).
    + apply show_decimal. auto.
    + constructor. apply show_decimal. lia.
    + constructor.
    + intros l [= <-]. lia.
    + discriminate.
  - destruct (h_can_flush s); cbn; split; auto; try discriminate; tauto.
  - destruct (h_can_flush s); cbn; intros k v; [|tauto]. intros [[= <- <-]|[]]. auto.
Qed.

Lemma range_header_asks pos n : 0 <= pos -> 0 < n ->
  asks (MGet (Some (range_header pos n))) (AskRead pos n).
Proof.
  intros P N. replace (AskRead pos n) with (AskRead pos (pos + n - 1 - pos + 1)) by (f_equal; lia).
  constructor. apply (form_from_to (show pos) (show (pos + n - 1))); try (apply show_decimal; lia). lia.
Qed.

Lemma put_done_sent {W} (serve : W -> message -> option response * W) n body s r s' :
  put_done serve n body s r s' ->
  h_sent s' = h_sent s ++ [put_message n body s] /\
  (r = inl n /\ h_pos s' = h_pos s + n \/ (exists e, r = inr e) /\ h_pos s' = h_pos s).
Proof.
  intros (si & p & w & _ & [(-> & _ & ->)|(E & ->)]); cbn; auto.
Qed.

(* The bytes done, 0 if the call raises. *)
Definition advance (r : Z + cexc) : Z := match r with inl n => n | inr _ => 0 end.

(* readinto: at most one request for data, for exactly the bytes from the
   position to the end of the buffer or of the image; before it possibly a
   request to find the size. *)
Theorem readinto_request :
  forall W (serve : W -> message -> option response * W) o buf s r buf' s',
  0 <= h_pos s -> readinto serve o buf s = (r, buf', s') ->
  exists pre data, h_sent s' = h_sent s ++ pre ++ data /\ Forall about_size pre /\
    (data = [] \/ exists m sz, data = [m] /\ h_size s' = Some sz /\
       0 < Z.min (zlen buf) (sz - h_pos s) /\
       asks m (AskRead (h_pos s) (Z.min (zlen buf) (sz - h_pos s)))) /\
    h_pos s' = h_pos s + advance r /\
    (forall n, r = inl n -> exists sz, h_size s' = Some sz /\
       n = Z.max 0 (Z.min (zlen buf) (sz - h_pos s)) /\ (n = 0 <-> data = []) /\
       drop n buf' = drop n buf) /\
    zlen buf' = zlen buf.
Proof.
  intros W serve o buf s r buf' s' P E. apply readinto_eq in E as (s1 & rs & SZ & E).
  apply size_eq in SZ as (HP & _ & _ & _ & _ & _ & (pre & S & F) & HS).
  exists pre. destruct rs as [sz|e].
  - specialize (HS _ eq_refl). cbn zeta in E. destruct E as [(N & -> & -> & ->)|(N & p & w & ri & d &
      _ & -> & D & _ & E)].
    + exists []. rewrite app_nil_r. split; auto. split; auto. split; auto.
      split; [cbn; lia|]. split; auto. intros n [= <-]. exists sz. split; auto. split; [lia|].
      tauto.
    + exists [MGet (Some (range_header (h_pos s) (Z.min (zlen buf) (sz - h_pos s))))].
      pose proof (zlen_nonneg d) as ZD.
      assert (ZB : zlen (d ++ drop (zlen d) buf) = zlen buf).
      { rewrite zlen_app, zlen_drop. lia. }
      destruct E as [(-> & DE & ->)|((e & ->) & ->)]; cbn [h_sent h_pos h_size set_pos set_net upd advance].
      * rewrite S, <- app_assoc. split; auto. split; auto.
        split; [right; eexists; exists sz; split; [reflexivity|]; split; auto; split; auto;
                apply range_header_asks; auto|].
        split; [lia|]. split; auto. intros n [= <-]. exists sz. split; auto. split; [lia|].
        split; [split; [lia|discriminate]|].
        rewrite drop_app, DE, Z.sub_diag, (drop_nonpos 0), drop_all by lia. reflexivity.
      * rewrite S, <- app_assoc. split; auto. split; auto.
        split; [right; eexists; exists sz; split; [reflexivity|]; split; auto; split; auto;
                apply range_header_asks; auto|].
        split; [lia|]. split; auto. discriminate.
  - destruct E as (-> & -> & ->). exists []. rewrite app_nil_r. split; auto. split; auto.
    split; auto. split; [cbn; lia|]. split; auto. discriminate.
Qed.
Print Assumptions readinto_request.

(* write: one request, for the bytes of the buffer at the position.  (Part of
   the body may be missing if the connection breaks.) *)
Theorem write_request :
  forall W (serve : W -> message -> option response * W) o buf s r s',
  0 <= h_pos s -> buf <> [] -> write serve o buf s = (r, s') ->
  exists m body, h_sent s' = h_sent s ++ [m] /\
    asks m (AskWrite (h_pos s) (zlen buf) body (negb (h_can_flush s))) /\
    prefix body buf /\ ((forall i, n_send o i = SendOk) -> body = buf) /\
    h_pos s' = h_pos s + advance r /\ (forall n, r = inl n -> n = zlen buf).
Proof.
  intros W serve o buf s r s' P N E.
  assert (OK : exists body, prefix body buf /\ put_done serve (zlen buf) body s r s' /\
                 ((forall i, n_send o i = SendOk) -> body = buf)).
  { pose proof E as E'. apply write_done in E' as (body & B & D).
    destruct (n_send o (h_si s)) eqn:S.
    - unfold write, send in E. rewrite S in E. cbn [app] in E.
      exists buf. split; [exists []; rewrite app_nil_r; auto|]. split; auto.
      eapply put_finish_done; eauto.
    - exists body. split; auto. split; auto. intros H. rewrite H in S. discriminate.
    - exists body. split; auto. split; auto. intros H. rewrite H in S. discriminate. }
  destruct OK as (body & B & D & O). apply put_done_sent in D as (S & D).
  exists (put_message (zlen buf) body s), body. split; auto.
  split; [apply put_message_asks; auto; apply zlen_pos; auto|]. split; auto. split; auto.
  destruct D as [(-> & D)|((e & ->) & D)]; cbn [advance]; rewrite D.
  - split; auto. intros n [= <-]; auto.
  - split; [lia|discriminate].
Qed.
Print Assumptions write_request.

(* zero: one request to zero the bytes at the position, or, if the server
   cannot, one request to write zeros there. *)
Theorem zero_request :
  forall W (serve : W -> message -> option response * W) o n s r s',
  0 <= h_pos s -> 0 < n -> zero serve o n s = (r, s') ->
  exists m, h_sent s' = h_sent s ++ [m] /\
    (if h_can_zero s then asks m (AskZero (h_pos s) n (negb (h_can_flush s)))
     else exists k, 0 <= k <= n /\ (forall x, r = inl x -> k = n) /\
       asks m (AskWrite (h_pos s) n (repeat x00 (Z.to_nat k)) (negb (h_can_flush s)))) /\
    h_pos s' = h_pos s + advance r /\ (forall x, r = inl x -> x = n).
Proof.
  intros W serve o n s r s' P N E. unfold zero in E. destruct (h_can_zero s); cbn [negb] in E.
  - destruct (patch_request _ _ _) as [x s1] eqn:R. apply patch_request_eq in R as (p & w & _ & -> & R).
    eexists. split; [|split].
    + destruct x; injection E as <- <-; reflexivity.
    + constructor. intros k v. cbn. split.
      * intros H. decompose [or] H; try tauto;
          match goal with X : (_, _) = (_, _) |- _ => injection X as <- <- end; auto 10.
      * intros H. decompose [or and] H; subst; auto 10.
    + destruct x as [[]|e]; injection E as <- <-; cbn [advance h_pos set_pos upd].
      * split; auto. intros x [= <-]; auto.
      * split; [lia|discriminate].
  - apply emulate_zero_done in E as (k & K & D & F); [|lia]. apply put_done_sent in D as (S & D).
    exists (put_message n (zeros k) s). split; auto. split.
    + exists k. split; auto. split; auto. apply put_message_asks; auto.
    + destruct D as [(-> & D)|((e & ->) & D)]; cbn [advance]; rewrite D.
      * split; auto. intros x [= <-]; auto.
      * split; [lia|discriminate].
Qed.
Print Assumptions zero_request.

(* flush: one request, or none if every write request asks for a flush. *)
Theorem flush_request :
  forall W (serve : W -> message -> option response * W) (s : hb W) r s',
  flush serve s = (r, s') ->
  h_pos s' = h_pos s /\
  if h_can_flush s then exists m, h_sent s' = h_sent s ++ [m] /\ asks m AskFlush
  else s' = s.
Proof.
  intros W serve s r s' E. unfold flush in E. destruct (h_can_flush s).
  - apply patch_request_eq in E as (p & w & _ & -> & _). split; auto. eexists. split; [reflexivity|].
    constructor.
  - injection E as <- <-. auto.
Qed.
Print Assumptions flush_request.

Theorem read_from_request :
  forall W (serve : W -> message -> option response * W) o src length buflen s r left s',
  0 <= h_pos s -> 0 < length -> read_from serve o src length buflen s = (r, left, s') ->
  exists m body t, h_sent s' = h_sent s ++ [m] /\
    asks m (AskWrite (h_pos s) length body (negb (h_can_flush s))) /\
    prefix body (take t src) /\ t <= length /\ left = drop t src /\
    ((forall i, n_send o i = SendOk) -> forall n, r = inl n -> body = take length src /\ t = length) /\
    h_pos s' = h_pos s + advance r /\ (forall n, r = inl n -> n = length).
Proof.
  intros W serve o src length buflen s r left s' P L E.
  apply read_from_done in E as (body & t & k & -> & -> & K & ZB & T & D & OK).
  apply put_done_sent in D as (S & D).
  exists (put_message length (take k src) s), (take k src), t. split; auto.
  split; [apply put_message_asks; auto|].
  split; [exists (drop k (take t src)); rewrite <- (take_drop k (take t src)) at 1; f_equal;
          rewrite take_take; f_equal; lia|].
  split; [lia|]. split; auto.
  split; [intros H n R; destruct (OK H n R) as [-> ->]; auto|].
  destruct D as [(-> & D)|((e & ->) & D)]; cbn [advance]; rewrite D.
  - split; auto. intros n [= <-]; auto.
  - split; [lia|discriminate].
Qed.
Print Assumptions read_from_request.

Theorem write_to_request :
  forall W (serve : W -> message -> option response * W) o length buflen s r out s',
  0 <= h_pos s -> 0 < length -> write_to serve o length buflen s = (r, out, s') ->
  exists m, h_sent s' = h_sent s ++ [m] /\ asks m (AskRead (h_pos s) length) /\
    h_pos s' = h_pos s + advance r /\ (forall n, r = inl n -> n = length).
Proof.
  intros W serve o length buflen s r out s' P L E.
  apply write_to_eq in E as (p & w & ri & _ & E); [|lia].
  eexists. split; [|split; [apply range_header_asks; auto|]].
  - destruct E as [(_ & _ & ->)|(_ & ->)]; reflexivity.
  - destruct E as [(-> & _ & ->)|((e & ->) & ->)]; cbn [h_pos set_pos set_net upd advance].
    + split; auto. intros n [= <-]; auto.
    + split; [lia|discriminate].
Qed.
Print Assumptions write_to_request.

(* ---- C54: the backend and the imageio server together ---- *)

Lemma fresh_inv total (s : hb iworld) :
  zlen (iw_img (h_world s)) = total -> h_size s = None -> h_zero s = None -> Inv total s.
Proof. intros A B C. split; auto. rewrite B, C. split; discriminate. Qed.

(* Calls on a new backend of a server with a usable ticket do what they do on
   an array of bytes of the size of the image, whether they succeed or not. *)
Theorem http_backend_is_an_array :
  forall id total envs, (forall i, usable id total (envs i)) ->
  forall nets cs s rs s',
  zlen (iw_img (h_world s)) = total -> h_size s = None -> h_zero s = None ->
  run_calls (imageio id envs) nets 0 cs s = (rs, s') ->
  array_calls nets 0 cs (h_pos s) (iw_img (h_world s)) rs (h_pos s') (iw_img (h_world s')).
Proof.
  intros id total envs U nets cs s rs s' L N1 N2.
  assert (I : Inv total s) by (apply fresh_inv; auto). clear L N1 N2.
  revert s rs s' I. generalize O. induction cs as [|c cs IH]; intros k s rs s' I E; cbn in *.
  - injection E as <- <-. auto.
  - destruct (run_call _ _ _ _) as [r s1] eqn:C. destruct (run_calls _ _ _ _ _) as [rs1 s2] eqn:R.
    injection E as <- <-. eapply call_imageio in C as (J & _ & A); eauto.
Qed.
Print Assumptions http_backend_is_an_array.

Lemma nth_update {A} (l : list A) i j x :
  nth_error (update l i x) j =
  if Nat.eqb i j then match nth_error l i with Some _ => Some x | None => None end else nth_error l j.
Proof.
  revert i j. induction l as [|y l IH]; intros i j; destruct i, j; cbn; auto.
  destruct (Nat.eqb i j); auto.
Qed.

Lemma map_update {A B} (f : A -> B) (l : list A) i x : map f (update l i x) = update (map f l) i (f x).
Proof. revert i. induction l as [|y l IH]; intros i; destruct i; cbn; auto. rewrite IH. auto. Qed.

Definition cached_ok (total : Z) (s : hb iworld) : Prop :=
  (forall n, h_size s = Some n -> n = total) /\ (forall l, h_zero s = Some l -> jend l = inl total).

(* The same for any number of clones used in turn: they have positions of
   their own and share the image. *)
Theorem clones_share_the_array :
  forall id total envs, (forall i, usable id total (envs i)) ->
  forall nets l s rs bs w,
  zlen (iw_img (h_world s)) = total -> h_size s = None -> h_zero s = None ->
  run_steps (imageio id envs) nets 0 l [s] (h_world s) = (rs, bs, w) ->
  array_steps nets 0 l [h_pos s] (iw_img (h_world s)) rs (map h_pos bs) (iw_img w).
Proof.
  intros id total envs U nets l s rs bs w L N1 N2.
  assert (C : Forall (cached_ok total) [s]).
  { constructor; auto. split; [rewrite N1|rewrite N2]; discriminate. }
  change [h_pos s] with (map h_pos [s]). revert C L. generalize (h_world s) as w0. clear N1 N2.
  generalize [s] as ss. clear s. generalize O.
  revert rs bs w. induction l as [|x l IH]; intros rs bs w k ss w0 C L E; cbn [run_steps array_steps] in *.
  - injection E as <- <- <-. auto.
  - destruct x as [i c|i]; rewrite nth_error_map; destruct (nth_error ss i) as [s|] eqn:NE; cbn [option_map].
    + destruct (run_call _ _ _ _) as [r s1] eqn:R.
      destruct (run_steps _ _ _ _ _ _) as [[rs1 bs1] w1] eqn:RS. injection E as <- <- <-.
      assert (CS : cached_ok total s).
      { rewrite Forall_forall in C. apply C. eapply nth_error_In; eauto. }
      eapply call_imageio in R as ((J1 & J2) & _ & A); [|exact U|split; [exact L|exact CS]].
      exists r, rs1, (h_pos s1), (iw_img (h_world s1)). split; auto. split; auto.
      rewrite <- map_update. eapply IH; eauto.
      rewrite Forall_forall. intros y Y. apply In_nth_error in Y as (j & Y).
      rewrite nth_update, NE in Y. destruct (Nat.eqb i j); [injection Y as <-; exact J2|].
      rewrite Forall_forall in C. apply C. eapply nth_error_In; eauto.
    + eapply IH; eauto.
    + change [0] with (map h_pos [clone s]). rewrite <- map_app. eapply IH; eauto.
      apply Forall_app. split; auto. constructor; auto.
      rewrite Forall_forall in C. apply nth_error_In in NE. apply (C _ NE).
    + eapply IH; eauto.
Qed.
Print Assumptions clones_share_the_array.

(* If calls succeed and the last one is flush, the server flushed its backend
   after every change. *)
Theorem flush_makes_calls_durable :
  forall id total envs, (forall i, usable id total (envs i)) ->
  forall nets cs s rs s',
  zlen (iw_img (h_world s)) = total -> h_size s = None -> h_zero s = None ->
  durable (iw_log (h_world s)) ->
  run_calls (imageio id envs) nets 0 (cs ++ [CFlush]) s = (rs, s') ->
  (forall r, In r rs -> exists n, o_result r = inl n) ->
  durable (iw_log (h_world s')).
Proof.
  intros id total envs U nets cs s rs s' L N1 N2 D E OK.
  assert (I : Inv total s) by (apply fresh_inv; auto). clear L N1 N2.
  assert (D' : h_can_flush s = false -> durable (iw_log (h_world s))) by auto. clear D.
  revert s rs s' I D' E OK. generalize O. induction cs as [|c cs IH]; intros k s rs s' I D E OK; cbn in E.
  - destruct (flush _ _) as [x s1] eqn:F. injection E as <- <-.
    assert (R : run_call (imageio id envs) (nets k) CFlush s =
              (Out (match x with inl _ => inl 0 | inr e => inr e end) [], s1))
      by (cbn; rewrite F; auto).
    eapply call_imageio in R as (_ & (_ & log & LG & R) & _); eauto.
    destruct (OK _ (or_introl eq_refl)) as (n & N). specialize (R n N). rewrite LG.
    destruct (h_can_flush s); [rewrite R by auto; apply durable_tail|].
    apply durable_app; auto.
  - destruct (run_call _ _ _ _) as [r s1] eqn:R. destruct (run_calls _ _ _ _ _) as [rs1 s2] eqn:RS.
    injection E as <- <-. eapply call_imageio in R as (J & (CF & log & LG & R) & _); eauto.
    eapply IH; eauto.
    + intros F. rewrite CF in F. rewrite LG. destruct (OK _ (or_introl eq_refl)) as (n & N).
      specialize (R n N). rewrite F in R. apply durable_app; auto.
    + intros y Y. apply OK. right. auto.
Qed.
Print Assumptions flush_makes_calls_durable.

(* And if the server can flush, this needs only the flush to succeed. *)
Theorem flush_is_enough :
  forall id envs s s',
  h_can_flush s = true -> flush (imageio id envs) s = (inl tt, s') -> durable (iw_log (h_world s')).
Proof.
  intros id envs s s' C E. unfold flush in E. rewrite C in E.
  apply patch_request_eq in E as (p & w & S & -> & [(_ & y & Y1 & Y2)|(e & E)]); [|discriminate].
  apply srv_flush in S as (_ & log & L & Q). cbn. rewrite L, (Q y Y1 Y2). apply durable_tail.
Qed.
Print Assumptions flush_is_enough.

(* ---- calls succeed if the server can do what it is asked ---- *)

Theorem write_over_http_succeeds :
  forall id total envs o buf s,
  id <> [] -> (forall i, willing id total (envs i)) -> (forall i, patient total (envs i)) ->
  zlen (iw_img (h_world s)) = total ->
  0 <= h_pos s -> buf <> [] -> h_pos s + zlen buf <= total -> (forall i, n_send o i = SendOk) ->
  exists s', write (imageio id envs) o buf s = (inl (zlen buf), s').
Proof.
  intros id total envs o buf s ID Wi Pa L P N T S.
  destruct (will_put id total envs ID Wi Pa (h_world s) (h_can_flush s) (zlen buf) (h_pos s) buf)
    as (p & w' & X & PS); auto; try lia. { apply zlen_pos; auto. }
  unfold write, send. rewrite S. cbn [app]. unfold put_finish, request.
  change (put_message (zlen buf) buf _) with
    (MPut (if h_can_flush s then [(lits "flush", lits "n")] else []) (show (zlen buf))
       (crange_text (h_pos s) (h_pos s + zlen buf - 1)) buf).
  cbn [set_net h_world]. rewrite X. rewrite PS. cbn. eauto.
Qed.
Print Assumptions write_over_http_succeeds.

Theorem zero_over_http_succeeds :
  forall id total envs o n s,
  id <> [] -> (forall i, willing id total (envs i)) -> (forall i, patient total (envs i)) ->
  zlen (iw_img (h_world s)) = total ->
  h_can_zero s = true -> 0 <= h_pos s -> 0 <= n -> h_pos s + n <= total ->
  exists s', zero (imageio id envs) o n s = (inl n, s').
Proof.
  intros id total envs o n s ID Wi Pa L C P N T.
  destruct (will_zero id total envs ID Wi Pa (h_world s) n (h_pos s) (negb (h_can_flush s)))
    as (p & w' & X & PS); auto.
  unfold zero. rewrite C. cbn [negb]. unfold patch_request, request.
  unfold zero_msg in X. rewrite X. cbn [cbind]. rewrite PS. cbn. eauto.
Qed.
Print Assumptions zero_over_http_succeeds.

Theorem flush_over_http_succeeds :
  forall id total envs s, id <> [] -> (forall i, willing id total (envs i)) ->
  exists s', flush (imageio id envs) s = (inl tt, s').
Proof.
  intros id total envs s ID Wi.
  destruct (will_flush id total envs ID Wi (h_world s)) as (p & w' & X & PS).
  unfold flush. destruct (h_can_flush s); [|eauto]. unfold patch_request, request.
  rewrite X. cbn [cbind]. rewrite PS. cbn. eauto.
Qed.
Print Assumptions flush_over_http_succeeds.

Theorem readinto_over_http_succeeds :
  forall id total envs o buf s,
  id <> [] -> (forall i, willing id total (envs i)) -> (forall i, patient total (envs i)) ->
  zlen (iw_img (h_world s)) = total -> h_size s = Some total ->
  0 <= h_pos s -> (forall i, n_read o i <> None) ->
  exists buf' s', readinto (imageio id envs) o buf s
    = (inl (Z.max 0 (Z.min (zlen buf) (total - h_pos s))), buf', s').
Proof.
  intros id total envs o buf s ID Wi Pa L HS P R. unfold readinto, size. rewrite HS.
  remember (Z.min (zlen buf) (total - h_pos s)) as n.
  destruct (Z.leb_spec n 0). { rewrite Z.max_l by lia. eauto. }
  destruct (will_get id total envs ID Wi Pa (h_world s) n (h_pos s)) as (p & w' & X & P1 & P2 & P3);
    auto; try lia.
  unfold get_range, request.
  change (range_header (h_pos s) n) with (range_text (h_pos s) (h_pos s + n - 1)).
  rewrite X. cbn [cbind]. rewrite P1, P2, !Z.eqb_refl. cbn [negb].
  match goal with |- context [read_all _ ?f ?l ?r ?g ?s] =>
    destruct (read_all_ok o R f l r g s) as (got & s1 & A) end; rewrite ?zlen_nil; try lia.
  rewrite A. rewrite Z.max_r by lia. eauto.
Qed.
Print Assumptions readinto_over_http_succeeds.

(* The end of a PUT request with the right number of bytes. *)
Lemma put_finish_ok id total envs n body (s : hb iworld) :
  id <> [] -> (forall i, willing id total (envs i)) -> (forall i, patient total (envs i)) ->
  zlen (iw_img (h_world s)) = total -> 0 <= h_pos s -> 0 < n -> h_pos s + n <= total -> zlen body = n ->
  exists s', put_finish (imageio id envs) n body s = (inl n, s').
Proof.
  intros ID Wi Pa L P N T B.
  destruct (will_put id total envs ID Wi Pa (h_world s) (h_can_flush s) n (h_pos s) body)
    as (p & w' & X & PS); auto.
  unfold put_finish, request.
  change (put_message n body s) with
    (MPut (if h_can_flush s then [(lits "flush", lits "n")] else []) (show n)
       (crange_text (h_pos s) (h_pos s + n - 1)) body).
  rewrite X, PS. cbn. eauto.
Qed.

Theorem read_from_over_http_succeeds :
  forall id total envs o src n buflen s,
  id <> [] -> (forall i, willing id total (envs i)) -> (forall i, patient total (envs i)) ->
  zlen (iw_img (h_world s)) = total -> 0 <= h_pos s -> 0 < n -> h_pos s + n <= total ->
  n <= zlen src -> 0 < buflen ->
  (forall i, exists c, n_src o i = Some c /\ 0 < c) -> (forall i, n_send o i = SendOk) ->
  exists left s', read_from (imageio id envs) o src n buflen s = (inl n, left, s').
Proof.
  intros id total envs o src n buflen s ID Wi Pa L P N T LS B R S. unfold read_from.
  destruct (read_from_loop_ok o (imageio id envs) R S (Datatypes.S (List.length src)) 0 buflen n n src [] s)
    as (left & sent & si & LL & ->); auto; try lia.
  destruct (put_finish_ok id total envs n sent (set_net s (h_ri s) si)) as (s' & ->); auto. eauto.
Qed.
Print Assumptions read_from_over_http_succeeds.

Theorem write_to_over_http_succeeds :
  forall id total envs o n buflen s,
  id <> [] -> (forall i, willing id total (envs i)) -> (forall i, patient total (envs i)) ->
  zlen (iw_img (h_world s)) = total -> 0 <= h_pos s -> 0 < n -> h_pos s + n <= total -> 0 < buflen ->
  (forall i, n_read o i <> None) -> (forall i, n_dst o i <> None) ->
  exists out s', write_to (imageio id envs) o n buflen s = (inl n, out, s').
Proof.
  intros id total envs o n buflen s ID Wi Pa L P N T B R D. unfold write_to.
  destruct (will_get id total envs ID Wi Pa (h_world s) n (h_pos s)) as (p & w' & X & P1 & P2 & P3); auto.
  unfold get_range, request.
  change (range_header (h_pos s) n) with (range_text (h_pos s) (h_pos s + n - 1)).
  rewrite X. cbn [cbind]. rewrite P1, P2, !Z.eqb_refl. cbn [negb].
  match goal with |- context [write_to_loop _ ?f ?i ?bl ?t ?r ?g ?s] =>
    destruct (write_to_loop_ok o R D f i bl t r g s) as (out & s1 & A) end; auto; try lia.
  rewrite A. eauto.
Qed.
Print Assumptions write_to_over_http_succeeds.

(* Zeroing with a server that cannot zero. *)
Theorem emulated_zero_succeeds :
  forall id total envs o n s,
  id <> [] -> (forall i, willing id total (envs i)) -> (forall i, patient total (envs i)) ->
  zlen (iw_img (h_world s)) = total -> h_can_zero s = false ->
  0 <= h_pos s -> 0 < n -> h_pos s + n <= total -> (forall i, n_send o i = SendOk) ->
  exists s', zero (imageio id envs) o n s = (inl n, s').
Proof.
  intros id total envs o n s ID Wi Pa L C P N T S. unfold zero. rewrite C. cbn [negb].
  unfold emulate_zero.
  destruct (zero_loop_ok o (imageio id envs) S (Datatypes.S (Z.to_nat (n / CHUNK))) n n [] s)
    as (sent & si & LL & ->); auto; try lia.
  destruct (put_finish_ok id total envs n sent (set_net s (h_ri s) si)) as (s' & ->); auto. eauto.
Qed.
Print Assumptions emulated_zero_succeeds.

(* The size is found by the extents or by a GET request without a range. *)
Theorem size_from_extents_succeeds :
  forall id total envs s l,
  id <> [] -> (forall i, willing id total (envs i)) -> zlen (iw_img (h_world s)) = total ->
  h_size s = None -> h_zero s = None -> h_can_extents s = true ->
  se_ext (envs (iw_n (h_world s))) false (iw_img (h_world s)) = Some l -> Forall (fun x => is_dirty x = false) l ->
  exists s', size (imageio id envs) s = (inl total, s').
Proof.
  intros id total envs s l ID Wi L HS HZ C X F. unfold size. rewrite HS, C. unfold cached_extents.
  rewrite HZ. unfold get_extents, request.
  destruct (Wi (iw_n (h_world s))) as ((GB & CC & _ & EE) & (bs & buf & OP) & RD & WR & RF & CN & LS & LM & RG & WG & WW & WF).
  unfold imageio, served, extents_get. cbn [ireq_of q_id q_query].
  destruct id as [|i0 id0]; [tauto|]. unfold enter. cbn [se_v se_ext se_lost i_auth i_open q_id].
  rewrite RD, OP, LS. cbn. rewrite X. cbn.
  destruct (map_exc_to_dict false l F) as (xs & M & _). rewrite M. cbn.
  pose proof (jend_extents _ _ _ _ M (EE _ _ L X)) as J. unfold jend in J. rewrite J. eauto.
Qed.
Print Assumptions size_from_extents_succeeds.

(* ---- C55: what a new backend believes the server can do ---- *)

Theorem connect_features :
  forall id envs s s', id <> lit "*" ->
  connect (imageio id envs) s = (inl tt, s') ->
  let may := se_may (envs (iw_n (h_world s))) in
  h_can_zero s' = may "write"%string /\ h_can_flush s' = may "write"%string /\
  h_can_extents s' = (may "write"%string || may "read"%string)%bool /\
  iw_img (h_world s') = iw_img (h_world s) /\ iw_log (h_world s') = iw_log (h_world s) /\
  h_pos s' = h_pos s.
Proof.
  intros id envs s s' ID E may. unfold connect in E.
  destruct (request _ _ _) as [x s1] eqn:R. apply request_eq in R as (p & w & S & -> & ->).
  unfold imageio, served, options in S. cbn [ireq_of q_id] in S.
  set (e := envs (iw_n (h_world s))) in *. injection S as SP <-.
  destruct p as [p|]; [|discriminate]. cbn [cbind] in E.
  destruct (se_lost e); [discriminate|]. destruct id as [|i0 id0]; [injection SP as <-; discriminate|].
  match type of SP with context [str_eqb ?a ?b] => destruct (str_eqb a b) eqn:ST end.
  { apply HttpProofs.str_eqb_eq in ST. destruct (ID ST). }
  unfold enter in SP. cbn [q_id] in SP.
  destruct (i_auth _ _ _); [|injection SP as <-; discriminate].
  destruct (i_open _) as [[]|bs buf]; try (injection SP as <-; discriminate).
  injection SP as <-. subst may. fold e. revert E.
  unfold caps_of, options_json. cbn [p_status p_json o_socket o_features o_readers].
  destruct (se_may e "write"), (se_may e "read"), (se_local e), (se_readers e) as [rd wr];
    cbn; intros E.
  all: injection E as <-; cbn; rewrite app_nil_r; auto 10.
Qed.
Print Assumptions connect_features.

(* A server that does not know OPTIONS, or sends no JSON, has no features; an
   error or a list of features that is not one is an error. *)
Theorem connect_to_old_server :
  forall W (serve : W -> message -> option response * W) s p w,
  serve (h_world s) MOptions = (Some p, w) ->
  p_status p = 405 \/ p_status p = 204 \/ p_status p = 200 /\ p_json p = None ->
  exists s', connect serve s = (inl tt, s') /\ h_can_extents s' = false /\ h_can_zero s' = false /\
    h_can_flush s' = false /\ h_pos s' = h_pos s /\ h_size s' = h_size s.
Proof.
  intros W serve s p w S H. unfold connect, request. rewrite S. cbn [cbind].
  assert (C : caps_of p = inl (false, false, false)).
  { unfold caps_of. destruct H as [->|[->|[-> ->]]]; reflexivity. }
  rewrite C. eexists. split; [reflexivity|]. auto.
Qed.
Print Assumptions connect_to_old_server.

(* ---- findings ---- *)

Definition ienv_ex : ienv :=
  IEnv (Some 4300) (fun _ _ => Some 10) (Backend 2 (repeat xee 4)) false false
    (fun _ => RAns (Some 4) None false)
    (WOracle (fun _ => Some 3) (fun _ => WOk 2) (fun _ => false) true) 30.
(* Extents of two kinds: the image is zero before its first byte that is not. *)
Fixpoint leading (img : list byte) : Z :=
  match img with x00 :: img => 1 + leading img | _ => 0 end.
Definition senv_ex : senv :=
  SEnv ienv_ex (fun d img =>
      if d then None
      else let z := leading img in
           Some ((if 0 <? z then [ZeroExtent 0 z true false] else [])
              ++ (if z <? zlen img then [ZeroExtent z (zlen img - z) false false] else [])))
    false (fun _ => true) (8, 1) None false.
Definition srv_ex := imageio (lit "id") (fun _ => senv_ex).
Definition world_ex : iworld := IW [x00; x00; x03; x04; x05; x06; x07; x08; x09; x0a] 0 [].
Definition back_ex : hb iworld := snd (connect srv_ex (new world_ex)).
Definition net_ex : net :=
  Net (fun _ => Some 3) (fun _ => SendOk) (fun _ => Some 5) (fun _ => Some 100).

(* An empty write, or copying no bytes, asks for an invalid range and raises,
   instead of doing nothing. *)
Theorem empty_calls_succeed_refuted :
  exists id total e (s : hb iworld) o,
  id <> [] /\ willing id total e /\ zlen (iw_img (h_world s)) = total /\ 0 <= h_pos s <= total /\
  (exists s', write (imageio id (fun _ => e)) o [] s = (inr (XHttp 400), s')) /\
  (exists s', write_to (imageio id (fun _ => e)) o 0 4 s = (inr (XHttp 416), [], s')) /\
  (exists s', read_from (imageio id (fun _ => e)) o [] 0 4 s = (inr (XHttp 400), [], s')) /\
  (exists s', zero (imageio id (fun _ => e)) o 0 (set_caps s true false true) = (inr (XHttp 400), s')).
Proof.
  exists (lit "id"), 10, senv_ex, back_ex, net_ex.
  split; [discriminate|].
  split.
  { split; [split; [|split; [|split]]|].
    - intros bs buf [= <- <-]. vm_compute. repeat split; discriminate.
    - split; reflexivity.
    - intros op n [= <-]. auto.
    - intros img l L [= <-]. unfold extents_end.
      assert (Z : 0 <= leading img <= zlen img).
      { clear L. induction img as [|b img IH]; [cbn; lia|].
        rewrite zlen_cons. destruct b; cbn [leading]; lia. }
      destruct (Z.ltb_spec 0 (leading img)), (Z.ltb_spec (leading img) (zlen img)); cbn; f_equal; lia.
    - split; [eexists _, _; reflexivity|]. do 5 (split; [reflexivity|]).
      split; [intros m [= <-]; vm_compute; discriminate|].
      split; [intros bs buf [= <- <-] i; exists 4; vm_compute; auto|].
      split; [intros i; exists 3; vm_compute; auto|].
      split; [intros i; exists 2; reflexivity|reflexivity]. }
  split; [reflexivity|]. split; [vm_compute; split; discriminate|].
  split; [eexists; vm_compute; reflexivity|]. split; [eexists; vm_compute; reflexivity|].
  split; eexists; vm_compute; reflexivity.
Qed.
Print Assumptions empty_calls_succeed_refuted.

(* Extents are asked for once: after a write they are those of the old
   image. *)
Theorem extents_follow_writes_refuted :
  exists id envs o buf (s s1 s2 s3 : hb iworld) l1 l2 l,
  extents (imageio id envs) false s = (inl l1, s1) /\
  write (imageio id envs) o buf s1 = (inl (zlen buf), s2) /\
  extents (imageio id envs) false s2 = (inl l2, s3) /\
  se_ext (envs (iw_n (h_world s2))) false (iw_img (h_world s2)) = Some l /\
  ~ Forall2 same_extent l l2 /\
  l = [ZeroExtent 0 1 true false; ZeroExtent 1 9 false false] /\
  l2 = [JExt (JInt 0) (JInt 2) (JBool true) (JBool false);
        JExt (JInt 2) (JInt 8) (JBool false) (JBool false)].
Proof.
  exists (lit "id"), (fun _ => senv_ex), net_ex, [x00; xff], back_ex.
  do 6 eexists.
  split; [vm_compute; reflexivity|]. split; [vm_compute; reflexivity|].
  split; [vm_compute; reflexivity|]. split; [vm_compute; reflexivity|].
  split; [|split; reflexivity]. intros F. inversion_clear F. discriminate.
Qed.
Print Assumptions extents_follow_writes_refuted.

(* The size is asked for once: when the image and the ticket grow, readinto
   still reports the old end. *)
Theorem readinto_sees_new_size_refuted :
  exists (s s1 s2 : hb iworld) o buf,
  iw_img (h_world s) = [x01; x02] /\
  size srv_ex s = (inl 2, s1) /\
  (* the image is 4 bytes now, and the position is at 2 *)
  readinto srv_ex o buf (set_pos (put_world s1 (IW [x01; x02; x03; x04] 5 [])) 2) = (inl 0, buf, s2) /\
  zlen buf = 2.
Proof.
  exists (put_world back_ex (IW [x01; x02] 1 [])). do 2 eexists.
  exists net_ex, [xaa; xaa]. split; [reflexivity|]. split; [vm_compute; reflexivity|].
  split; [vm_compute; reflexivity|reflexivity].
Qed.
Print Assumptions readinto_sees_new_size_refuted.

(* write_to does not look at what writer.write returns. *)
Theorem write_to_writes_everything_refuted :
  exists (s s' : hb iworld) o out,
  write_to srv_ex o 6 4 s = (inl 6, out, s') /\
  iw_img (h_world s) = [x00; x00; x03; x04; x05; x06; x07; x08; x09; x0a] /\
  out = [x00; x04] /\ h_pos s = 0.
Proof.
  exists back_ex, (snd (write_to srv_ex (Net (fun _ => Some 3) (fun _ => SendOk) (fun _ => Some 5)
     (fun _ => Some 1)) 6 4 back_ex)).
  exists (Net (fun _ => Some 3) (fun _ => SendOk) (fun _ => Some 5) (fun _ => Some 1)).
  eexists. split; [vm_compute; reflexivity|]. repeat split.
Qed.
Print Assumptions write_to_writes_everything_refuted.

(* A broken pipe while sending is left to the status of the response: any
   server that answers 200 makes read_from report all bytes, sent or not. *)
Theorem read_from_sends_everything_refuted :
  exists (serve : unit -> message -> option response * unit) o src s s',
  read_from serve o src 3 2 s = (inl 3, [x03], s') /\ src = [x01; x02; x03] /\
  exists q l r, h_sent s' = [MPut q l r [x01]].
Proof.
  exists (fun w _ => (Some (Resp 200 (Some 0) [] None), w)).
  exists (Net (fun _ => Some 1) (fun _ => SendBroken 1) (fun _ => Some 2) (fun _ => Some 1)).
  exists [x01; x02; x03], (new tt). eexists. split; [vm_compute; reflexivity|]. split; auto.
  do 3 eexists. vm_compute. reflexivity.
Qed.
Print Assumptions read_from_sends_everything_refuted.

(* A server reporting no extents at all: size raises IndexError. *)
Theorem size_without_extents_refuted :
  exists (serve : unit -> message -> option response * unit) s s',
  h_can_extents s = true /\
  extents serve false s = (inl [], s') /\ fst (size serve s) = inr XIndex.
Proof.
  exists (fun w _ => (Some (Resp 200 (Some 2) [] (Some (JList []))), w)).
  exists (set_caps (new tt) true true true). eexists.
  split; [reflexivity|]. split; vm_compute; reflexivity.
Qed.
Print Assumptions size_without_extents_refuted.

(* ---- cases meeting the hypotheses ---- *)

Example usable_ex : usable (lit "id") 10 senv_ex.
Proof.
  split; [|split; [|split]].
  - intros bs buf [= <- <-]. vm_compute. repeat split; discriminate.
  - split; reflexivity.
  - intros op n [= <-]. auto.
  - intros img l L [= <-]. unfold extents_end.
    assert (Z : 0 <= leading img <= zlen img).
    { clear L. induction img as [|b img IH]; [cbn; lia|].
      rewrite zlen_cons. destruct b; cbn [leading]; lia. }
    destruct (Z.ltb_spec 0 (leading img)), (Z.ltb_spec (leading img) (zlen img)); cbn; f_equal; lia.
Qed.

Example willing_ex : willing (lit "id") 10 senv_ex.
Proof.
  split; [exact usable_ex|]. split; [eexists _, _; reflexivity|]. do 5 (split; [reflexivity|]).
  split; [intros m [= <-]; vm_compute; discriminate|].
  split; [intros bs buf [= <- <-] i; exists 4; vm_compute; auto|].
  split; [intros i; exists 3; vm_compute; auto|].
  split; [intros i; exists 2; reflexivity|reflexivity].
Qed.

Example patient_ex : patient 10 senv_ex.
Proof. intros bs buf [= <- <-]. vm_compute. discriminate. Qed.

Example read_from_succeeds_ex :
  exists s', read_from srv_ex net_ex [xa1; xa2; xa3; xa4; xa5; xa6; xa7] 6 4 (set_pos back_ex 2) =
    (inl 6, [xa7], s') /\ iw_img (h_world s') = [x00; x00; xa1; xa2; xa3; xa4; xa5; xa6; x09; x0a].
Proof. eexists. vm_compute. split; reflexivity. Qed.

Example write_to_succeeds_ex :
  exists s', write_to srv_ex net_ex 6 4 (set_pos back_ex 2) = (inl 6, [x03; x04; x05; x06; x07; x08], s').
Proof. eexists. vm_compute. reflexivity. Qed.

(* The new backend knows the features and sent one message. *)
Example connect_ex :
  exists s, connect srv_ex (new world_ex) = (inl tt, s) /\ h_can_zero s = true /\
    h_can_extents s = true /\ h_can_flush s = true /\ h_sent s = [MOptions].
Proof. eexists. split; [vm_compute; reflexivity|]. repeat split. Qed.

(* Calls that succeed and fail: write at 3, read it back, zero, a write over
   the end, copies, the size. *)
Example calls_ex :
  exists s, run_calls srv_ex (fun _ => net_ex) 0
    [CSeek 3 0; CWrite [xa1; xa2; xa3]; CSeek (-7) 2; CReadinto [xff; xff; xff; xff]; CZero 2;
     CWrite [xb1; xb2]; CReadFrom [xc1; xc2; xc3] 2 1; CTell; CSeek (-3) 1; CWriteTo 2 1; CSize; CFlush]
    back_ex =
    ([Out (inl 3) []; Out (inl 3) []; Out (inl 3) []; Out (inl 4) [xa1; xa2; xa3; x07]; Out (inl 2) [];
      Out (inr (XHttp 416)) []; Out (inr (XHttp 416)) [xc3]; Out (inl 9) []; Out (inl 6) [];
      Out (inl 2) [x07; x00]; Out (inl 10) []; Out (inl 0) []], s) /\
    iw_img (h_world s) = [x00; x00; x03; xa1; xa2; xa3; x07; x00; x00; x0a] /\
    h_pos s = 8 /\
    iw_log (h_world s) = [EWrite 3 1; EWrite 4 2; EZero 7 2; EFlush] /\ h_size s = Some 10.
Proof. eexists. split; [vm_compute; reflexivity|]. repeat split. Qed.

(* Two clones: the position of one does not move the other. *)
Example clones_ex :
  exists bs w, run_steps srv_ex (fun _ => net_ex) 0
    [SCall 0 (CWrite [xa1]); SClone 0; SCall 1 (CReadinto [xff; xff]); SCall 0 (CReadinto [xff]);
     SCall 1 (CWrite [xd1])] [back_ex] (h_world back_ex) =
    ([Out (inl 1) []; Out (inl 2) [xa1; x00]; Out (inl 1) [x00]; Out (inl 1) []], bs, w) /\
    map h_pos bs = [2; 3] /\
    iw_img w = [xa1; x00; xd1; x04; x05; x06; x07; x08; x09; x0a].
Proof. eexists _, _. split; [vm_compute; reflexivity|]. split; reflexivity. Qed.

(* Without the features: zeros are written, each write flushes, the size comes
   from a GET request. *)
Example old_server_ex :
  exists s, run_calls srv_ex (fun _ => net_ex) 0 [CSeek 2 0; CZero 3; CSize; CFlush]
    (set_caps back_ex false false false) =
    ([Out (inl 2) []; Out (inl 3) []; Out (inl 10) []; Out (inl 0) []], s) /\
    iw_img (h_world s) = [x00; x00; x00; x00; x00; x06; x07; x08; x09; x0a] /\
    h_sent s = [MOptions;
                MPut [] (lit "3") (lit "bytes 2-4/*") [x00; x00; x00]; MGet None] /\
    durable (iw_log (h_world s)) /\ iw_log (h_world s) <> [].
Proof.
  eexists. split; [vm_compute; reflexivity|]. split; [reflexivity|]. split; [reflexivity|].
  split; [|discriminate]. cbn. apply (durable_tail [EWrite 2 2; EWrite 4 1]).
Qed.

Example messages_ex :
  asks (put_message 300 [xa1] (set_pos back_ex 1234))
    (AskWrite 1234 300 [xa1] false) /\
  put_message 300 [xa1] (set_pos back_ex 1234) =
    MPut [(lit "flush", lit "n")] (lit "300") (lit "bytes 1234-1533/*") [xa1] /\
  range_header 1234 300 = lit "bytes=1234-1533".
Proof.
  split; [|split; reflexivity]. exact (put_message_asks (set_pos back_ex 1234) 300 [xa1] ltac:(cbn; lia) ltac:(lia)).
Qed.

Example extents_ex :
  exists s, extents srv_ex false back_ex =
    (inl [JExt (JInt 0) (JInt 2) (JBool true) (JBool false);
          JExt (JInt 2) (JInt 8) (JBool false) (JBool false)], s).
Proof. eexists. vm_compute. reflexivity. Qed.

Example old_extent_ex :
  from_dict false (JObj [(lit "zero", JBool true); (lit "length", JInt 5); (lit "start", JInt 3)]) =
    inl (JExt (JInt 3) (JInt 5) (JBool true) JNull) /\
  from_dict true (JObj [(lit "new", JNull); (lit "dirty", JBool true); (lit "length", JInt 5);
                        (lit "start", JInt 3)]) =
    inl (JExt (JInt 3) (JInt 5) (JBool true) (JBool false)) /\
  from_dict false (JObj [(lit "zero", JBool true); (lit "length", JInt 5)]) = inr XKey.
Proof. repeat split. Qed.
