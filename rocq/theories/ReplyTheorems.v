(* The bytes of responses, and CORS: C80, C81. *)
From Coq Require Import ZArith Lia List Bool String.
From Verif Require Import UrlModel ReplyModel ReplySpec ReplyProofs.
Import ListNotations.
Open Scope Z_scope.

(* C80: a handler that starts the response: the client reads the status and
   exactly the headers set before, each name once with the last value, and then
   the bytes written.  Whatever comes later does not change the header, and an
   error closes the connection. *)
Theorem reply_started t unread pre d post e :
  clean_texts t -> quiet pre -> clean_handler (Handler (pre ++ Write d :: post) e) ->
  exists r code, router t unread (Handler (pre ++ Write d :: post) e) new_resp = (r, true) /\
    last_status pre code /\ replies t (r_sent r) code (header_is pre) (d ++ written post) /\
    (e <> None -> r_close r = true).
Proof.
  intros T Q C. pose proof (router_reply t unread _ T C) as R. unfold effective in R. cbn [h_acts h_raises] in R.
  rewrite cut_app in R by auto. cbn [cut fst snd] in R. rewrite app_nil_r in R.
  destruct R as (_ & r & code & E & L & P & X & _). exists r, code. split; auto. split; auto. split; auto. intros N. apply X; [auto|discriminate].
Qed.

(* C80: a handler that returns without writing: an empty body. *)
Theorem reply_empty t unread pre :
  clean_texts t -> quiet pre -> clean_handler (Handler pre None) ->
  exists r code, router t unread (Handler pre None) new_resp = (r, true) /\
    last_status pre code /\ replies t (r_sent r) code (header_is pre) [].
Proof.
  intros T Q C. pose proof (router_reply t unread _ T C) as R. unfold effective in R. cbn [h_acts h_raises] in R.
  rewrite <- (app_nil_r pre) in R. rewrite cut_app in R by auto. cbn [cut fst snd] in R. rewrite !app_nil_r in R.
  destruct R as (_ & r & code & E & L & P & _). exists r, code. auto.
Qed.

(* C80: an error before the response started: the client reads its code and its
   text as plain text of the right length; other exceptions are shown as 500.
   With unread content the connection is closed. *)
Theorem reply_error t unread pre e :
  clean_texts t -> quiet pre -> clean_handler (Handler pre (Some e)) ->
  exists r hd body, router t unread (Handler pre (Some e)) new_resp = (r, true) /\
    replies t (r_sent r) (match e with EHttp code _ _ => code | EOther => 500 end) hd body /\
    (forall code m cr, e = EHttp code m cr -> exists b, utf8 m = Some b /\ body = b ++ [10]) /\
    (e = EOther -> body = lit "Server failed to perform the request, check logs" ++ [10]) /\
    (forall x, hd (lit "content-length") x <-> x = VInt (Z.of_nat (List.length body))) /\
    (forall x, hd (lit "content-type") x <-> x = VText (lit "text/plain; charset=UTF-8")) /\
    (unread = true -> r_close r = true /\ hd (lit "connection") (VText (lit "close"))).
Proof.
  intros T Q C. pose proof (router_reply t unread _ T C) as R. unfold effective in R. cbn [h_acts h_raises] in R.
  rewrite <- (app_nil_r pre) in R. rewrite cut_app in R by auto. cbn [cut fst snd] in R. rewrite !app_nil_r in R.
  destruct R as (_ & r & code & E & L & P & _ & CL).
  assert (EC : code = match e with EHttp c _ _ => c | EOther => 500 end).
  { clear - L. unfold error_head in L.
    destruct e as [c m [s|]|]; destruct unread; cbn [app removelast error_acts] in L;
      match type of L with
      | last_status (pre ++ CloseConnection :: ?x) _ => replace (pre ++ CloseConnection :: x) with ((pre ++ [CloseConnection]) ++ x) in L by (rewrite <- app_assoc; reflexivity)
      | _ => idtac
      end;
      apply last_status_mid in L; auto; intros k I; cbn [In] in I; intuition discriminate. }
  subst code. exists r, (header_is (pre ++ error_head unread e)), (error_text e).
  split; auto. split; auto.
  split. { intros code m cr ->. destruct C as (_ & _ & C). destruct (C _ eq_refl) as (_ & U & _). unfold error_text.
    destruct (utf8 m) as [b|]; [exists b; auto|congruence]. }
  split. { intros ->. reflexivity. }
  assert (ONE : forall k x0, last_set (error_head unread e) k x0 -> (forall y, last_set (error_head unread e) k y -> y = x0) ->
    forall x, header_is (pre ++ error_head unread e) k x <-> x = x0).
  { intros k x0 H0 U x. rewrite header_is_app. split; [intros [H|(_ & H)]; [auto|destruct (H _ H0)]|intros ->; auto]. }
  assert (FUN : forall l k x y, last_set l k x -> last_set l k y -> (forall a u w, In a l -> sets a k u -> sets a k w -> u = w) -> x = y).
  { induction l as [|a l IH] using rev_ind; intros k x y H1 H2 F; [destruct (nil_not_set _ _ H1)|].
    apply last_set_snoc in H1. apply last_set_snoc in H2. destruct H1 as [S|(H1 & N1)], H2 as [S2|(H2 & N2)].
    - apply (F a x y); auto. apply in_or_app. cbn. auto.
    - destruct (N2 _ S).
    - destruct (N1 _ S2).
    - apply (IH k); auto. intros b u w I. apply F. apply in_or_app. auto. }
  assert (SF : forall a k u w, sets a k u -> sets a k w -> u = w) by (intros [] ? u w; cbn; intuition congruence).
  assert (LL : last_set (error_head unread e) (lit "content-length") (VInt (Z.of_nat (List.length (error_text e)))) /\
               last_set (error_head unread e) (lit "content-type") (VText (lit "text/plain; charset=UTF-8")) /\
               (unread = true -> last_set (error_head unread e) (lit "connection") (VText (lit "close")))).
  { assert (S1 : forall l a k x, sets a k x -> last_set (l ++ [a]) k x) by (intros; apply last_here; auto).
    assert (S2 : forall l a k x, last_set l k x -> (forall y, ~ sets a k y) -> last_set (l ++ [a]) k x) by (intros; apply last_before; auto).
    unfold error_head, error_text. destruct e as [c m [s|]|]; destruct unread; cbn [removelast error_acts app];
    (split; [|split; [|intros; try discriminate]]);
    repeat (match goal with
      | |- last_set (?a :: ?b) ?k ?x =>
          replace (a :: b) with (removelast (a :: b) ++ [last (a :: b) a]) by reflexivity; cbn [removelast last];
          first [apply S1; split; reflexivity|apply S2; [|cbn [sets]; intros y (Y & _) || intros y []; discriminate]]
      end). }
  destruct LL as (A & B & D).
  split; [apply ONE; auto; intros y Y; eapply FUN; eauto|].
  split; [apply ONE; auto; intros y Y; eapply FUN; eauto|].
  intros UN. split; [apply CL; auto; discriminate|]. rewrite header_is_app. auto.
Qed.

(* C81: the decorated methods: the CORS headers are in every reply of the
   method, successful or not, exactly when they were asked for; otherwise the
   reply is that of the method. *)
Theorem cors_reply t unread x m c q h :
  clean_texts t -> clean_handler h -> no_cors (h_acts h) -> decorated x (lower m) = Some (Some c) ->
  exists r1 r2 code hd1 hd2 body,
    router t unread (method_handler x m q h) new_resp = (r1, true) /\ router t unread h new_resp = (r2, true) /\
    replies t (r_sent r1) code hd1 body /\ replies t (r_sent r2) code hd2 body /\
    (forall k v, ~ cors_name k -> (hd1 k v <-> hd2 k v)) /\
    (forall v, hd1 (lit "access-control-allow-origin") v <-> asked q (lit "origin") /\ v = VText (lit "*")) /\
    (forall v, hd1 (lit "access-control-allow-headers") v <->
       asked q (lit "access-control-request-headers") /\ v = VText (lit "*")) /\
    (forall v, hd1 (lit "access-control-allow-methods") v <->
       asked q (lit "access-control-request-method") /\ v = VText (c_methods c)) /\
    (forall v, hd1 (lit "access-control-max-age") v <->
       (asked q (lit "origin") \/ asked q (lit "access-control-request-headers") \/
        asked q (lit "access-control-request-method")) /\ v = VInt 86400).
Proof.
  intros T CH NC D. unfold method_handler. rewrite D.
  assert (CC : c_origin c = lit "*" /\ c_headers c = lit "*" /\ (c_methods c = lit "*" \/ c_methods c = lit "OPTIONS,GET,PUT") /\ c_max_age c = 86400).
  { unfold decorated in D. destruct x; repeat match type of D with context [if ?b then _ else _] => destruct b end; try discriminate;
      injection D as <-; auto 10. }
  destruct CC as (C1 & C2 & C3 & C4).
  assert (Q : quiet (cors_acts c q)).
  { intros a d I. unfold cors_acts in I. destruct (given q (lit "origin")), (given q (lit "access-control-request-headers")), (given q (lit "access-control-request-method"));
      cbn in I; intuition (subst; discriminate). }
  assert (NST : forall n, ~ In (SetStatus n) (cors_acts c q)).
  { intros n I. unfold cors_acts in I. destruct (given q (lit "origin")), (given q (lit "access-control-request-headers")), (given q (lit "access-control-request-method"));
      cbn in I; intuition discriminate. }
  assert (CA : clean_acts (cors_acts c q)).
  { intros k v I. assert (X : In k (map lit ["access-control-allow-origin"; "access-control-allow-headers"; "access-control-allow-methods"; "access-control-max-age"]%string) /\
      (v = VText (c_origin c) \/ v = VText (c_headers c) \/ v = VText (c_methods c) \/ v = VInt (c_max_age c))).
    { unfold cors_acts in I. destruct (given q (lit "origin")), (given q (lit "access-control-request-headers")), (given q (lit "access-control-request-method"));
        cbn [app orb In] in I; repeat match goal with H : _ \/ _ |- _ => destruct H as [H|H]; [injection H as <- <-; cbn [map In]; auto 12|] end; contradiction. }
    destruct X as (K & V). split.
    - cbn [map In] in K. repeat destruct K as [<-|K]; try contradiction; (apply name_ascii_b; [discriminate|reflexivity]).
    - rewrite C1, C2, C4 in V. split; intros z ->.
      + destruct V as [V|[V|[V|V]]]; try discriminate; injection V as ->; try (apply clean_ascii; reflexivity).
        destruct C3 as [->| ->]; apply clean_ascii; reflexivity.
      + destruct V as [V|[V|[V|V]]]; try discriminate. injection V as ->. lia. }
  assert (CH1 : clean_handler (allow c q h)).
  { destruct CH as (A & B & E). split; [apply clean_app; auto|]. split; auto. apply good_app; auto. intros n I. destruct (NST n I). }
  pose proof (router_reply t unread h T CH) as R2. pose proof (router_reply t unread (allow c q h) T CH1) as R1.
  assert (EF : effective unread (allow c q h) = (cors_acts c q ++ fst (effective unread h), snd (effective unread h))).
  { unfold effective, allow. cbn [h_acts h_raises]. rewrite cut_app by auto. destruct (cut (h_acts h)) as [p [[d post]|]]; cbn [fst snd]; auto.
    destruct (h_raises h); cbn [fst snd]; auto. rewrite app_assoc. auto. }
  assert (NCE : forall k v, cors_name k -> ~ last_set (fst (effective unread h)) k v).
  { intros k v K H. apply last_set_sets in H. destruct H as (a & I & S). unfold effective in I. pose proof (cut_spec (h_acts h)) as CS.
    destruct (cut (h_acts h)) as [p y]. destruct CS as (_ & L).
    assert (IP : forall b, In b p -> In b (h_acts h)) by (intros b Ib; rewrite L; apply in_or_app; auto).
    destruct y as [[d post]|]; cbn [fst] in I; [exact (NC a k v (IP a I) S K)|].
    destruct (h_raises h) as [e|]; cbn [fst] in I; [|exact (NC a k v (IP a I) S K)].
    apply in_app_or in I. destruct I as [I|I]; [exact (NC a k v (IP a I) S K)|]. clear - I S K.
    unfold error_head in I. destruct e as [? ? [?|]|]; destruct unread; cbn [app removelast error_acts In] in I;
      repeat match goal with H : _ \/ _ |- _ => destruct H as [H|H] end; try contradiction; subst a; cbn [sets] in S; try contradiction;
      destruct S as (S & _); revert K; rewrite <- S || rewrite S; vm_compute; intuition discriminate. }
  rewrite EF in R1. destruct (effective unread h) as [pre body]. cbn [fst snd] in *.
  destruct R2 as (_ & r2 & code & E2 & L2 & P2 & _). destruct R1 as (_ & r1 & code1 & E1 & L1 & P1 & _).
  assert (code1 = code).
  { apply (proj1 (last_status_app _ _ _ NST)) in L1. clear - L1 L2. revert code code1 L1 L2. induction pre as [|a pre IH] using rev_ind; intros n n1 L1 L2.
    - inversion L1; [|destruct l; discriminate|destruct l; discriminate]. inversion L2; [|destruct l; discriminate|destruct l; discriminate]. congruence.
    - apply last_status_snoc in L1. apply last_status_snoc in L2.
      destruct L1 as [->|(L1 & N1)], L2 as [E|(L2 & N2)]; [congruence| | |eapply IH; eauto].
      + destruct (N2 n1); auto. + destruct (N1 n); auto. }
  subst code1. exists r1, r2, code, (header_is (cors_acts c q ++ pre)), (header_is pre), body.
  split; auto. split; auto. split; auto. split; auto.
  assert (HC : forall k v, cors_name k -> (header_is (cors_acts c q ++ pre) k v <-> last_set (cors_acts c q) k v)).
  { intros k v K. rewrite header_is_app.
    assert (X : header_is (cors_acts c q) k v <-> last_set (cors_acts c q) k v).
    { unfold header_is. change (SetHeader (lit "content-length") (VInt 0) :: cors_acts c q) with ([SetHeader (lit "content-length") (VInt 0)] ++ cors_acts c q).
      rewrite last_set_app. split; auto. intros [H|(H & _)]; auto. apply last_set_cons_default in H. destruct H as (-> & _).
      revert K. vm_compute. intuition discriminate. }
    rewrite X. split; [intros [H|(H & _)]; auto; destruct (NCE k v K H)|]. intros H. right. split; auto. }
  assert (KN : forall s, In s ["access-control-allow-origin"; "access-control-allow-headers"; "access-control-allow-methods"; "access-control-max-age"]%string -> cors_name (lit s)).
  { intros s I. unfold cors_name. apply in_map. auto. }
  split.
  { intros k v K. rewrite header_is_app. unfold header_is at 2.
    change (SetHeader (lit "content-length") (VInt 0) :: pre) with ([SetHeader (lit "content-length") (VInt 0)] ++ pre). rewrite last_set_app.
    assert (X : header_is (cors_acts c q) k v <-> last_set [SetHeader (lit "content-length") (VInt 0)] k v).
    { unfold header_is. change (SetHeader (lit "content-length") (VInt 0) :: cors_acts c q) with ([SetHeader (lit "content-length") (VInt 0)] ++ cors_acts c q).
      assert (NO : forall y, ~ last_set (cors_acts c q) k y).
      { intros y H. apply cors_acts_sets in H. apply K. unfold cors_name. cbn [map In].
        destruct H as [(-> & _)|[(-> & _)|[(-> & _)|(-> & _)]]]; auto. }
      rewrite last_set_app. split; [intros [H|(H & _)]; auto; destruct (NO v H)|]. auto. }
    rewrite X. tauto. }
  split; [|split; [|split]]; intros v; rewrite HC by (apply KN; cbn; auto 6); rewrite cors_acts_sets; rewrite ?given_asked; rewrite ?C1, ?C2, ?C4.
  - split; [intros [(_ & H)|[(H & _)|[(H & _)|(H & _)]]]; [auto|discriminate..]|auto].
  - split; [intros [(H & _)|[(_ & H)|[(H & _)|(H & _)]]]; [discriminate|auto|discriminate..]|auto].
  - split; [intros [(H & _)|[(H & _)|[(_ & H)|(H & _)]]]; [discriminate..|auto|discriminate]|auto].
  - rewrite !orb_true_iff. split; [intros [(H & _)|[(H & _)|[(H & _)|(_ & H)]]]; [discriminate..|tauto]|tauto].
Qed.

(* A request of a web page with a preflight: the page may send GET and PUT for
   images, but no PATCH, and it can read the replies of GET, PUT and OPTIONS,
   also the errors. *)
Theorem web_page_transfers t unread q h :
  clean_texts t -> clean_handler h -> no_cors (h_acts h) -> asked q (lit "origin") ->
  (asked q (lit "access-control-request-method") -> asked q (lit "access-control-request-headers") ->
   exists r code hd body, router t unread (method_handler Images (lit "OPTIONS") q h) new_resp = (r, true) /\
     replies t (r_sent r) code hd body /\ permits hd (lit "GET") /\ permits hd (lit "PUT") /\ ~ permits hd (lit "PATCH")) /\
  (forall m, In m ["GET"; "PUT"; "OPTIONS"]%string ->
   exists r code hd body, router t unread (method_handler Images (lit m) q h) new_resp = (r, true) /\
     replies t (r_sent r) code hd body /\ readable hd).
Proof.
  intros T C N O. split.
  - intros M H. destruct (cors_reply t unread Images (lit "OPTIONS") _ q h T C N eq_refl) as (r1 & r2 & code & hd1 & hd2 & body & E & _ & R & _ & _ & A & B & D & _).
    exists r1, code, hd1, body. split; auto. split; auto. cbn [c_methods] in D. unfold permits, readable.
    assert (AO : hd1 (lit "access-control-allow-origin") (VText (lit "*"))) by (apply A; auto).
    assert (AH : hd1 (lit "access-control-allow-headers") (VText (lit "*"))) by (apply B; auto).
    assert (AM : hd1 (lit "access-control-allow-methods") (VText (lit "OPTIONS,GET,PUT"))) by (apply D; auto).
    split; [split; auto; split; auto; eexists; split; [exact AM|right; vm_compute; auto]|].
    split; [split; auto; split; auto; eexists; split; [exact AM|right; vm_compute; auto]|].
    intros (_ & _ & m & HM & P). apply D in HM. destruct HM as (_ & HM). injection HM as ->. vm_compute in P. intuition discriminate.
  - intros m I. assert (D : exists c, decorated Images (lower (lit m)) = Some (Some c)).
    { cbn in I. destruct I as [<-|[<-|[<-|[]]]]; eexists; reflexivity. }
    destruct D as (c & D).
    destruct (cors_reply t unread Images (lit m) c q h T C N D) as (r1 & r2 & code & hd1 & hd2 & body & E & _ & R & _ & _ & A & _).
    exists r1, code, hd1, body. split; auto. split; auto. apply A. auto.
Qed.

(* C80: a download of a file with a clean name. *)
Theorem download_headers t unread filename size offset total range d post e :
  clean_texts t -> clean filename -> 0 <= size -> 0 <= offset -> 0 < offset + size -> 0 <= total ->
  clean_handler (Handler post e) ->
  exists r, router t unread (Handler (get_acts filename size offset total range ++ Write d :: post) e) new_resp = (r, true) /\
    replies t (r_sent r) (if range then 206 else 200)
      (fun k x => (k = lit "content-length" /\ x = VInt size) \/
         (k = lit "content-type" /\ x = VText (lit "application/octet-stream")) \/
         (k = lit "content-disposition" /\
            ((filename = [] /\ x = VText (lit "attachment")) \/
             (filename <> [] /\ x = VText (lit "attachment; filename=" ++ filename)))) \/
         (range = true /\ k = lit "content-range" /\
            x = VText (lit "bytes " ++ dec offset ++ lit "-" ++ dec (offset + size - 1) ++ lit "/" ++ dec total)))
      (d ++ written post).
Proof.
  intros T CF S O OS TT CH.
  assert (CV : clean (lit "attachment" ++ match filename with [] => [] | _ => lit "; filename=" ++ filename end)).
  { apply Forall_app. split; [apply clean_ascii; reflexivity|]. destruct filename; [constructor|]. apply Forall_app. split; [apply clean_ascii; reflexivity|auto]. }
  assert (CR : clean (lit "bytes " ++ dec offset ++ [45] ++ dec (offset + size - 1) ++ [47] ++ dec total)).
  { repeat (apply Forall_app; split); try (apply dec_clean; lia); apply clean_ascii; reflexivity. }
  assert (Q : quiet (get_acts filename size offset total range)).
  { intros a y I. unfold get_acts in I. destruct range; cbn [app In] in I; intuition (subst; discriminate). }
  assert (CA : clean_acts (get_acts filename size offset total range)).
  { intros k x I. unfold get_acts in I. destruct range; cbn [app In] in I;
      repeat match goal with H : _ \/ _ |- _ => destruct H as [H|H] end; try contradiction; try discriminate; injection I as <- <-;
      (split; [apply name_ascii_b; [discriminate|reflexivity]|]); split; intros z Z; try discriminate; injection Z as <-; auto; apply clean_ascii; reflexivity. }
  assert (CHH : clean_handler (Handler (get_acts filename size offset total range ++ Write d :: post) e)).
  { destruct CH as (A & B & E). split; [|split; auto].
    - apply clean_app; auto. intros k x [I|I]; [discriminate|]. apply A. auto.
    - intros n I. apply in_app_or in I. destruct I as [I|[I|I]]; [|discriminate|apply B; auto].
      unfold get_acts in I. destruct range; cbn [app In] in I; repeat match goal with H : _ \/ _ |- _ => destruct H as [H|H] end; try contradiction; try discriminate.
      injection I as <-. lia. }
  destruct (reply_started t unread _ d post e T Q CHH) as (r & code & E & L & (hs & bs & P & ND & H & F) & _).
  exists r. split; auto.
  assert (EC : code = if range then 206 else 200).
  { clear - L. unfold get_acts in L. destruct range; cbn [app] in L.
    - match type of L with last_status (?a :: ?b :: ?c :: SetStatus 206 :: ?x) _ => apply (last_status_mid [a; b; c] 206 x) in L end; auto. intros m [I|[]]; discriminate.
    - change 200 with 200. rewrite <- (app_nil_r [_; _; _]) in L. apply last_status_app in L; [inversion L; auto; destruct l; discriminate|].
      intros m I. cbn [In] in I. intuition discriminate. }
  subst code. exists hs, bs. split; auto. split; auto. split; auto.
  intros k x. rewrite H.
  destruct (follows_acts t _ [] new_resp follows_new Q) as (r' & E' & (_ & _ & _ & _ & H' & _)). cbn [app] in H'. rewrite <- H'.
  change [45] with (lit "-") in *. change [47] with (lit "/") in *.
  assert (AX : VText (lit "attachment" ++ match filename with [] => [] | _ => lit "; filename=" ++ filename end) = x <->
    ((filename = [] /\ x = VText (lit "attachment")) \/ (filename <> [] /\ x = VText (lit "attachment; filename=" ++ filename)))).
  { destruct filename; cbn [app]; rewrite ?app_nil_r; (split; [intros <-|intros [(A & ->)|(A & ->)]]); auto; try congruence.
    right. split; [discriminate|reflexivity]. }
  rewrite <- AX. clear - E'.
  remember (VText (lit "attachment" ++ match filename with [] => [] | _ => lit "; filename=" ++ filename end)) as disp.
  remember (VText (lit "bytes " ++ dec offset ++ lit "-" ++ dec (offset + size - 1) ++ lit "/" ++ dec total)) as cr.
  assert (X : r_headers r' = [(lit "content-length", VInt size); (lit "content-type", VText (lit "application/octet-stream"));
                              (lit "content-disposition", disp)] ++ if range then [(lit "content-range", cr)] else []).
  { subst disp cr. destruct range; injection E' as <-; reflexivity. }
  rewrite X. destruct range; cbn [app In]; split; intros K;
    repeat match goal with H : _ \/ _ |- _ => destruct H as [H|H] end; try contradiction;
    try (injection K as <- <-; auto 10); try (destruct K as (-> & <-); auto 10); try (destruct K as (-> & ->); auto 10);
    destruct K as (K & -> & ->); auto 10; discriminate.
Qed.

(* For the examples. *)
Definition ex_texts : texts := Texts (fun _ => lit "OK") (lit "imageio/2.5.0") (lit "Tue, 17 Nov 2026 00:00:00 GMT").
Definition ex_get (filename : str) : list act := get_acts filename 3 5 10 true.
Definition page (name : str) : option str :=
  if same name (lit "origin") then Some (lit "https://engine") else
  if same name (lit "access-control-request-method") then Some (lit "PUT") else
  if same name (lit "access-control-request-headers") then Some (lit "content-range") else None.

(* C80, refuted: the client reads the headers set.  The filename of a ticket is
   used as it is: with a line break it adds a header. *)
Theorem filename_injects_refuted : exists filename r n f body,
  router ex_texts false (Handler (ex_get filename ++ [Write [1; 2; 3]]) None) new_resp = (r, true) /\
  parse_reply (r_sent r) = Some (n, f, body) /\
  In (lit "set-cookie", lit "a") f /\ forall x, ~ header_is (ex_get filename) (lit "set-cookie") x.
Proof.
  exists (lit "x" ++ [13; 10] ++ lit "set-cookie: a"). eexists. eexists. eexists. eexists.
  split; [vm_compute; reflexivity|]. split; [vm_compute; reflexivity|]. split; [vm_compute; auto 20|].
  intros x H. unfold header_is in H. apply last_set_sets in H. destruct H as (a & I & S). unfold ex_get, get_acts in I. cbn [app In] in I.
  repeat match goal with H : _ \/ _ |- _ => destruct H as [H|H] end; try contradiction; subst a; cbn [sets] in S; try contradiction; destruct S as (S & _); discriminate.
Qed.

(* C80, refuted: every request gets a reply.  A filename with a lone surrogate
   (valid in JSON) cannot be encoded: nothing is sent. *)
Theorem filename_no_reply_refuted : exists filename r,
  router ex_texts false (Handler (ex_get filename ++ [Write [1; 2; 3]]) None) new_resp = (r, true) /\
  r_sent r = [] /\ r_close r = true.
Proof. exists [55296]. eexists. split; [vm_compute; reflexivity|]. auto. Qed.

(* C80, refuted: an error reply describes the error only.  When reading fails
   before the first byte was sent, the error has the content-range and the
   file name of the download. *)
Theorem error_with_content_range_refuted : exists r f body,
  router ex_texts false (Handler (ex_get (lit "disk.img")) (Some EOther)) new_resp = (r, true) /\
  parse_reply (r_sent r) = Some (500, f, body) /\
  In (lit "content-range", lit "bytes 5-7/10") f /\ In (lit "content-disposition", lit "attachment; filename=disk.img") f.
Proof.
  eexists. eexists. eexists. split; [vm_compute; reflexivity|]. split; [vm_compute; reflexivity|]. vm_compute. auto 20.
Qed.

(* C81, refuted: a web page can read every reply.  PATCH, the extents and
   checksums have no CORS headers, and a preflight for /info/ fails. *)
Theorem not_readable_refuted : forall x m, In (x, m) [(Images, lit "PATCH"); (Extents, lit "GET"); (Checksum, lit "GET"); (Info, lit "OPTIONS")] ->
  exists r n f body, router ex_texts false (method_handler x m page (Handler [] None)) new_resp = (r, true) /\
    parse_reply (r_sent r) = Some (n, f, body) /\ forall v, ~ In (lit "access-control-allow-origin", v) f.
Proof.
  intros x m I. cbn [In] in I. repeat destruct I as [I|I]; try contradiction; injection I as <- <-;
    (eexists; eexists; eexists; eexists; split; [vm_compute; reflexivity|]; split; [vm_compute; reflexivity|]);
    intros v K; vm_compute in K; intuition discriminate.
Qed.

Example reply_case :
  clean_texts ex_texts /\ clean (lit "disk.img") /\ quiet (ex_get (lit "disk.img")) /\
  clean_handler (Handler (ex_get (lit "disk.img") ++ [Write [1]; SetHeader (lit "late") (VInt 1); Write [2; 3]]) (Some EOther)) /\
  exists r, router ex_texts false (Handler (ex_get (lit "disk.img") ++ [Write [1]; SetHeader (lit "late") (VInt 1); Write [2; 3]]) None) new_resp = (r, true) /\
    parse_reply (r_sent r) =
      Some (206, [(lit "server", lit "imageio/2.5.0"); (lit "date", lit "Tue, 17 Nov 2026 00:00:00 GMT");
                  (lit "content-length", lit "3"); (lit "content-type", lit "application/octet-stream");
                  (lit "content-disposition", lit "attachment; filename=disk.img");
                  (lit "content-range", lit "bytes 5-7/10")], [1; 2; 3]).
Proof.
  assert (LB : forall s, forallb (fun c => (32 <=? c) && (c <? 127)) s = true -> line_bytes s).
  { intros s H. apply Forall_forall. intros c I. rewrite forallb_forall in H. specialize (H c I). lia. }
  assert (CA : clean_acts (ex_get (lit "disk.img") ++ [Write [1]; SetHeader (lit "late") (VInt 1); Write [2; 3]])).
  { intros k x I. cbn [ex_get get_acts app In] in I.
    repeat match goal with H : _ \/ _ |- _ => destruct H as [H|H] end; try contradiction; try discriminate; injection I as <- <-;
      (split; [apply name_ascii_b; [discriminate|reflexivity]|]); split; intros z Z; try discriminate; injection Z as <-; try lia; apply clean_ascii; reflexivity. }
  split; [split; [intros; apply LB; reflexivity|split; apply LB; reflexivity]|].
  split; [apply clean_ascii; reflexivity|].
  split; [intros a d I; cbn [h_acts ex_get get_acts app In] in I; intuition (subst; discriminate)|].
  split. { split; [auto|]. split; [|intros e E; injection E as <-; exact I].
    intros n I. cbn [h_acts ex_get get_acts app In] in I. repeat match goal with H : _ \/ _ |- _ => destruct H as [H|H] end; try contradiction; try discriminate.
    injection I as <-. lia. }
  eexists. split; [vm_compute; reflexivity|]. vm_compute. reflexivity.
Qed.

Example cors_case :
  asked page (lit "origin") /\ no_cors [SetHeader (lit "allow") (VText (lit "OPTIONS"))] /\
  exists r, router ex_texts true (method_handler Images (lit "OPTIONS") page (Handler [] (Some (EHttp 403 (lit "No such ticket") None)))) new_resp = (r, true) /\
    exists f b, parse_reply (r_sent r) = Some (403, f, b) /\ In (lit "access-control-allow-methods", lit "OPTIONS,GET,PUT") f /\
      In (lit "access-control-max-age", lit "86400") f /\ In (lit "connection", lit "close") f.
Proof.
  split; [apply given_asked; reflexivity|]. split.
  - intros a k x [<-|[]] (<- & _) C. vm_compute in C. intuition discriminate.
  - eexists. split; [vm_compute; reflexivity|]. eexists. eexists. split; [vm_compute; reflexivity|]. vm_compute. auto 20.
Qed.

Print Assumptions reply_started.
Print Assumptions reply_empty.
Print Assumptions reply_error.
Print Assumptions cors_reply.
Print Assumptions web_page_transfers.
Print Assumptions download_headers.
Print Assumptions filename_injects_refuted.
Print Assumptions filename_no_reply_refuted.
Print Assumptions error_with_content_range_refuted.
Print Assumptions not_readable_refuted.

(* C80: texts are sent in UTF-8, and only texts that have no UTF-8 cannot be
   sent. *)
Theorem utf8_exact s b : Forall (fun c => 0 <= c < 1114112) s ->
  (utf8 s = Some b <-> utf8_text s b).
Proof.
  assert (CH : forall c l, 0 <= c < 1114112 -> utf8_char c = Some l <-> utf8_of c l).
  { intros c l R. unfold utf8_char. split.
    - pose proof (Z.div_mod c 64 ltac:(lia)) as D1. pose proof (Z.mod_pos_bound c 64 ltac:(lia)) as M1.
      pose proof (Z.div_mod (c / 64) 64 ltac:(lia)) as D2. pose proof (Z.mod_pos_bound (c / 64) 64 ltac:(lia)) as M2.
      pose proof (Z.div_mod (c / 4096) 64 ltac:(lia)) as D3. pose proof (Z.mod_pos_bound (c / 4096) 64 ltac:(lia)) as M3.
      assert (Q2 : c / 4096 = c / 64 / 64) by (rewrite Z.div_div by lia; reflexivity).
      assert (Q3 : c / 262144 = c / 4096 / 64) by (rewrite Z.div_div by lia; reflexivity).
      destruct (c <? 128) eqn:A1; [intros [= <-]; constructor; lia|].
      destruct (c <? 2048) eqn:A2.
      { intros [= <-]. rewrite D1 at 1. constructor; lia. }
      destruct ((55296 <=? c) && (c <=? 57343)) eqn:A3; [discriminate|].
      destruct (c <? 65536) eqn:A4.
      { intros [= <-]. replace c with (4096 * (c / 4096) + 64 * (c / 64 mod 64) + c mod 64) at 1 by lia.
        constructor; lia. }
      intros [= <-].
      replace c with (262144 * (c / 262144) + 4096 * (c / 4096 mod 64) + 64 * (c / 64 mod 64) + c mod 64) at 1 by lia.
      constructor; lia.
    - intros H. inversion H as [? A|a d A B|a d e A B C L N|a d e f A B C D L]; subst; clear H.
      + replace (c <? 128) with true by lia. auto.
      + replace (64 * a + d <? 128) with false by lia. replace (64 * a + d <? 2048) with true by lia.
        replace ((64 * a + d) / 64) with a by (apply (Z.div_unique _ _ _ d); lia).
        replace ((64 * a + d) mod 64) with d by (apply (Z.mod_unique _ _ a); lia). auto.
      + remember (4096 * a + 64 * d + e) as c eqn:CE.
        replace (c <? 128) with false by lia. replace (c <? 2048) with false by lia.
        replace ((55296 <=? c) && (c <=? 57343)) with false by lia. replace (c <? 65536) with true by lia.
        replace (c / 4096) with a by (apply (Z.div_unique _ _ _ (64 * d + e)); lia).
        replace (c / 64) with (64 * a + d) by (apply (Z.div_unique _ _ _ e); lia).
        replace ((64 * a + d) mod 64) with d by (apply (Z.mod_unique _ _ a); lia).
        replace (c mod 64) with e by (apply (Z.mod_unique _ _ (64 * a + d)); lia). auto.
      + remember (262144 * a + 4096 * d + 64 * e + f) as c eqn:CE.
        replace (c <? 128) with false by lia. replace (c <? 2048) with false by lia.
        replace ((55296 <=? c) && (c <=? 57343)) with false by lia. replace (c <? 65536) with false by lia.
        replace (c / 262144) with a by (apply (Z.div_unique _ _ _ (4096 * d + 64 * e + f)); lia).
        replace (c / 4096) with (64 * a + d) by (apply (Z.div_unique _ _ _ (64 * e + f)); lia).
        replace (c / 64) with (4096 * a + 64 * d + e) by (apply (Z.div_unique _ _ _ f); lia).
        replace ((64 * a + d) mod 64) with d by (apply (Z.mod_unique _ _ a); lia).
        replace ((4096 * a + 64 * d + e) mod 64) with e by (apply (Z.mod_unique _ _ (64 * a + d)); lia).
        replace (c mod 64) with f by (apply (Z.mod_unique _ _ (4096 * a + 64 * d + e)); lia). auto. }
  intros F. revert b. induction F as [|c s R F IH]; intros b; cbn [utf8].
  - split; [intros [= <-]; constructor|intros H; inversion H; auto].
  - split.
    + destruct (utf8_char c) as [l|] eqn:E; [|discriminate]. destruct (utf8 s) as [m|]; [|discriminate].
      intros [= <-]. constructor; [apply CH; auto|apply IH; auto].
    + intros H. inversion H as [|? l ? m A B]; subst. apply CH in A; auto. apply IH in B. rewrite A, B. auto.
Qed.
Print Assumptions utf8_exact.
Example utf8_case : utf8_text [36; 163; 8364; 66376] [36; 194; 163; 226; 130; 172; 240; 144; 141; 136] /\
  (forall b, ~ utf8_text [65; 55296] b).
Proof.
  split; [apply utf8_exact; [repeat constructor; lia|vm_compute; reflexivity]|].
  intros b H. apply utf8_exact in H; [discriminate|repeat constructor; lia].
Qed.

(* C80: names of headers are the same in any case: of two headers set, the
   client sees both when the names differ, else the last one. *)
Lemma lower_same a b : lower a = lower b <-> same_name a b.
Proof.
  assert (CH : forall c d, (if (65 <=? c) && (c <=? 90) then c + 32 else c) = (if (65 <=? d) && (d <=? 90) then d + 32 else d)
               <-> same_letter c d).
  { intros c d. unfold same_letter. destruct ((65 <=? c) && (c <=? 90)) eqn:C, ((65 <=? d) && (d <=? 90)) eqn:D; split.
    - lia.
    - intros [E|(i & I & [E|E])]; lia.
    - intros E. right. exists (c - 65). lia.
    - intros [E|(i & I & [E|E])]; lia.
    - intros E. right. exists (d - 65). lia.
    - intros [E|(i & I & [E|E])]; lia.
    - lia.
    - intros [E|(i & I & [E|E])]; lia. }
  unfold lower, same_name. revert b. induction a as [|c a IH]; intros [|d b]; cbn [map].
  - split; [constructor|auto].
  - split; [discriminate|intros H; inversion H].
  - split; [discriminate|intros H; inversion H].
  - split.
    + intros [= E1 E2]. constructor; [apply CH; auto|apply IH; auto].
    + intros H. inversion H; subst. f_equal; [apply CH; auto|apply IH; auto].
Qed.
Theorem names_any_case k k' x x' h :
  (same_name k k' -> set_header k' x' (set_header k x h) = set_header k x' h) /\
  (~ same_name k k' -> In (lower k, x) (set_header k' x' (set_header k x h))).
Proof.
  unfold set_header. rewrite <- lower_same. split.
  - intros <-. induction h as [|[n y] h IH]; cbn [put].
    + unfold same. destruct (list_eq_dec Z.eq_dec (lower k) (lower k)); [auto|congruence].
    + destruct (same (lower k) n) eqn:E; cbn [put]; rewrite E; [auto|]. f_equal. auto.
  - intros N.
    assert (P : forall h, In (lower k, x) (put (lower k) x h)).
    { induction h0 as [|[n y] h0 IH]; cbn [put]; [left; auto|]. unfold same.
      destruct (list_eq_dec Z.eq_dec (lower k) n) as [<-|]; [left; auto|right; auto]. }
    assert (Q : forall h, In (lower k, x) h -> In (lower k, x) (put (lower k') x' h)).
    { induction h0 as [|[n y] h0 IH]; cbn [put]; [contradiction|]. unfold same. intros [I|I].
      - injection I as -> ->. destruct (list_eq_dec Z.eq_dec (lower k') (lower k)); [congruence|left; auto].
      - destruct (list_eq_dec Z.eq_dec (lower k') n); right; auto. }
    apply Q, P.
Qed.
Print Assumptions names_any_case.
Example names_any_case_ex : same_name (lit "Content-TypZ[") (lit "content-typz[") /\ ~ same_name (lit "a[") (lit "a{").
Proof.
  split; [apply lower_same; reflexivity|]. intros H. apply lower_same in H. discriminate.
Qed.

(* C80: a JSON reply. *)
Theorem reply_json t unread body :
  clean_texts t ->
  exists r, router t unread (Handler (json_acts body) None) new_resp = (r, true) /\
    replies t (r_sent r) 200
      (fun k x => (k = lit "content-length" /\ x = VInt (Z.of_nat (List.length body))) \/
                  (k = lit "content-type" /\ x = VText (lit "application/json"))) body.
Proof.
  intros T. set (n := VInt (Z.of_nat (List.length body))).
  pose (pre := [SetStatus 200; SetHeader (lit "content-length") n; SetHeader (lit "content-type") (VText (lit "application/json"))]).
  assert (N : forall s, (negb (Nat.eqb (List.length (lit s)) 0) && forallb (fun c => (32 <? c) && (c <? 127) && negb (c =? 58)) (lit s)) = true -> name (lit s)).
  { intros s H. apply andb_prop in H. destruct H as (A & B). apply name_ascii_b; auto. intros E. rewrite E in A. discriminate. }
  destruct (reply_started t unread pre body [] None T) as (r & code & E & L & P & _).
  { intros a d I. cbn in I. intuition (subst; discriminate). }
  { split; [|split].
    - intros k x I. cbn [h_acts pre app In] in I.
      repeat destruct I as [I|I]; try discriminate; try contradiction; injection I as <- <-;
        (split; [apply N; reflexivity|]); split; intros ? X; try discriminate.
      + unfold n in X. injection X as <-. lia.
      + injection X as <-. apply clean_ascii. reflexivity.
    - intros k I. cbn [h_acts pre app In] in I. repeat destruct I as [I|I]; try discriminate; try contradiction.
      injection I as <-. lia.
    - discriminate. }
  exists r. split; [exact E|].
  assert (code = 200) as ->.
  { apply (last_status_mid [] 200 [SetHeader (lit "content-length") n; SetHeader (lit "content-type") (VText (lit "application/json"))]) in L; auto.
    intros k I; cbn [In] in I; intuition discriminate. }
  cbn [written] in P. rewrite app_nil_r in P.
  destruct P as (hs & bs & P1 & P2 & P3 & P4). exists hs, bs. split; [auto|]. split; [auto|]. split; [|auto].
  intros k x. rewrite P3. unfold header_is, pre. clear.
  change (SetHeader (lit "content-length") (VInt 0) :: [SetStatus 200; SetHeader (lit "content-length") n; SetHeader (lit "content-type") (VText (lit "application/json"))])
    with ((([] ++ [SetHeader (lit "content-length") (VInt 0)]) ++ [SetStatus 200]) ++ [SetHeader (lit "content-length") n] ++ [SetHeader (lit "content-type") (VText (lit "application/json"))]).
  rewrite app_assoc. rewrite !last_set_snoc. cbn [sets].
  repeat match goal with |- context [lower (lit ?s)] => change (lower (lit s)) with (lit s) end.
  split.
  - intros [[<- <-]|[[[<- <-]|[[[]|[[[<- <-]|[B _]] _]] D]] _]]; auto.
    + destruct (D n). auto.
    + destruct (nil_not_set _ _ B).
  - intros [[-> ->]|[-> ->]]; [right|left; auto]. split; [left; auto|]. intros y [Y _]. discriminate.
Qed.
Print Assumptions reply_json.
Example reply_json_ex :
  exists r, router ex_texts false (Handler (json_acts (lit "{}" ++ [10])) None) new_resp = (r, true) /\
    parse_reply (r_sent r) = Some (200, [(lit "server", lit "imageio/2.5.0"); (lit "date", lit "Tue, 17 Nov 2026 00:00:00 GMT");
      (lit "content-length", lit "3"); (lit "content-type", lit "application/json")], lit "{}" ++ [10]).
Proof. eexists. split; vm_compute; reflexivity. Qed.

(* C81: the methods of a resource are called whatever the case of the request;
   any other method gets 405 and the handler is not run. *)
Theorem method_not_defined t unread x m q h :
  clean_texts t ->
  (forall k, In k (methods x) -> ~ same_name m (lit k)) ->
  exists r hd body, router t unread (method_handler x m q h) new_resp = (r, true) /\
    replies t (r_sent r) 405 hd body /\ method_handler x m q h = method_handler x m q (Handler [] None).
Proof.
  intros T N.
  assert (D : decorated x (lower m) = None).
  { assert (K : forall k, In k (methods x) -> lower (lit k) = lit k -> same (lower m) (lit k) = false).
    { intros k I L. unfold same. destruct (list_eq_dec Z.eq_dec (lower m) (lit k)) as [E|]; auto.
      exfalso. apply (N k I). apply lower_same. congruence. }
    unfold decorated. destruct x; cbn [methods] in K;
      rewrite ?(K "get"%string), ?(K "put"%string), ?(K "patch"%string), ?(K "options"%string) by (cbn [In]; auto 6); auto. }
  unfold method_handler. rewrite D.
  destruct (reply_error t unread [] (EHttp 405 (lit "Method not defined") None) T) as (r & hd & body & E & R & _).
  { intros a d []. }
  { split; [intros k y []|]. split; [intros n []|]. intros e [= <-]. cbn [clean_error]. split; [lia|]. split; [discriminate|discriminate]. }
  exists r, hd, body. auto.
Qed.
Theorem method_called x m k q h :
  In k (methods x) -> same_name m (lit k) ->
  h_raises (method_handler x m q h) = h_raises h /\
  exists l, h_acts (method_handler x m q h) = l ++ h_acts h /\
    (k = "patch"%string -> l = []) /\ forall a, In a l -> exists n v, a = SetHeader n v /\ cors_name n.
Proof.
  intros I E. apply lower_same in E. unfold method_handler. rewrite E.
  assert (C : forall c, h_raises (allow c q h) = h_raises h /\
    exists l, h_acts (allow c q h) = l ++ h_acts h /\ forall a, In a l -> exists n v, a = SetHeader n v /\ cors_name n).
  { intros c. split; [reflexivity|]. exists (cors_acts c q). split; [reflexivity|]. intros a A. unfold cors_acts in A.
    rewrite !in_app_iff in A. destruct (given q (lit "origin")), (given q (lit "access-control-request-headers")),
      (given q (lit "access-control-request-method")); cbn [orb In] in A;
      repeat match goal with H : _ \/ _ |- _ => destruct H as [H|H] end; try contradiction; subst a;
      eexists; eexists; (split; [reflexivity|]); unfold cors_name; cbn [map In]; auto. }
  assert (P : forall c, k <> "patch"%string -> h_raises (allow c q h) = h_raises h /\
    exists l, h_acts (allow c q h) = l ++ h_acts h /\
    (k = "patch"%string -> l = []) /\ forall a, In a l -> exists n v, a = SetHeader n v /\ cors_name n).
  { intros c NP. destruct (C c) as (A & l & B & D). split; auto. exists l. split; auto. split; auto. congruence. }
  assert (O : h_raises h = h_raises h /\ exists l, h_acts h = l ++ h_acts h /\
    (k = "patch"%string -> l = []) /\ forall a, In a l -> exists n v, a = SetHeader n v /\ cors_name n).
  { split; auto. exists []. split; auto. split; auto. intros a []. }
  destruct x; cbn [methods In] in I; repeat destruct I as [I|I]; try contradiction; subst k;
    match goal with |- context [decorated ?x (lower ?y)] =>
      let d := eval vm_compute in (decorated x (lower y)) in change (decorated x (lower y)) with d end; cbv iota;
    first [exact O|apply P; discriminate].
Qed.
Print Assumptions method_not_defined.
Print Assumptions method_called.
Example method_ex : same_name (lit "Patch") (lit "patch") /\ In "patch"%string (methods Images) /\
  forall k, In k (methods Info) -> ~ same_name (lit "POST") (lit k).
Proof.
  split; [apply lower_same; reflexivity|]. split; [cbn; auto|].
  intros k [<-|[]] H. apply lower_same in H. discriminate.
Qed.
