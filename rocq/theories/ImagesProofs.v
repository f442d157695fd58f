From Coq Require Import ZArith List Bool Ascii String Lia.
From Verif Require Import BytesLib HeaderModel HeaderSpec HeaderProofs HttpModel HttpProofs
  OpsModel OpsProofs OpsTheorems ImagesModel ImagesSpec.
Import ListNotations.
Open Scope Z_scope.

(* A result without the digit limit is the result with it, if there is one. *)
Lemma int_of_digits_mono lim s n : int_of_digits lim s = inl n -> int_of_digits None s = inl n.
Proof.
  unfold int_of_digits. destruct lim as [m|]; auto. destruct (_ <? _); [discriminate|auto].
Qed.

Lemma range_parse_mono lim h r : range_parse lim h = inl r -> range_parse None h = inl r.
Proof.
  unfold range_parse. destruct (range_rx h) as [[a b]|]; auto.
  destruct a as [|x a].
  - destruct b; auto. destruct (int_of_digits lim _) eqn:E; [|discriminate].
    apply int_of_digits_mono in E. rewrite E. auto.
  - destruct (int_of_digits lim (x :: a)) eqn:E; [|discriminate].
    apply int_of_digits_mono in E. rewrite E. cbn [bind].
    destruct b; auto. destruct (int_of_digits lim (_ :: b)) eqn:E'; [|discriminate].
    apply int_of_digits_mono in E'. rewrite E'. auto.
Qed.

Lemma content_range_parse_mono lim h r :
  content_range_parse lim h = inl r -> content_range_parse None h = inl r.
Proof.
  unfold content_range_parse. destruct (content_range_rx h) as [[[a b] c]|]; auto.
  destruct (int_of_digits lim a) eqn:E; [|discriminate].
  apply int_of_digits_mono in E. rewrite E. cbn [bind].
  destruct b as [b|].
  - destruct (int_of_digits lim b) eqn:Eb; [|discriminate].
    apply int_of_digits_mono in Eb. rewrite Eb. cbn [bind].
    destruct (_ <? _); [discriminate|]. cbn [bind].
    destruct c as [c|]; auto. destruct (int_of_digits lim c) eqn:Ec; [|discriminate].
    apply int_of_digits_mono in Ec. rewrite Ec. auto.
  - cbn [bind]. destruct c as [c|]; auto. destruct (int_of_digits lim c) eqn:Ec; [|discriminate].
    apply int_of_digits_mono in Ec. rewrite Ec. auto.
Qed.

Lemma content_range_first_nonneg lim h r : content_range_parse lim h = inl r -> 0 <= cr_first r.
Proof.
  intros E. apply content_range_parse_mono in E. destruct r as [f l c].
  apply content_range_parse_spec in E as (h' & _ & F). inversion F; subst.
  cbn. eapply decimal_nonneg; eauto.
Qed.

Lemma range_cases lim h r :
  range_parse lim h = inl r ->
  exists h' f, (h = h' \/ h = h' ++ [ascii_of_N 10]) /\ range_form h' f /\ r = range_of f.
Proof. intros E. apply range_parse_mono in E. apply range_parse_spec in E. exact E. Qed.

Lemma range_last lim h r l : range_parse lim h = inl r -> r_last r = Some l -> r_first r <= l.
Proof.
  intros E L. apply range_cases in E as (h' & f & _ & F & ->).
  inversion F; subst; cbn in *; try discriminate. injection L as <-. auto.
Qed.

Lemma integer_min msg name d n :
  (forall x, d = Some x -> 0 <= x) -> integer msg name 0 d = inl n -> 0 <= n.
Proof.
  intros D. unfold integer. destruct (get_item msg name) as [[[| b | z | | | |]|]|]; cbn;
    try discriminate.
  - destruct b; cbn; intros [= <-]; lia.
  - destruct (z <? 0) eqn:Z; [discriminate|]. intros [= <-]. lia.
  - destruct d; [|discriminate]. intros [= <-]. auto.
Qed.

Lemma byte_at_replaced img img' offset n f i :
  0 <= offset -> 0 <= n -> replaced img img' offset n f ->
  byte_at img' i <> byte_at img i ->
  0 <= i /\ ((offset <= i < offset + n) \/ zlen img <= i < offset + n).
Proof.
  intros Ho Hn (A & B & C) D. unfold byte_at in D.
  destruct (Z.leb_spec 0 i) as [P|P]; cbn [andb] in D; [|congruence].
  split; auto.
  destruct (Z.ltb_spec i (offset + n)); destruct (Z.leb_spec offset i); auto.
  - right. destruct (Z.ltb_spec i (zlen img)) as [Q|Q]; [|lia].
    exfalso. rewrite B in D by lia.
    destruct (Z.eqb_spec n 0) as [->|]; rewrite C in D.
    + replace (i <? zlen img) with true in D by lia. congruence.
    + replace (i <? Z.max (zlen img) (offset + n)) with true in D by lia. congruence.
  - exfalso. rewrite B in D by lia.
    destruct (Z.eqb_spec n 0) as [->|]; rewrite C in D.
    + congruence.
    + replace (i <? Z.max (zlen img) (offset + n)) with (i <? zlen img) in D; [congruence|].
      destruct (Z.ltb_spec i (zlen img)), (Z.ltb_spec i (Z.max (zlen img) (offset + n))); lia.
  - lia.
Qed.

(* Opening of a request: all the ways it is refused before an operation. *)
Definition refused (img : list byte) (a : answer) : Prop :=
  a_op a = None /\ a_img a = img /\ a_sent a = [] /\ a_log a = [] /\ a_err a <> None.

Lemma refuse_refused img c e : refused img (refuse img c e).
Proof. repeat split. discriminate. Qed.

Lemma enter_inl v q op tsize bs buf :
  enter v q op = inl (tsize, bs, buf) ->
  access v q op tsize /\ i_open v = Backend bs buf.
Proof.
  unfold enter, access. destruct (i_auth v (q_id q) op); [|discriminate].
  destruct (i_open v) as [[]|]; try discriminate. intros [= -> -> ->]. auto.
Qed.

Lemma put_cases v img q a :
  put v img q = Some a ->
  refused img a \/
  exists offset size flush tsize bs buf s e,
    content_length (i_lim v) (q_clen q) = inl (Some size) /\ 0 <= size /\ 0 <= offset /\
    (match q_crange q with
     | None => offset = 0
     | Some h => exists r, content_range_parse (i_lim v) h = inl r /\ offset = cr_first r
     end) /\
    enum_query (q_query q) (lits "flush") [lits "y"; lits "n"] (lits "y")
      = inl (if flush : bool then lits "y" else lits "n") /\
    access v q "write" tsize /\ i_open v = Backend bs buf /\ i_refused v = false /\
    offset + size <= tsize /\
    write_run (i_fuel v) img (q_data q) bs (zlen buf) offset (Some size) flush (i_write v)
      = Some (s, e) /\
    a = Answer (Some (OpWrite offset size flush)) 200 None None [] (w_img s) (w_log s)
          (wants_close q || snd (op_result (i_canceled v) e)) (fst (op_result (i_canceled v) e)).
Proof.
  intros E. unfold put in E.
  assert (R : forall c e, Some (refuse img c e) = Some a -> refused img a)
    by (intros c e [= <-]; apply refuse_refused).
  destruct (q_id q) as [|c0 id0] eqn:I; [left; eauto|].
  destruct (content_length _ _) as [[size|]|e] eqn:CL; [|left; eauto|left; eauto].
  assert (0 <= size) by (eapply content_length_nonneg; eauto).
  destruct (match q_crange q with
            | Some _ => _ | None => inl 0 end) as [offset|e] eqn:CR; [|left; eauto].
  assert (O : 0 <= offset /\
    match q_crange q with
     | None => offset = 0
     | Some h => exists r, content_range_parse (i_lim v) h = inl r /\ offset = cr_first r
     end).
  { destruct (q_crange q) as [h|]; [|injection CR as <-; split; auto; lia].
    destruct (content_range_parse _ h) as [r|] eqn:P; [|discriminate].
    injection CR as <-. split; [eapply content_range_first_nonneg; eauto|eauto]. }
  clear CR. destruct O as [O1 O2].
  destruct (enum_query _ _ _ _) as [f|e] eqn:F; [|left; eauto].
  assert (F' : f = lits "y" \/ f = lits "n").
  { unfold enum_query in F. destruct (lookup _ _); [|injection F as <-; auto].
    destruct (existsb _ _) eqn:X; [|discriminate]. injection F as <-.
    apply existsb_str in X. cbn in X. intuition auto. }
  destruct (enter v q "write") as [[[tsize bs] buf]|[e c]] eqn:EN; [|left; eauto].
  apply enter_inl in EN as [A B].
  unfold allowed_range in E. destruct (Z.gtb_spec (offset + size) tsize); [left; eauto|].
  destruct (i_refused v) eqn:RF; [left; eauto|].
  destruct (write_run _ _ _ _ _ _ _ _ _) as [[s e]|] eqn:W; [|discriminate].
  destruct (op_result (i_canceled v) e) as [err c] eqn:OR.
  injection E as <-. right.
  exists offset, size, (str_eqb f (lits "y")), tsize, bs, buf, s, e.
  rewrite OR. repeat split; auto.
  destruct F' as [->| ->]; reflexivity.
Qed.

Lemma zero_cases v img q msg a :
  patch_zero v img q msg = Some a ->
  refused img a \/
  exists offset size flush tsize bs buf s e,
    integer msg (lits "size") 0 None = inl size /\
    integer msg (lits "offset") 0 (Some 0) = inl offset /\
    boolean msg (lits "flush") false = inl flush /\ 0 <= size /\ 0 <= offset /\
    access v q "write" tsize /\ i_open v = Backend bs buf /\ i_refused v = false /\
    offset + size <= tsize /\
    zero_run (i_fuel v) img offset size flush (i_write v) = Some (s, e) /\
    a = Answer (Some (OpZero offset size flush)) 200 None None [] (w_img s) (w_log s)
          (snd (op_result (i_canceled v) e)) (fst (op_result (i_canceled v) e)).
Proof.
  intros E. unfold patch_zero in E.
  assert (R : forall c e, Some (refuse img c e) = Some a -> refused img a)
    by (intros c e [= <-]; apply refuse_refused).
  destruct (integer msg (lits "size") 0 None) as [size|] eqn:S; cbn [hbind] in E; [|left; eauto].
  destruct (integer msg (lits "offset") 0 (Some 0)) as [offset|] eqn:O; cbn [hbind] in E;
    [|left; eauto].
  destruct (boolean msg (lits "flush") false) as [flush|] eqn:F; cbn [hbind] in E; [|left; eauto].
  assert (0 <= size) by (eapply integer_min; [|exact S]; discriminate).
  assert (0 <= offset).
  { eapply integer_min; [|exact O]. intros x [= <-]. lia. }
  destruct (enter v q "write") as [[[tsize bs] buf]|[e c]] eqn:EN; [|left; eauto].
  apply enter_inl in EN as [A B].
  unfold allowed_range in E. destruct (Z.gtb_spec (offset + size) tsize); [left; eauto|].
  destruct (i_refused v) eqn:RF; [left; eauto|].
  destruct (zero_run _ _ _ _ _ _) as [[s e]|] eqn:W; [|discriminate].
  destruct (op_result (i_canceled v) e) as [err c] eqn:OR.
  injection E as <-. right.
  exists offset, size, flush, tsize, bs, buf, s, e. rewrite OR. repeat split; auto.
Qed.

Lemma flush_cases v img q a :
  patch_flush v img q = Some a ->
  refused img a \/
  exists tsize, access v q "write" tsize /\
    a = Answer (Some OpFlush) 200 None None [] img [EFlush]
          (i_canceled v) (if i_canceled v then Some (EHttp 403)
                          else if wo_flush (i_write v) then None else Some EOther).
Proof.
  intros E. unfold patch_flush in E.
  assert (R : forall c e, Some (refuse img c e) = Some a -> refused img a)
    by (intros c e [= <-]; apply refuse_refused).
  destruct (enter v q "write") as [[[tsize bs] buf]|[e c]] eqn:EN; [|left; eauto].
  apply enter_inl in EN as [A B].
  destruct (i_refused v) eqn:RF; [left; eauto|].
  unfold flush_run, finish in E. right. exists tsize. split; auto.
  unfold op_result in E. destruct (i_canceled v), (wo_flush (i_write v)); cbn in E;
    injection E as <-; reflexivity.
Qed.

Lemma patch_cases v img q a :
  patch v img q = Some a ->
  refused img a \/
  exists msg, q_json q = inl msg /\
    (get_item msg (lits "op") = inl (Some (JStr (lits "zero"))) /\
       patch_zero v img q msg = Some a
     \/ get_item msg (lits "op") = inl (Some (JStr (lits "flush"))) /\
        patch_flush v img q = Some a).
Proof.
  intros E. unfold patch in E.
  assert (R : forall c e, Some (refuse img c e) = Some a -> refused img a)
    by (intros c e [= <-]; apply refuse_refused).
  destruct (q_id q) as [|c0 id0] eqn:I; [left; eauto|].
  destruct (q_json q) as [msg|e]; [|left; eauto].
  destruct (enum_json msg (lits "op") [lits "zero"; lits "flush"]) as [op|e] eqn:O;
    [|left; eauto].
  right. exists msg. split; auto. unfold enum_json in O.
  destruct (get_item msg (lits "op")) as [[[| | | | s | |]|]|]; cbn [hbind] in O; try discriminate.
  destruct (existsb _ _) eqn:X; [|discriminate]. injection O as <-.
  apply existsb_str in X. cbn in X. destruct X as [<-|[<-|[]]]; auto.
Qed.

Lemma get_cases v img q a :
  get v img q = Some a ->
  refused img a \/
  exists offset size tsize bs buf,
    0 <= offset /\ asks_from q offset /\
    access v q "read" tsize /\ i_open v = Backend bs buf /\
    (match q_range q with
     | None => size = Z.min tsize (zlen img)
     | Some h => exists r, range_parse (i_lim v) h = inl r /\ offset = r_first r /\
         match r_last r with
         | None => size = Z.min tsize (zlen img) - offset
         | Some l => size = l - offset + 1 /\ 0 < size /\ offset + size <= Z.min tsize (zlen img)
         end
     end) /\
    (a_img a = img /\ a_log a = [] /\
     a_status a = (match q_range q with Some _ => 206 | None => 200 end) /\
     a_length a = Some size /\
     a_crange a = (match q_range q with Some _ => Some (offset, offset + size - 1, tsize)
                                      | None => None end)) /\
    (i_refused v = true /\ a_op a = None /\ a_sent a = [] /\ a_close a = true /\
       a_err a = Some (EHttp 403)
     \/ i_refused v = false /\ exists s e,
          read_run (i_fuel v) img buf bs offset size (i_read v) = Some (s, e) /\
          a_op a = Some (OpRead offset size) /\ a_sent a = r_sent s /\
          a_close a = wants_close q || snd (op_result (i_canceled v) e) /\
          a_err a = fst (op_result (i_canceled v) e)).
Proof.
  intros E. unfold get in E.
  assert (R : forall c e, Some (refuse img c e) = Some a -> refused img a)
    by (intros c e [= <-]; apply refuse_refused).
  destruct (q_id q) as [|c0 id0] eqn:I; [left; eauto|].
  destruct (match q_range q with Some _ => _ | None => _ end) as [[offset osize]|e] eqn:RG;
    [|left; eauto].
  assert (G : 0 <= offset /\ asks_from q offset /\
    match q_range q with
    | None => osize = None /\ offset = 0
    | Some h => exists r, range_parse (i_lim v) h = inl r /\ offset = r_first r /\
        match r_last r with
        | None => osize = None
        | Some l => osize = Some (l - offset + 1) /\ 0 < l - offset + 1
        end
    end).
  { unfold asks_from. destruct (q_range q) as [h|]; [|injection RG as <- <-; repeat split; lia].
    destruct (range_parse (i_lim v) h) as [r|] eqn:P; [|discriminate].
    destruct (Z.ltb_spec (r_first r) 0); [discriminate|].
    injection RG as <- <-. split; auto. split.
    - pose proof P as P'. apply range_cases in P' as (h' & f & Hh & F & ->).
      exists f, h'. split; auto. split; auto. inversion F; subst; cbn in *; auto.
      apply decimal_nonneg in H0. lia.
    - exists r. split; auto. split; auto. destruct (r_last r) as [l|] eqn:L; auto.
      split; auto. pose proof (range_last _ _ _ _ P L). lia. }
  clear RG. destruct G as (G1 & G2 & G3).
  destruct (enter v q "read") as [[[tsize bs] buf]|[e c]] eqn:EN; [|left; eauto].
  apply enter_inl in EN as [A B].
  destruct (match osize with Some _ => _ | None => _ end) as [size|e] eqn:SZ; [|left; eauto].
  assert (G4 : match q_range q with
     | None => size = Z.min tsize (zlen img)
     | Some h => exists r, range_parse (i_lim v) h = inl r /\ offset = r_first r /\
         match r_last r with
         | None => size = Z.min tsize (zlen img) - offset
         | Some l => size = l - offset + 1 /\ 0 < size /\ offset + size <= Z.min tsize (zlen img)
         end
     end).
  { destruct (q_range q) as [h|].
    - destruct G3 as (r & P & O & L). exists r. split; auto. split; auto.
      destruct (r_last r) as [l|].
      + destruct L as [-> L]. unfold allowed_range, available_range in SZ.
        destruct (Z.gtb_spec (offset + (l - offset + 1)) tsize); [discriminate|]. cbn [hbind] in SZ.
        destruct (Z.gtb_spec (offset + (l - offset + 1)) (Z.min tsize (zlen img))); [discriminate|].
        cbn [hbind] in SZ. injection SZ as <-. lia.
      + subst osize. injection SZ as <-. reflexivity.
    - destruct G3 as [-> ->]. injection SZ as <-. lia. }
  right. exists offset, size, tsize, bs, buf.
  destruct (i_refused v) eqn:RF.
  - injection E as <-. cbn. destruct (q_range q); repeat split; auto; left; auto.
  - destruct (read_run _ _ _ _ _ _ _) as [[s e]|] eqn:W; [|discriminate].
    destruct (op_result (i_canceled v) e) as [err c] eqn:OR.
    injection E as <-. cbn [a_img a_log a_status a_length a_crange a_op a_sent a_close a_err].
    destruct (q_range q); repeat split; auto; right; (split; auto);
      exists s, e; rewrite OR; repeat split; auto.
Qed.

Lemma op_result_none c e : fst (op_result c e) = None -> c = false /\ (e = Success \/ e = Canceled).
Proof. unfold op_result. destruct c; [discriminate|]. destruct e; cbn; intros; try discriminate; auto. Qed.

(* Errors of the checks made before authorization. *)
Definition bad_request (e : exc) : Prop :=
  e = EHttp 400 \/ e = EHttp 416 \/ e = EOther \/ e = EOSError.

Lemma range_parse_bad lim h e : range_parse lim h = inr e -> bad_request (hexc_exc e).
Proof.
  unfold range_parse, int_of_digits, bad_request.
  destruct (range_rx h) as [[[|x a] [|y b]]|]; cbn [bind];
    repeat match goal with |- context [if ?b then _ else _] => destruct b; cbn [bind] end;
    intros [= <-]; cbn; auto.
Qed.

Lemma content_range_parse_bad lim h e :
  content_range_parse lim h = inr e -> bad_request (hexc_exc e).
Proof.
  unfold content_range_parse, int_of_digits, bad_request.
  destruct (content_range_rx h) as [[[a [b|]] [c|]]|]; cbn [bind];
    repeat match goal with |- context [if ?b then _ else _] => destruct b; cbn [bind] end;
    intros [= <-]; cbn; auto.
Qed.

Lemma enum_query_bad q n l d e : enum_query q n l d = inr e -> bad_request e.
Proof.
  unfold enum_query, bad_request. destruct (lookup q n); [|discriminate].
  destruct (existsb _ _); [discriminate|]. intros [= <-]; auto.
Qed.

Lemma get_item_bad m n e : get_item m n = inr e -> bad_request e.
Proof. unfold get_item, bad_request. destruct m; intros [= <-]; auto. Qed.

Lemma enum_json_bad m n l e : enum_json m n l = inr e -> bad_request e.
Proof.
  unfold enum_json. destruct (get_item m n) as [v|x] eqn:E; cbn [hbind].
  - unfold bad_request. destruct v as [[| | | | s | |]|]; try (intros [= <-]; auto).
    destruct (existsb _ _); [discriminate|]. intros [= <-]; auto.
  - intros [= <-]. eapply get_item_bad; eauto.
Qed.

Lemma integer_bad m n k d e : integer m n k d = inr e -> bad_request e.
Proof.
  unfold integer. destruct (get_item m n) as [v|x] eqn:E; cbn [hbind].
  - unfold bad_request. destruct v as [[| | | | s | |]|]; try (intros [= <-]; auto).
    + destruct (_ <? _); [intros [= <-]; auto|discriminate].
    + destruct (_ <? _); [intros [= <-]; auto|discriminate].
    + destruct d; [discriminate|]. intros [= <-]; auto.
  - intros [= <-]. eapply get_item_bad; eauto.
Qed.

Lemma boolean_bad m n d e : boolean m n d = inr e -> bad_request e.
Proof.
  unfold boolean. destruct (get_item m n) as [v|x] eqn:E; cbn [hbind].
  - unfold bad_request. destruct v as [[| | | | s | |]|]; try (intros [= <-]; auto); discriminate.
  - intros [= <-]. eapply get_item_bad; eauto.
Qed.

(* A request without access: refused, with 403 and the connection closed, or
   because of an earlier check. *)
Definition denied (img : list byte) (a : answer) : Prop :=
  refused img a /\
  exists e, a_err a = Some e /\ (e = EHttp 403 /\ a_close a = true \/ bad_request e).

Lemma denied_403 img : denied img (refuse img true (EHttp 403)).
Proof. split; [apply refuse_refused|]. exists (EHttp 403). cbn. auto. Qed.

Lemma denied_bad img c e : bad_request e -> denied img (refuse img c e).
Proof. intros H. split; [apply refuse_refused|]. exists e. cbn. auto. Qed.

Lemma enter_none v q op : no_access v q op -> enter v q op = inr (EHttp 403, true).
Proof.
  unfold enter. intros [-> | H]; [reflexivity|]. rewrite H.
  destruct (i_auth v (q_id q) op); reflexivity.
Qed.

Lemma bad400 : bad_request (EHttp 400).
Proof. unfold bad_request; auto. Qed.

Lemma get_denied v img q a :
  get v img q = Some a -> no_access v q "read" -> denied img a.
Proof.
  intros E A. apply enter_none in A. unfold get in E. rewrite A in E.
  destruct (q_id q); [injection E as <-; apply denied_bad, bad400|].
  destruct (match q_range q with Some _ => _ | None => _ end) as [[o sz]|e] eqn:R.
  - injection E as <-. rewrite orb_true_r. apply denied_403.
  - injection E as <-. apply denied_bad. destruct (q_range q) as [h|]; [|discriminate].
    destruct (range_parse (i_lim v) h) as [r|x] eqn:P.
    + destruct (_ <? _); [|discriminate]. injection R as <-. unfold bad_request; auto.
    + injection R as <-. eapply range_parse_bad; eauto.
Qed.

Lemma put_denied v img q a :
  put v img q = Some a -> no_access v q "write" -> denied img a.
Proof.
  intros E A. apply enter_none in A. unfold put in E. rewrite A in E.
  destruct (q_id q); [injection E as <-; apply denied_bad, bad400|].
  destruct (content_length _ _) as [[size|]|e] eqn:CL.
  2:{ injection E as <-. apply denied_bad, bad400. }
  2:{ apply content_length_error in CL. subst. injection E as <-. apply denied_bad, bad400. }
  destruct (match q_crange q with Some _ => _ | None => _ end) as [o|e] eqn:R.
  - destruct (enum_query _ _ _ _) as [f|e] eqn:F.
    + injection E as <-. rewrite orb_true_r. apply denied_403.
    + injection E as <-. apply denied_bad. eapply enum_query_bad; eauto.
  - injection E as <-. apply denied_bad. destruct (q_crange q) as [h|]; [|discriminate].
    destruct (content_range_parse (i_lim v) h) as [r|x] eqn:P; [discriminate|].
    injection R as <-. eapply content_range_parse_bad; eauto.
Qed.

Lemma patch_denied v img q a :
  patch v img q = Some a -> no_access v q "write" -> denied img a.
Proof.
  intros E A. apply enter_none in A. unfold patch in E.
  destruct (q_id q); [injection E as <-; apply denied_bad, bad400|].
  destruct (q_json q) as [msg|f].
  2:{ injection E as <-. apply denied_bad. destruct f; unfold bad_request; cbn; auto. }
  destruct (enum_json _ _ _) as [op|e] eqn:J.
  2:{ injection E as <-. apply denied_bad. eapply enum_json_bad; eauto. }
  destruct (str_eqb op _).
  - unfold patch_zero in E. rewrite A in E.
    destruct (integer msg (lits "size") 0 None) as [n|x] eqn:S; cbn [hbind] in E.
    2:{ injection E as <-. apply denied_bad. eapply integer_bad; eauto. }
    destruct (integer msg (lits "offset") 0 (Some 0)) as [o|x] eqn:O; cbn [hbind] in E.
    2:{ injection E as <-. apply denied_bad. eapply integer_bad; eauto. }
    destruct (boolean msg (lits "flush") false) as [b|x] eqn:B; cbn [hbind] in E.
    2:{ injection E as <-. apply denied_bad. eapply boolean_bad; eauto. }
    injection E as <-. apply denied_403.
  - unfold patch_flush in E. rewrite A in E. injection E as <-. apply denied_403.
Qed.

(* ---- operations that are not canceled ---- *)

Lemma read_chunk_nc img bs size skip s a s' e :
  ra_cancel a = false -> read_chunk img bs size skip s a = (s', Some e) -> e <> Canceled.
Proof.
  unfold read_chunk. intros C. cbv zeta. rewrite C.
  destruct (negb _); [intros [= _ <-]; discriminate|].
  destruct (ra_count a); [|intros [= _ <-]; discriminate].
  destruct (_ =? 0); [intros [= _ <-]; discriminate|].
  destruct (ra_send a); intros X; inversion X; discriminate.
Qed.

Lemma read_run_nc img buf bs offset size o fuel s e :
  (forall i, ra_cancel (o i) = false) ->
  read_run fuel img buf bs offset size o = Some (s, e) -> e <> Canceled.
Proof.
  intros C.
  assert (L : forall fuel s0, read_loop fuel img bs size o s0 = Some (s, e) -> e <> Canceled).
  { clear fuel. induction fuel as [|fuel IH]; [discriminate|]. intros s0. cbn [read_loop].
    destruct (_ =? 0); [intros [= _ <-]; discriminate|].
    destruct (read_chunk _ _ _ _ _ _) as [s1 [x|]] eqn:E; [|apply IH].
    intros [= _ <-]. eapply read_chunk_nc; eauto. }
  unfold read_run. destruct (_ =? 0); [apply L|].
  destruct (read_chunk _ _ _ _ _ _) as [s1 [x|]] eqn:E; [|apply L].
  intros [= _ <-]. eapply read_chunk_nc; eauto.
Qed.

Lemma fill_nc o buflen count : forall fuel s got s' got' e,
  fill fuel o buflen count s got = Some (s', got', Some e) -> e <> Canceled.
Proof.
  induction fuel as [|fuel IH]; [discriminate|]. intros s got s' got' e. cbn [fill].
  destruct (_ <? _); [|discriminate]. destruct (wo_read _ _); [|intros [= _ _ <-]; discriminate].
  cbv zeta. destruct (_ =? 0); [discriminate|]. apply IH.
Qed.

Lemma drain_nc o : forall fuel s data s' e,
  drain fuel o s data = Some (s', Some e) -> e <> Canceled.
Proof.
  induction fuel as [|fuel IH]; [discriminate|]. intros s data s' e. cbn [drain].
  destruct data; [discriminate|]. destruct (wo_write _ _); [apply IH|].
  intros [= _ <-]. discriminate.
Qed.

Lemma write_chunk_nc fuel o buflen size count s s' e :
  (forall i, wo_cancel o i = false) ->
  write_chunk fuel o buflen size count s = Some (s', Stop e) -> e <> Canceled.
Proof.
  intros C. unfold write_chunk.
  destruct (fill _ _ _ _ _ _) as [[[s1 got] [x|]]|] eqn:F; [| |discriminate].
  - intros [= _ <-]. eapply fill_nc; eauto.
  - destruct (drain _ _ _ _) as [[s2 [x|]]|] eqn:D; [| |discriminate].
    + intros [= _ <-]. eapply drain_nc; eauto.
    + cbv zeta. rewrite C. destruct (_ <? _); [|discriminate].
      destruct size; intros X; inversion X; discriminate.
Qed.

Lemma finish_nc o flush s s' e : finish o flush s = (s', e) -> e <> Canceled.
Proof.
  unfold finish. destruct flush; [destruct (wo_flush o)|]; intros X; inversion X; discriminate.
Qed.

Lemma write_run_nc fuel img body bs buflen offset size flush o s e :
  (forall i, wo_cancel o i = false) ->
  write_run fuel img body bs buflen offset size flush o = Some (s, e) -> e <> Canceled.
Proof.
  intros C.
  assert (L : forall fuel s0 s1 x, write_loop fuel o buflen size s0 = Some (s1, Stop x) ->
                x <> Canceled).
  { clear fuel. induction fuel as [|fuel IH]; [discriminate|]. intros s0 s1 x. cbn [write_loop].
    destruct (_ =? 0); [discriminate|].
    destruct (write_chunk _ _ _ _ _ _) as [[s2 [| |y]]|] eqn:E; try discriminate; [apply IH|].
    intros [= _ <-]. eapply write_chunk_nc; eauto. }
  assert (P : forall r, match r with
     | None => None
     | Some (s, Stop e) => Some (s, e)
     | Some (s, _) => Some (finish o flush s)
     end = Some (s, e) -> (forall s1 x, r = Some (s1, Stop x) -> x <> Canceled) -> e <> Canceled).
  { intros r E H. destruct r as [[s1 [| |x]]|]; [| | |discriminate].
    - injection E as E. eapply finish_nc; eauto.
    - injection E as E. eapply finish_nc; eauto.
    - injection E as <- <-. eapply H; eauto. }
  unfold write_run. intros E. eapply P; [exact E|].
  intros s1 x. destruct (_ =? 0); [apply L|].
  destruct (write_chunk _ _ _ _ _ _) as [[s2 [| |y]]|] eqn:E'; try discriminate; [apply L|].
  intros [= _ <-]. eapply write_chunk_nc; eauto.
Qed.

Lemma zero_run_nc fuel img offset size flush o s e :
  (forall i, wo_cancel o i = false) ->
  zero_run fuel img offset size flush o = Some (s, e) -> e <> Canceled.
Proof.
  intros C.
  assert (L : forall fuel s0 s1 x, zero_loop fuel o size s0 = Some (s1, Some x) -> x <> Canceled).
  { clear fuel. induction fuel as [|fuel IH]; [discriminate|]. intros s0 s1 x. cbn [zero_loop].
    destruct (_ =? 0); [discriminate|]. destruct (wo_write _ _).
    - rewrite C. apply IH.
    - intros [= _ <-]. discriminate. }
  unfold zero_run. destruct (zero_loop _ _ _ _) as [[s1 [x|]]|] eqn:E; [| |discriminate].
  - intros [= _ <-]. eapply L; eauto.
  - intros [= X]. eapply finish_nc; eauto.
Qed.
