From Coq Require Import ZArith List Bool Ascii String Lia.
From Verif Require Import BytesLib HeaderModel HeaderSpec HeaderProofs HttpModel OpsModel OpsProofs OpsTheorems
  ImagesModel ImagesSpec ImagesProofs ImagesTheorems ExtentsModel HttpBackendModel HttpBackendSpec.
Import ListNotations.
Open Scope Z_scope.

(* ---- numbers ---- *)

Lemma digit_chr_digit v : 0 <= v < 10 -> digit (digit_chr v) v.
Proof.
  intros H. split; [lia|].
  assert (C : v = 0 \/ v = 1 \/ v = 2 \/ v = 3 \/ v = 4 \/ v = 5 \/ v = 6 \/ v = 7 \/ v = 8 \/ v = 9) by lia.
  repeat (destruct C as [->|C]; [reflexivity|]). subst; reflexivity.
Qed.

Lemma rdigits_decimal fuel : forall n, 0 <= n < 10 ^ Z.of_nat (S fuel) ->
  decimal (rev (rdigits (S fuel) n)) n.
Proof.
  induction fuel as [|fuel IH]; intros n H.
  - cbn [rdigits]. replace (n <? 10) with true by (cbn in H; lia). cbn [rev app].
    rewrite Z.mod_small by (cbn in H; lia). constructor. apply digit_chr_digit. cbn in H. lia.
  - remember (S fuel) as f. cbn [rdigits].
    destruct (Z.ltb_spec n 10).
    + cbn [rev app]. rewrite Z.mod_small by lia. constructor. apply digit_chr_digit. lia.
    + cbn [rev]. rewrite (Z.div_mod n 10) at 3 by lia. constructor.
      * subst f. apply IH. split; [apply Z.div_pos; lia|].
        apply Z.div_lt_upper_bound; [lia|].
        rewrite Nat2Z.inj_succ, Z.pow_succ_r in H by lia. lia.
      * apply digit_chr_digit. apply Z.mod_pos_bound. lia.
Qed.

Lemma pow_2_10 n : 0 <= n -> 2 ^ n <= 10 ^ n.
Proof. intros. apply Z.pow_le_mono_l. lia. Qed.

Lemma nat_decimal n : 0 <= n -> decimal (rev (rdigits (S (Z.to_nat (Z.log2 n))) n)) n.
Proof.
  intros H. apply rdigits_decimal. split; auto.
  pose proof (Z.log2_nonneg n). rewrite Nat2Z.inj_succ, Z2Nat.id by lia.
  destruct (Z.eq_dec n 0) as [->|]; [cbn; lia|].
  pose proof (Z.log2_spec n ltac:(lia)). pose proof (pow_2_10 (Z.succ (Z.log2 n)) ltac:(lia)). lia.
Qed.

Lemma show_decimal n : 0 <= n -> decimal (show n) n.
Proof.
  intros H. unfold show. replace (n <? 0) with false by lia. apply nat_decimal. auto.
Qed.

Lemma show_neg n : n < 0 -> exists ds, decimal ds (- n) /\ show n = lit "-" ++ ds.
Proof.
  intros H. unfold show. replace (n <? 0) with true by lia.
  eexists. split; [apply nat_decimal; lia|reflexivity].
Qed.

Lemma show_digits n : 0 <= n -> show n <> [] /\ digits (show n).
Proof. intros H. apply show_decimal in H. apply decimal_spec in H. tauto. Qed.

Lemma int_of_show lim n m : 0 <= n -> int_of_digits lim (show n) = inl m -> m = n.
Proof.
  intros H E. apply int_of_digits_mono in E. rewrite int_of_digits_none in E.
  apply show_decimal in H. apply decimal_spec in H as (_ & _ & H). congruence.
Qed.

Definition range_text (a b : Z) : str := lits "bytes=" ++ show a ++ lits "-" ++ show b.
Definition crange_text (a b : Z) : str := lits "bytes " ++ show a ++ lits "-" ++ show b ++ lits "/*".

Lemma range_rx_show a b : 0 <= a -> 0 <= b -> range_rx (range_text a b) = Some (show a, show b).
Proof.
  intros A B. apply range_rx_spec. split; [apply show_digits; auto|].
  split; [apply show_digits; auto|]. exists []. split; auto.
  rewrite app_nil_r. reflexivity.
Qed.

Lemma range_rx_neg a b : a < 0 \/ b < 0 -> range_rx (range_text a b) = None.
Proof.
  intros H. destruct (range_rx (range_text a b)) as [[x y]|] eqn:E; auto. exfalso.
  unfold range_rx, range_text in E.
  destruct (skip_prefix _ _) as [s|] eqn:P; [|discriminate].
  apply skip_prefix_spec in P. apply app_inv_head in P. subst s.
  destruct (Z.ltb_spec a 0) as [A|A].
  - destruct (show_neg a A) as (ds & D & S). rewrite S in E. cbn [lit list_ascii_of_string app] in E.
    cbn [span_digits is_digit] in E. change (is_digit "-") with false in E. cbn iota in E.
    unfold chr in E. cbn [skip_prefix] in E. rewrite Ascii.eqb_refl in E.
    apply decimal_digits in D. cbn [lits list_ascii_of_string app] in E.
    rewrite span_digits_app in E; [|auto|reflexivity].
    change (lits "-" ++ show b) with ("-"%char :: show b) in E. cbn [at_end] in E.
    destruct (show b) eqn:SB; [|discriminate]. cbn in E. discriminate.
  - assert (B : b < 0) by lia. destruct (show_neg b B) as (ds & D & S). rewrite S in E.
    rewrite span_digits_app in E; [|apply show_digits; auto|reflexivity].
    unfold chr in E. cbn [lits lit list_ascii_of_string app skip_prefix] in E.
    rewrite Ascii.eqb_refl in E. cbn [span_digits] in E. change (is_digit "-") with false in E.
    cbn iota in E. cbn [at_end] in E. destruct ds; discriminate.
Qed.

Lemma range_parse_show lim a b r : range_parse lim (range_text a b) = inl r ->
  0 <= a <= b /\ r = Range a (Some b).
Proof.
  intros E. unfold range_parse in E.
  destruct (Z.ltb_spec a 0); [rewrite range_rx_neg in E by auto; discriminate|].
  destruct (Z.ltb_spec b 0); [rewrite range_rx_neg in E by auto; discriminate|].
  rewrite range_rx_show in E by auto.
  destruct (show_digits a) as [A1 A2]; auto. destruct (show_digits b) as [B1 B2]; auto.
  destruct (show a) as [|x y] eqn:SA; [tauto|]. rewrite <- SA in E.
  destruct (show b) as [|z t] eqn:SB; [tauto|]. rewrite <- SB in E.
  destruct (int_of_digits lim (show a)) as [n|] eqn:IA; [|discriminate].
  destruct (int_of_digits lim (show b)) as [m|] eqn:IB; [|discriminate].
  cbn [bind] in E. apply int_of_show in IA; auto. apply int_of_show in IB; auto. subst n m.
  destruct (Z.ltb_spec b a); [discriminate|]. injection E as <-. split; [lia|reflexivity].
Qed.

Lemma crange_rx_show a b : 0 <= a -> 0 <= b ->
  content_range_rx (crange_text a b) = Some (show a, Some (show b), None).
Proof.
  intros A B. apply content_range_rx_spec.
  split; [apply show_digits; auto|]. split; [apply show_digits; auto|].
  split; [cbn; apply show_digits; auto|]. split; [exact I|].
  exists []. split; auto.
Qed.

Lemma crange_rx_neg a b : a < 0 \/ b < 0 -> content_range_rx (crange_text a b) = None.
Proof.
  intros H. destruct (content_range_rx (crange_text a b)) as [[[x y] z]|] eqn:E; auto. exfalso.
  unfold content_range_rx, crange_text in E.
  destruct (skip_prefix _ _) as [s|] eqn:P; [|discriminate].
  apply skip_prefix_spec in P. apply app_inv_head in P. subst s.
  destruct (Z.ltb_spec a 0) as [A|A].
  - destruct (show_neg a A) as (ds & D & S). rewrite S in E. cbn in E. discriminate.
  - assert (B : b < 0) by lia. destruct (show_neg b B) as (ds & D & S). rewrite S in E.
    rewrite digits1_app in E; [|apply show_digits; auto|apply show_digits; auto|reflexivity].
    unfold chr in E. cbn [lits list_ascii_of_string app skip_prefix] in E.
    rewrite Ascii.eqb_refl in E. cbn in E. discriminate.
Qed.

Lemma crange_parse_show lim a b r : content_range_parse lim (crange_text a b) = inl r ->
  0 <= a <= b /\ r = ContentRange a (Some b) None.
Proof.
  intros E. unfold content_range_parse in E.
  destruct (Z.ltb_spec a 0); [rewrite crange_rx_neg in E by auto; discriminate|].
  destruct (Z.ltb_spec b 0); [rewrite crange_rx_neg in E by auto; discriminate|].
  rewrite crange_rx_show in E by auto.
  destruct (int_of_digits lim (show a)) as [n|] eqn:IA; [|discriminate].
  destruct (int_of_digits lim (show b)) as [m|] eqn:IB; [|discriminate].
  cbn [bind] in E. apply int_of_show in IA; auto. apply int_of_show in IB; auto. subst n m.
  destruct (Z.ltb_spec b a); [discriminate|]. injection E as <-. split; [lia|reflexivity].
Qed.

Lemma clen_show lim n m : 0 <= n -> content_length lim (Some (show n)) = inl (Some m) -> m = n.
Proof.
  intros H E.
  assert (X : content_length None (Some (show n)) = inl (Some m)).
  { unfold content_length in *. unfold py_int in *.
    destruct (strip (show n)) as [|c r]; [discriminate|].
    destruct (Ascii.eqb c "-").
    - destruct (int_digits r); [|discriminate]. destruct (int_of_digits lim s) eqn:I; [|discriminate].
      apply int_of_digits_mono in I. rewrite I. auto.
    - destruct (Ascii.eqb c "+").
      + destruct (int_digits r); [|discriminate]. destruct (int_of_digits lim s) eqn:I; [|discriminate].
        apply int_of_digits_mono in I. rewrite I. auto.
      + destruct (int_digits (c :: r)); [|discriminate].
        destruct (int_of_digits lim s) eqn:I; [|discriminate].
        apply int_of_digits_mono in I. rewrite I. auto. }
  rewrite (content_length_decimal None (show n) n) in X; [congruence|apply show_decimal; auto|discriminate].
Qed.

(* ---- the server ---- *)

Definition error_code (e : exc) : Prop := forall c, e = EHttp c -> 400 <= c.

Lemma bad_error e : bad_request e -> error_code e.
Proof. intros [->|[->|[->| ->]]] c [= <-]; lia. Qed.

Lemma enter_bad v q op e c : enter v q op = inr (e, c) -> error_code e.
Proof.
  unfold enter. destruct (i_auth _ _ _) as [t|].
  - destruct (i_open v) as [[]|]; intros [= <- <-] x [= <-]; lia.
  - intros [= <- <-] x [= <-]; lia.
Qed.

Lemma op_result_bad c r e : fst (op_result c r) = Some e -> error_code e.
Proof.
  unfold op_result. destruct c; [intros [= <-] x [= <-]; lia|].
  destruct r; try discriminate; intros [= <-] x [= <-]; lia.
Qed.

Lemma refuse_code img c e x : error_code e -> a_err (refuse img c e) = Some x -> error_code x.
Proof. intros H [= <-]. auto. Qed.

Lemma code_403 : error_code (EHttp 403). Proof. intros c [= <-]; lia. Qed.
Lemma code_400 : error_code (EHttp 400). Proof. intros c [= <-]; lia. Qed.
Lemma code_416 : error_code (EHttp 416). Proof. intros c [= <-]; lia. Qed.

Lemma put_code v img q a e : put v img q = Some a -> a_err a = Some e -> error_code e.
Proof.
  unfold put. destruct (q_id q) as [|i0 id0]; [intros [= <-]; apply refuse_code, code_400|].
  destruct (content_length _ _) as [[n|]|x] eqn:CL;
    [|intros [= <-]; apply refuse_code, code_400|
     intros [= <-]; apply refuse_code; apply content_length_error in CL; subst x; apply code_400].
  destruct (match q_crange q with Some _ => _ | None => _ end) as [off|x] eqn:CR.
  2:{ intros [= <-]; apply refuse_code. destruct (q_crange q); [|discriminate].
      destruct (content_range_parse _ _) eqn:P; [discriminate|]. injection CR as <-.
      apply bad_error. eapply content_range_parse_bad; eauto. }
  destruct (enum_query _ _ _ _) as [f|x] eqn:EQ;
    [|intros [= <-]; apply refuse_code, bad_error; eapply enum_query_bad; eauto].
  destruct (enter v q "write") as [[[t bs] buf]|[x c]] eqn:EN;
    [|intros [= <-]; apply refuse_code; eapply enter_bad; eauto].
  unfold allowed_range. destruct (_ >? _); [intros [= <-]; apply refuse_code, code_416|].
  destruct (i_refused v); [intros [= <-]; apply refuse_code, code_403|].
  destruct (write_run _ _ _ _ _ _ _ _ _) as [[s r]|]; [|discriminate].
  destruct (op_result (i_canceled v) r) as [err c] eqn:OR. intros [= <-] H. cbn in H.
  eapply op_result_bad. rewrite OR. exact H.
Qed.

Lemma get_code v img q a e : get v img q = Some a -> a_err a = Some e -> error_code e.
Proof.
  unfold get. destruct (q_id q) as [|i0 id0]; [intros [= <-]; apply refuse_code, code_400|].
  destruct (match q_range q with Some _ => _ | None => _ end) as [[off sz]|x] eqn:CR.
  2:{ intros [= <-]; apply refuse_code. destruct (q_range q); [|discriminate].
      destruct (range_parse _ _) eqn:P.
      - destruct (_ <? _); [injection CR as <-; apply code_416|discriminate].
      - injection CR as <-. apply bad_error. eapply range_parse_bad; eauto. }
  destruct (enter v q "read") as [[[t bs] buf]|[x c]] eqn:EN;
    [|intros [= <-]; apply refuse_code; eapply enter_bad; eauto].
  destruct (match sz with Some _ => _ | None => _ end) as [size|x] eqn:SZ.
  2:{ intros [= <-]; apply refuse_code. destruct sz; [|discriminate].
      unfold allowed_range, available_range in SZ.
      destruct (_ >? _); cbn [hbind] in SZ; [injection SZ as <-; apply code_416|].
      destruct (_ >? _); cbn [hbind] in SZ; [injection SZ as <-; apply code_416|discriminate]. }
  destruct (i_refused v); [intros [= <-]; cbn; intros [= <-]; apply code_403|].
  destruct (read_run _ _ _ _ _ _ _) as [[s r]|]; [|discriminate].
  destruct (op_result (i_canceled v) r) as [err c] eqn:OR. intros [= <-] H. cbn in H.
  eapply op_result_bad. rewrite OR. exact H.
Qed.

Lemma patch_code v img q a e : patch v img q = Some a -> a_err a = Some e -> error_code e.
Proof.
  unfold patch. destruct (q_id q) as [|i0 id0]; [intros [= <-]; apply refuse_code, code_400|].
  destruct (q_json q) as [msg|x];
    [|intros [= <-]; apply refuse_code; destruct x; intros c [= <-]; lia].
  destruct (enum_json _ _ _) as [op|x] eqn:EJ;
    [|intros [= <-]; apply refuse_code, bad_error; eapply enum_json_bad; eauto].
  destruct (str_eqb _ _).
  - unfold patch_zero.
    destruct (integer msg (lits "size") 0 None) as [sz|x] eqn:I1; cbn [hbind];
      [|intros [= <-]; apply refuse_code, bad_error; eapply integer_bad; eauto].
    destruct (integer msg (lits "offset") 0 (Some 0)) as [off|x] eqn:I2; cbn [hbind];
      [|intros [= <-]; apply refuse_code, bad_error; eapply integer_bad; eauto].
    destruct (boolean msg (lits "flush") false) as [fl|x] eqn:I3; cbn [hbind];
      [|intros [= <-]; apply refuse_code, bad_error; eapply boolean_bad; eauto].
    destruct (enter v q "write") as [[[t bs] buf]|[x c]] eqn:EN;
      [|intros [= <-]; apply refuse_code; eapply enter_bad; eauto].
    unfold allowed_range. destruct (_ >? _); [intros [= <-]; apply refuse_code, code_416|].
    destruct (i_refused v); [intros [= <-]; apply refuse_code, code_403|].
    destruct (zero_run _ _ _ _ _ _) as [[s r]|]; [|discriminate].
    destruct (op_result (i_canceled v) r) as [err c] eqn:OR. intros [= <-] H. cbn in H.
    eapply op_result_bad. rewrite OR. exact H.
  - unfold patch_flush.
    destruct (enter v q "write") as [[[t bs] buf]|[x c]] eqn:EN;
      [|intros [= <-]; apply refuse_code; eapply enter_bad; eauto].
    destruct (i_refused v); [intros [= <-]; apply refuse_code, code_403|].
    destruct (flush_run _ _) as [s r].
    destruct (op_result (i_canceled v) r) as [err c] eqn:OR. intros [= <-] H. cbn in H.
    eapply op_result_bad. rewrite OR. exact H.
Qed.

Lemma respond_good a p :
  (forall e, a_err a = Some e -> error_code e) -> respond a = Some p -> p_status p < 400 ->
  p_status p = a_status a /\ p_body p = a_sent a /\
  (a_err a = None /\ p_length p = Some (match a_length a with Some n => n | None => 0 end) \/
   a_sent a <> [] /\ p_length p = a_length a).
Proof.
  intros C R L. unfold respond in R. destruct (a_err a) as [e|] eqn:E.
  - destruct (a_sent a) eqn:S.
    + unfold error_response in R. destruct e; try discriminate; injection R as <-; cbn in L; [|lia].
      specialize (C _ eq_refl code eq_refl). lia.
    + injection R as <-. cbn. split; auto. split; auto. right. split; auto. discriminate.
  - injection R as <-. cbn. auto.
Qed.

Lemma is_range_nil img pos : is_range img pos 0 [].
Proof. split; [reflexivity|]. intros i Hi. lia. Qed.

Section Imageio.
Variables (id : str) (total : Z) (envs : nat -> senv).
Hypothesis U : forall i, usable id total (envs i).
Notation srv := (imageio id envs).

Lemma srv_get w r w' a b :
  srv w (MGet (Some (range_text a b))) = (r, w') -> zlen (iw_img w) = total ->
  iw_img w' = iw_img w /\ iw_log w' = iw_log w /\
  forall p, r = Some p -> p_status p = 206 ->
    0 <= a <= b /\ b < total /\
    exists k, 0 <= k <= b - a + 1 /\ is_range (iw_img w) a k (p_body p).
Proof.
  intros E L. unfold imageio in E. cbn [ireq_of] in E.
  destruct (U (iw_n w)) as (GB & CC & TS & _). set (e := envs (iw_n w)) in *.
  destruct (get (se_v e) (iw_img w) _) as [x|] eqn:G.
  2:{ unfold served in E. injection E as <- <-. cbn. rewrite app_nil_r. split; auto. split; auto.
      destruct (se_lost e); discriminate. }
  unfold served in E. injection E as <- <-. cbn [iw_img iw_log].
  pose proof (fun y => get_code _ _ _ _ y G) as CD.
  apply get_cases in G as [(_ & X1 & X2 & X3 & X4)|(off & sz & ts & bs & buf & O & F & A & B & R &
    (I1 & I2 & I3 & I4 & _) & C)].
  - rewrite X1, X3, app_nil_r. split; auto. split; auto. intros p P S.
    destruct (se_lost e); [discriminate|].
    apply respond_good in P as (_ & PB & [[PE _]|[PE _]]); [tauto|rewrite X2 in PE; tauto|auto|lia].
  - rewrite I1, I2, app_nil_r. split; auto. split; auto. intros p P S.
    destruct (se_lost e); [discriminate|].
    apply respond_good in P as (_ & PB & _); [|auto|lia].
    cbn [q_range] in R. destruct R as (rg & RP & -> & R).
    apply range_parse_show in RP as (AB & ->). cbn [r_last r_first] in R, C.
    destruct R as (-> & _ & R). unfold access in A. cbn in A. apply TS in A. subst ts.
    cbn [r_first] in *.
    split; auto. split; [lia|]. rewrite PB.
    destruct C as [(_ & _ & -> & _)|(_ & s & o & RR & _ & -> & _)].
    + exists 0. split; [lia|]. apply is_range_nil.
    + destruct (GB _ _ B) as (B1 & _).
      apply read_sends_only_a_prefix in RR as (k & K1 & K2); auto; [|lia]. exists k. auto.
Qed.

Lemma srv_head w r w' :
  srv w (MGet None) = (r, w') -> zlen (iw_img w) = total ->
  iw_img w' = iw_img w /\ iw_log w' = iw_log w /\
  forall p, r = Some p -> p_status p = 200 -> p_length p = Some total.
Proof.
  intros E L. unfold imageio in E. cbn [ireq_of] in E.
  destruct (U (iw_n w)) as (GB & CC & TS & _). set (e := envs (iw_n w)) in *.
  destruct (get (se_v e) (iw_img w) _) as [x|] eqn:G.
  2:{ unfold served in E. injection E as <- <-. cbn. rewrite app_nil_r. split; auto. split; auto.
      destruct (se_lost e); discriminate. }
  unfold served in E. injection E as <- <-. cbn [iw_img iw_log].
  pose proof (fun y => get_code _ _ _ _ y G) as CD.
  apply get_cases in G as [(_ & X1 & X2 & X3 & X4)|(off & sz & ts & bs & buf & O & F & A & B & R &
    (I1 & I2 & I3 & I4 & _) & C)].
  - rewrite X1, X3, app_nil_r. split; auto. split; auto. intros p P S.
    destruct (se_lost e); [discriminate|].
    apply respond_good in P as (_ & PB & [[PE _]|[PE _]]); [tauto|rewrite X2 in PE; tauto|auto|lia].
  - rewrite I1, I2, app_nil_r. split; auto. split; auto. intros p P S.
    destruct (se_lost e); [discriminate|].
    apply respond_good in P as (_ & PB & PL); [|auto|lia].
    cbn [q_range] in R. unfold access in A. cbn in A. apply TS in A. subst ts.
    rewrite I4 in PL. replace sz with total in PL by lia. tauto.
Qed.

Lemma query_flush f :
  enum_query (if f : bool then [(lits "flush", lits "n")] else []) (lits "flush")
    [lits "y"; lits "n"] (lits "y") = inl (if f then lits "n" else lits "y").
Proof. destruct f; reflexivity. Qed.

Lemma srv_put w r w' (f : bool) n a b body :
  srv w (MPut (if f then [(lits "flush", lits "n")] else []) (show n) (crange_text a b) body) = (r, w') ->
  zlen (iw_img w) = total -> b = a + n - 1 ->
  exists log, iw_log w' = iw_log w ++ log /\
  zlen (iw_img w') = total /\
  (exists k, 0 <= k <= Z.max 0 n /\ k <= zlen body /\ (0 < k -> 0 <= a /\ a + n <= total) /\
     replaced (iw_img w) (iw_img w') a k (getb body)) /\
  forall p, r = Some p -> p_status p = 200 ->
    0 <= a /\ 0 < n /\ a + n <= total /\ n <= zlen body /\
    replaced (iw_img w) (iw_img w') a n (getb body) /\
    (if f then True else durable log).
Proof.
  intros E L ->. unfold imageio in E. cbn [ireq_of] in E.
  destruct (U (iw_n w)) as (GB & CC & TS & _). set (e := envs (iw_n w)) in *.
  assert (NR : replaced (iw_img w) (iw_img w) a 0 (getb body)).
  { split; [intros i Hi; lia|]. split; auto. }
  pose proof (zlen_nonneg body) as ZB.
  destruct (put (se_v e) (iw_img w) _) as [x|] eqn:G.
  2:{ unfold served in E. injection E as <- <-. cbn. exists []. split; auto. split; auto.
      split; [exists 0; split; [lia|]; split; [lia|]; split; [lia|auto]|]. destruct (se_lost e); discriminate. }
  unfold served in E. injection E as <- <-. cbn [iw_img iw_log]. exists (a_log x). split; auto.
  pose proof (fun y => put_code _ _ _ _ y G) as CD. pose proof G as G'.
  apply put_cases in G as [(_ & X1 & X2 & X3 & X4)|(off & sz & fl & ts & bs & buf & s & oc &
     CL & S & Of & CR & FL & A & B & _ & LE & WR & XE)].
  - rewrite X1. split; auto.
    split; [exists 0; split; [lia|]; split; [lia|]; split; [lia|auto]|]. intros p P PS.
    destruct (se_lost e); [discriminate|].
    apply respond_good in P as (_ & PB & [[PE _]|[PE _]]); [tauto|rewrite X2 in PE; tauto|auto|lia].
  - cbn [q_clen q_crange q_query q_data] in *.
    destruct CR as (rg & CP & ->). apply crange_parse_show in CP as (AB & ->). cbn [cr_first] in *.
    apply clen_show in CL; [|lia]. subst sz.
    unfold access in A. cbn in A. apply TS in A. subst ts.
    destruct (GB _ _ B) as (B1 & B2 & B3).
    pose proof WR as WR'.
    apply write_changes_only_requested_range in WR as (k & K1 & K2 & K3 & K4); auto; [|lia].
    assert (ZI : zlen (w_img s) = total).
    { destruct K4 as (_ & _ & K4). rewrite K4. destruct (k =? 0); lia. }
    subst x. cbn [a_img a_log]. split; auto.
    split; [exists k; split; [lia|]; split; [auto|]; split; [lia|auto]|]. intros p P PS.
    destruct (se_lost e); [discriminate|].
    apply respond_good in P as (_ & PB & PE); [|auto|lia].
    cbn [a_err a_sent] in PE. destruct PE as [[PE _]|[PE _]]; [|tauto].
    pose proof (put_stores_body _ _ _ _ GB CC G' PE) as (o2 & s2 & P1 & P2 & P3 & P4 & P5).
    cbn [q_clen q_crange q_data q_query] in *. destruct P2 as (r2 & P2 & ->).
    apply crange_parse_show in P2 as (_ & ->). cbn [cr_first] in *.
    apply clen_show in P1; [|lia]. subst s2. cbn [a_img a_log] in *.
    split; [lia|]. split; [lia|]. split; [lia|]. split; [lia|]. split; auto.
    destruct f; auto. cbn in P5. destruct P5 as (lg & -> & NI).
    intros aa ff bb EQ M. destruct bb as [|y bb] using rev_ind.
    + apply app_inj_tail in EQ as [_ <-]. exfalso. apply M. reflexivity.
    + rewrite app_comm_cons, app_assoc in EQ. apply app_inj_tail in EQ as [_ <-].
      apply in_or_app. right. left. reflexivity.
Qed.

Lemma replaced_ext img img' a n f g :
  (forall i, 0 <= i < n -> f i = g i) -> replaced img img' a n f -> replaced img img' a n g.
Proof.
  intros H (A & B & C). split; [|split]; auto. intros i Hi. rewrite A by auto. apply H. lia.
Qed.

Definition zero_msg (a n : Z) (fl : bool) : json :=
  JObj [(lits "op", JStr (lits "zero")); (lits "offset", JInt a);
        (lits "size", JInt n); (lits "flush", JBool fl)].

Lemma durable_tail lg : durable (lg ++ [EFlush]).
Proof.
  intros aa ff bb EQ M. destruct bb as [|y bb] using rev_ind.
  - apply app_inj_tail in EQ as [_ <-]. exfalso. apply M. reflexivity.
  - rewrite app_comm_cons, app_assoc in EQ. apply app_inj_tail in EQ as [_ <-].
    apply in_or_app. right. left. reflexivity.
Qed.

Lemma srv_zero w r w' a n fl :
  srv w (MPatch (zero_msg a n fl)) = (r, w') ->
  zlen (iw_img w) = total ->
  exists log, iw_log w' = iw_log w ++ log /\
  zlen (iw_img w') = total /\
  (exists k, 0 <= k <= Z.max 0 n /\ (0 < k -> 0 <= a /\ a + n <= total) /\
     replaced (iw_img w) (iw_img w') a k (fun _ => x00)) /\
  forall p, r = Some p -> p_status p = 200 ->
    0 <= a /\ 0 <= n /\ a + n <= total /\
    replaced (iw_img w) (iw_img w') a n (fun _ => x00) /\
    (if fl then durable log else True).
Proof.
  intros E L. unfold imageio in E. cbn [ireq_of] in E.
  destruct (U (iw_n w)) as (GB & CC & TS & _). set (e := envs (iw_n w)) in *.
  assert (NR : replaced (iw_img w) (iw_img w) a 0 (fun _ => x00)).
  { split; [intros i Hi; lia|]. split; auto. }
  destruct (patch (se_v e) (iw_img w) _) as [x|] eqn:G.
  2:{ unfold served in E. injection E as <- <-. cbn. exists []. split; auto. split; auto.
      split; [exists 0; split; [lia|]; split; [lia|auto]|]. destruct (se_lost e); discriminate. }
  unfold served in E. injection E as <- <-. cbn [iw_img iw_log]. exists (a_log x). split; auto.
  pose proof (fun y => patch_code _ _ _ _ y G) as CD. pose proof G as G'.
  assert (RF : refused (iw_img w) x -> zlen (a_img x) = total /\
    (exists k, 0 <= k <= Z.max 0 n /\ (0 < k -> 0 <= a /\ a + n <= total) /\
       replaced (iw_img w) (a_img x) a k (fun _ => x00)) /\
    forall p, (if se_lost e then None else respond x) = Some p -> p_status p = 200 -> False).
  { intros (_ & X1 & X2 & X3 & X4). rewrite X1. split; auto.
    split; [exists 0; split; [lia|]; split; [lia|auto]|]. intros p P PS.
    destruct (se_lost e); [discriminate|].
    apply respond_good in P as (_ & PB & [[PE _]|[PE _]]); [tauto|rewrite X2 in PE; tauto|auto|lia]. }
  apply patch_cases in G as [RX|(msg & M & G)].
  { destruct (RF RX) as (R1 & R2 & R3). split; auto. split; auto. intros p P PS.
    destruct (R3 p P PS). }
  cbn [q_json] in M. injection M as <-.
  destruct G as [[_ G]|[X _]]; [|discriminate].
  apply zero_cases in G as [RX|(off & sz & f2 & ts & bs & buf & s & oc &
     I1 & I2 & I3 & S & Of & A & B & _ & LE & WR & XE)].
  { destruct (RF RX) as (R1 & R2 & R3). split; auto. split; auto. intros p P PS.
    destruct (R3 p P PS). }
  unfold integer in I1, I2. cbn in I1, I2, I3.
  destruct (n <? 0) eqn:N0; [discriminate|]. destruct (a <? 0) eqn:A0; [discriminate|].
  injection I1 as <-. injection I2 as <-. injection I3 as <-.
  unfold access in A. cbn in A. apply TS in A. subst ts.
  pose proof WR as WR'.
  apply zero_changes_only_requested_range in WR as (k & K1 & K2 & K4); auto.
  assert (ZI : zlen (w_img s) = total).
  { destruct K4 as (_ & _ & K4). rewrite K4. destruct (k =? 0) eqn:K0; lia. }
  subst x. cbn [a_img a_log]. split; auto.
  split; [exists k; split; [lia|]; split; [lia|auto]|]. intros p P PS.
  destruct (se_lost e); [discriminate|].
  apply respond_good in P as (_ & PB & PE); [|auto|lia].
  cbn [a_err a_sent] in PE. destruct PE as [[PE _]|[PE _]]; [|tauto].
  pose proof (zero_request_zeroes _ _ _ _ _ GB CC G' PE eq_refl eq_refl)
    as (o2 & s2 & f3 & P1 & P2 & P3 & P4 & P5).
  unfold int_member, flag_member in P1, P2, P3. cbn in P1, P2, P3.
  destruct P1 as [_ [P1|[[P1 _]|[P1 _]]]]; [injection P1 as <-|discriminate|discriminate].
  destruct P2 as [_ [P2|[[P2 _]|[P2 _]]]]; [injection P2 as <-|discriminate|discriminate].
  injection P3 as <-. cbn [a_img a_log] in *.
  split; [lia|]. split; [lia|]. split; [lia|]. split; auto.
  destruct fl; auto. destruct P5 as (lg & -> & NI). apply durable_tail.
Qed.

Lemma srv_flush w r w' :
  srv w (MPatch (JObj [(lits "op", JStr (lits "flush"))])) = (r, w') ->
  iw_img w' = iw_img w /\
  exists log, iw_log w' = iw_log w ++ log /\
  forall p, r = Some p -> p_status p = 200 -> log = [EFlush].
Proof.
  intros E. unfold imageio in E. cbn [ireq_of] in E. set (e := envs (iw_n w)) in *.
  destruct (patch (se_v e) (iw_img w) _) as [x|] eqn:G.
  2:{ unfold served in E. injection E as <- <-. cbn. split; auto. exists []. split; auto.
      destruct (se_lost e); discriminate. }
  unfold served in E. injection E as <- <-. cbn [iw_img iw_log].
  pose proof (fun y => patch_code _ _ _ _ y G) as CD. pose proof G as G'.
  assert (RF : refused (iw_img w) x -> a_img x = iw_img w /\
    forall p, (if se_lost e then None else respond x) = Some p -> p_status p = 200 -> False).
  { intros (_ & X1 & X2 & X3 & X4). rewrite X1. split; auto. intros p P PS.
    destruct (se_lost e); [discriminate|].
    apply respond_good in P as (_ & PB & [[PE _]|[PE _]]); [tauto|rewrite X2 in PE; tauto|auto|lia]. }
  apply patch_cases in G as [RX|(msg & M & G)].
  { destruct (RF RX) as (R1 & R3). split; auto. exists (a_log x). split; auto. intros p P PS.
    destruct (R3 p P PS). }
  cbn [q_json] in M. injection M as <-.
  destruct G as [[X _]|[_ G]]; [discriminate|].
  apply flush_cases in G as [RX|(ts & A & XE)].
  { destruct (RF RX) as (R1 & R3). split; auto. exists (a_log x). split; auto. intros p P PS.
    destruct (R3 p P PS). }
  subst x. cbn [a_img a_log]. split; auto. exists [EFlush]. auto.
Qed.

Lemma srv_extents w r w' (dirty : bool) :
  srv w (MExtents (if dirty then lits "dirty" else lits "zero")) = (r, w') ->
  iw_img w' = iw_img w /\ iw_log w' = iw_log w /\
  forall p, r = Some p -> p_status p = 200 ->
    exists l, se_ext (envs (iw_n w)) dirty (iw_img w) = Some l /\
              p_json p = Some (JList (map to_dict l)).
Proof using id envs.
  clear U.
  intros E. unfold imageio in E. set (e := envs (iw_n w)) in *. unfold served in E.
  injection E as <- <-. cbn [iw_img iw_log]. rewrite app_nil_r. split; auto. split; auto.
  intros p P PS. destruct (se_lost e); [discriminate|].
  unfold extents_get in P. cbn [ireq_of q_id q_query] in P.
  assert (ER : forall x, error_response x = Some p -> error_code x -> False).
  { intros x X C. unfold error_response in X. destruct x; try discriminate; injection X as <-;
      cbn in PS; [|lia]. specialize (C _ eq_refl). lia. }
  destruct id; [exfalso; eapply ER; [exact P|apply code_400]|].
  destruct (enter _ _ _) as [y|[x c]] eqn:EN.
  2:{ exfalso. eapply ER; [exact P|]. eapply enter_bad; eauto. }
  assert (C4 : error_code (EHttp 404)) by (intros c [= <-]; lia).
  destruct dirty; cbn in P.
  - destruct (se_dirty e); cbn in P; [|injection P as <-; discriminate].
    destruct (se_ext e true (iw_img w)) as [l|] eqn:X; [|injection P as <-; discriminate].
    injection P as <-. cbn. eauto.
  - destruct (se_ext e false (iw_img w)) as [l|] eqn:X; [|injection P as <-; discriminate].
    injection P as <-. cbn. eauto.
Qed.

End Imageio.

(* ---- calls, for any server ---- *)

Section Calls.
Context {W : Type}.
Variable serve : W -> message -> option response * W.
Variable o : net.
Notation st := (hb W).
Implicit Types s : hb W.

Definition upd (s : st) (w : W) (m : message) : st :=
  HB (h_pos s) (h_size s) (h_zero s) (h_dirty s) (h_can_extents s) (h_can_zero s)
     (h_can_flush s) (h_ri s) (h_si s) w (h_sent s ++ [m]).

Lemma request_eq m s r s' :
  request serve m s = (r, s') ->
  exists p w, serve (h_world s) m = (p, w) /\ s' = upd s w m /\
    r = match p with Some p => inl p | None => inr XConn end.
Proof.
  unfold request. destruct (serve (h_world s) m) as [p w]. intros [= <- <-]. eauto.
Qed.

(* How every PUT request ends. *)
Definition put_done (length : Z) (body : list byte) (s : st) (r : Z + cexc) (s' : st) : Prop :=
  exists si p w, serve (h_world s) (put_message length body s) = (p, w) /\
    (r = inl length /\ (exists x, p = Some x /\ p_status x = 200) /\
     s' = set_pos (set_net (upd s w (put_message length body s)) (h_ri s) si) (h_pos s + length)
     \/ (exists e, r = inr e) /\
        s' = set_net (upd s w (put_message length body s)) (h_ri s) si).

Lemma put_finish_done length body s si r s' :
  put_finish serve length body (set_net s (h_ri s) si) = (r, s') -> put_done length body s r s'.
Proof.
  unfold put_finish. intros E. destruct (request _ _ _) as [x s1] eqn:R.
  apply request_eq in R as (p & w & S & -> & ->).
  exists si, p, w. split; auto. destruct p as [p|].
  - destruct (Z.eqb_spec (p_status p) 200) as [PS|PS]; cbn [negb] in E.
    + injection E as <- <-. left. split; auto. split; eauto.
    + injection E as <- <-. right. split; eauto.
  - injection E as <- <-. right. split; eauto.
Qed.

Lemma put_abort_done length body e s si r s' :
  put_abort serve length body e (set_net s (h_ri s) si) = (r, s') -> put_done length body s r s'.
Proof.
  unfold put_abort. intros E. destruct (request _ _ _) as [x s1] eqn:R.
  apply request_eq in R as (p & w & S & -> & ->). injection E as <- <-.
  exists si, p, w. split; auto. right. split; eauto.
Qed.

Lemma send_eq s sent data a all s' :
  send o s sent data = (a, all, s') ->
  s' = set_net s (h_ri s) (S (h_si s)) /\
  (exists k, all = sent ++ take k data) /\ (a = SendOk -> all = sent ++ data).
Proof.
  unfold send. destruct (n_send o (h_si s)) as [|k|k]; intros [= <- <- <-]; split; auto;
    (split; [|auto; discriminate]).
  - exists (zlen data). rewrite take_all by lia. auto.
  - eauto.
  - eauto.
Qed.

Lemma send_ans s sent data a all s' :
  send o s sent data = (a, all, s') -> a = n_send o (h_si s).
Proof. unfold send. destruct (n_send o (h_si s)); intros [= <- <- <-]; auto. Qed.

Lemma put_abort_inr length body e s r s' :
  put_abort serve length body e s = (r, s') -> forall n, r <> inl n.
Proof. intros [= <- _]. discriminate. Qed.

Lemma set_net_id (s : st) : set_net s (h_ri s) (h_si s) = s.
Proof. destruct s; reflexivity. Qed.

Lemma set_net_net s a b c d : set_net (set_net s a b) c d = set_net s c d.
Proof. reflexivity. Qed.

Lemma write_done buf s r s' :
  write serve o buf s = (r, s') ->
  exists body, prefix body buf /\ put_done (zlen buf) body s r s'.
Proof.
  unfold write. destruct (send o s [] buf) as [[a body] s1] eqn:S. intros E.
  apply send_eq in S as (-> & (k & ->) & _). exists (take k buf). cbn [app] in *.
  split; [exists (drop k buf); symmetry; apply take_drop|].
  destruct a; [eapply put_finish_done|eapply put_finish_done|eapply put_abort_done]; eauto.
Qed.

(* The body of read_from: [t] bytes were taken from the reader, the first [k]
   of them were sent. *)
Lemma read_from_loop_done : forall fuel i buflen length todo src sent s si r left s' src0,
  read_from_loop serve o fuel i buflen length todo src sent (set_net s (h_ri s) si) = (r, left, s') ->
  (List.length src < fuel)%nat -> src0 = sent ++ src -> zlen sent = length - todo ->
  exists body t k,
    left = drop t src0 /\ body = take k src0 /\ k <= t /\ zlen body = k /\ zlen sent <= t /\
    (0 <= todo -> t <= length) /\
    put_done length body s r s' /\
    ((forall j, n_send o j = SendOk) -> forall n, r = inl n -> k = length /\ t = length).
Proof.
  induction fuel as [|fuel IH]; intros i buflen length todo src sent s si r left s' src0 E F -> L; [lia|].
  cbn [read_from_loop] in E.
  assert (T0 : take (zlen sent) (sent ++ src) = sent).
  { rewrite take_app, Z.sub_diag, take_nonpos with (n := 0), app_nil_r by lia.
    apply take_all. lia. }
  assert (D0 : drop (zlen sent) (sent ++ src) = src).
  { rewrite drop_app, Z.sub_diag, drop_nonpos with (n := 0) by lia. rewrite drop_all by lia. auto. }
  pose proof (zlen_nonneg sent) as ZS.
  destruct (Z.eqb_spec todo 0) as [->|NT].
  { destruct (put_finish _ _ _ _) as [x s1] eqn:P. injection E as <- <- <-.
    exists sent, (zlen sent), (zlen sent).
    split; auto. split; auto. split; [lia|]. split; [lia|]. split; [lia|]. split; [lia|].
    split; [eapply put_finish_done; eauto|]. intros; lia. }
  assert (AB : forall e, (let (r0, s0) := put_abort serve length sent e (set_net s (h_ri s) si) in
      (r0, src, s0)) = (r, left, s') ->
    exists body t k, left = drop t (sent ++ src) /\ body = take k (sent ++ src) /\ k <= t /\ zlen body = k /\
      zlen sent <= t /\ (0 <= todo -> t <= length) /\ put_done length body s r s' /\
      ((forall j, n_send o j = SendOk) -> forall n, r = inl n -> k = length /\ t = length)).
  { clear E. intros e X. destruct (put_abort _ _ _ _ _) as [x s1] eqn:P. injection X as <- <- <-.
    exists sent, (zlen sent), (zlen sent).
    split; auto. split; auto. split; [lia|]. split; [lia|]. split; [lia|]. split; [lia|].
    split; [eapply put_abort_done; eauto|]. intros _ n X. destruct (put_abort_inr _ _ _ _ _ _ P n X). }
  destruct (n_src o i) as [c|]; [|eauto].
  remember (clamp 0 (Z.min (py_stop (Z.min todo buflen) buflen) (zlen src)) c) as n.
  pose proof (zlen_nonneg src) as ZR.
  destruct (Z.eqb_spec n 0) as [N0|N0]; [eauto|].
  assert (N : 0 < n /\ n <= zlen src /\ (0 <= todo -> n <= todo)).
  { unfold clamp in Heqn. split; [lia|]. split; [lia|]. intros T.
    destruct (Z.ltb_spec buflen 0) as [B|B].
    - unfold py_stop in Heqn. destruct (Z.min todo buflen <? 0) eqn:Q in Heqn; lia.
    - pose proof (py_stop_nonneg (Z.min todo buflen) buflen ltac:(lia)). lia. }
  clear Heqn AB.
  destruct (send o (set_net s (h_ri s) si) sent (take n src)) as [[a all] s1] eqn:S.
  pose proof (send_ans _ _ _ _ _ _ S) as AN.
  apply send_eq in S as (-> & (k & K) & OK).
  assert (SP : sent ++ src = (sent ++ take n src) ++ drop n src).
  { rewrite <- app_assoc, take_drop. auto. }
  assert (ZA : zlen (sent ++ take n src) = zlen sent + n) by (rewrite zlen_app, zlen_take; lia).
  assert (LF : drop n src = drop (zlen sent + n) (sent ++ src)).
  { rewrite SP, drop_app, ZA, Z.sub_diag, (drop_nonpos 0) by lia.
    rewrite (drop_all _ (sent ++ take n src)) by lia. auto. }
  assert (AK : exists k, all = take k (sent ++ src) /\ zlen all = k /\ k <= zlen sent + n).
  { exists (zlen all). assert (X : zlen all <= zlen sent + n).
    { subst all. rewrite zlen_app, zlen_take, zlen_take. lia. }
    split; [|split; auto]. subst all. rewrite zlen_app in *. rewrite take_app.
    rewrite (take_all (zlen sent + _)) by (pose proof (zlen_nonneg (take k (take n src))); lia).
    f_equal. replace (zlen sent + zlen (take k (take n src)) - zlen sent)
      with (zlen (take k (take n src))) by lia.
    rewrite take_take, zlen_take. 
    destruct (Z.leb_spec (Z.min k n) 0) as [Q|Q].
    - rewrite take_nonpos by lia. rewrite take_nonpos by lia. auto.
    - f_equal. lia. }
  cbn [set_net h_ri h_si] in E. rewrite set_net_net in E.
  destruct a.
  - rewrite (OK eq_refl) in *.
    eapply IH in E; [|unfold drop; rewrite skipn_length; unfold zlen in N; lia|exact SP|rewrite ZA; lia].
    destruct E as (body & t & k2 & E1 & E2 & E3 & E4 & E5 & E6 & E7).
    exists body, t, k2. split; auto. split; auto. split; auto. split; auto. split; [lia|].
    split; [lia|]. auto.
  - destruct AK as (k2 & A1 & A2 & A3).
    destruct (put_finish _ _ _ _) as [x s1] eqn:P. injection E as <- <- <-.
    exists all, (zlen sent + n), k2. split; auto. split; auto. split; [lia|]. split; auto.
    split; [lia|]. split; [lia|]. split; [eapply put_finish_done; eauto|].
    intros H. rewrite H in AN. discriminate.
  - destruct AK as (k2 & A1 & A2 & A3).
    destruct (put_abort _ _ _ _ _) as [x s1] eqn:P. injection E as <- <- <-.
    exists all, (zlen sent + n), k2. split; auto. split; auto. split; [lia|]. split; auto.
    split; [lia|]. split; [lia|]. split; [eapply put_abort_done; eauto|].
    intros H. rewrite H in AN. discriminate.
Qed.

Lemma read_from_done src length buflen s r left s' :
  read_from serve o src length buflen s = (r, left, s') ->
  exists body t k,
    left = drop t src /\ body = take k src /\ k <= t /\ zlen body = k /\
    (0 <= length -> t <= length) /\ put_done length body s r s' /\
    ((forall j, n_send o j = SendOk) -> forall n, r = inl n -> k = length /\ t = length).
Proof.
  unfold read_from. rewrite <- (set_net_id s) at 1. intros E.
  eapply read_from_loop_done with (src0 := src) in E; [|lia|reflexivity|rewrite zlen_nil; lia].
  destruct E as (body & t & k & E1 & E2 & E3 & E4 & _ & E5 & E6 & E7). exists body, t, k. auto 10.
Qed.

Lemma take_zeros_le k m : take k (zeros m) = zeros (Z.max 0 (Z.min k m)).
Proof.
  destruct (Z.leb_spec k 0). { rewrite take_nonpos by lia. replace (Z.max _ _) with 0 by lia. auto. }
  destruct (Z.leb_spec m k).
  - rewrite take_all by (rewrite zlen_zeros; lia). destruct (Z.leb_spec m 0).
    + replace (Z.max _ _) with 0 by lia. unfold zeros. replace (Z.to_nat m) with O by lia. auto.
    + f_equal. lia.
  - rewrite take_zeros by lia. f_equal. lia.
Qed.

Lemma zero_loop_done : forall fuel length todo k s si r s',
  zero_loop serve o fuel length todo (zeros k) (set_net s (h_ri s) si) = (r, s') ->
  0 <= k -> k + todo = length -> 0 <= todo -> (Z.to_nat (todo / CHUNK) < fuel)%nat ->
  exists k', 0 <= k' <= length /\ put_done length (zeros k') s r s' /\
    (forall n, r = inl n -> k' = length).
Proof.
  induction fuel as [|fuel IH]; intros length todo k s si r s' E K L T F; [lia|].
  cbn [zero_loop] in E.
  assert (AB : forall data j e si1, 0 <= j <= todo ->
     put_abort serve length (zeros k ++ data) e (set_net s (h_ri s) si1) = (r, s') -> data = zeros j ->
     exists k', 0 <= k' <= length /\ put_done length (zeros k') s r s' /\
       (forall n, r = inl n -> k' = length)).
  { intros data j e si1 J P ->. exists (k + j). split; [lia|]. rewrite zeros_app in P by lia.
    split; [eapply put_abort_done; eauto|]. intros n ->. unfold put_abort in P. discriminate. }
  destruct (Z.ltb_spec CHUNK todo) as [B|B].
  - destruct (send _ _ _ _) as [[a all] s1] eqn:S. apply send_eq in S as (-> & (j & J) & OK).
    cbn [set_net h_ri h_si] in *. rewrite take_zeros_le in J. rewrite ?set_net_net in E.
    destruct a.
    + rewrite (OK eq_refl) in E. rewrite zeros_app in E by (unfold CHUNK in *; lia).
      eapply IH in E; eauto; try (unfold CHUNK in *; lia).
      assert (Q : todo = (todo - CHUNK) + 1 * CHUNK) by lia. rewrite Q in F.
      rewrite Z.div_add in F by (unfold CHUNK; lia).
      assert (0 <= (todo - CHUNK) / CHUNK) by (apply Z.div_pos; unfold CHUNK in *; lia). lia.
    + subst all. eapply AB; [|exact E|reflexivity]. unfold CHUNK in *; lia.
    + subst all. eapply AB; [|exact E|reflexivity]. unfold CHUNK in *; lia.
  - destruct (send _ _ _ _) as [[a all] s1] eqn:S. apply send_eq in S as (-> & (j & J) & OK).
    cbn [set_net h_ri h_si] in *. rewrite take_zeros_le in J. rewrite ?set_net_net in E.
    rewrite py_stop_nonneg in * by lia. replace (Z.min todo CHUNK) with todo in * by lia.
    destruct a.
    + rewrite (OK eq_refl) in E. rewrite zeros_app in E by lia.
      replace (k + todo) with length in E by lia. exists length. split; [lia|].
      split; auto. eapply put_finish_done; eauto.
    + subst all. eapply AB; [|exact E|reflexivity]. lia.
    + subst all. eapply AB; [|exact E|reflexivity]. lia.
Qed.

Lemma emulate_zero_done length s r s' :
  emulate_zero serve o length s = (r, s') -> 0 <= length ->
  exists k, 0 <= k <= length /\ put_done length (zeros k) s r s' /\
    (forall n, r = inl n -> k = length).
Proof.
  unfold emulate_zero. rewrite <- (set_net_id s) at 1. intros E L.
  eapply zero_loop_done with (k := 0) in E; eauto; try lia.
Qed.

(* Negative length: one request with a body of no meaning. *)
Lemma emulate_zero_neg length s r s' :
  emulate_zero serve o length s = (r, s') -> length < 0 ->
  exists body, put_done length body s r s'.
Proof.
  unfold emulate_zero. rewrite <- (set_net_id s) at 1. intros E L. cbn [zero_loop] in E.
  replace (CHUNK <? length) with false in E by (unfold CHUNK; lia).
  destruct (send _ _ _ _) as [[a all] s1] eqn:S. apply send_eq in S as (-> & _ & _).
  exists all. destruct a; [eapply put_finish_done|eapply put_abort_done|eapply put_abort_done]; eauto.
Qed.

(* ---- reading ---- *)

Lemma res_readinto_eq room rest s x s' :
  res_readinto o room rest s = (x, s') ->
  s' = set_net s (S (h_ri s)) (h_si s) /\
  forall d rest', x = Some (d, rest') ->
    rest = d ++ rest' /\ zlen d <= Z.max 0 room /\ (0 < room -> rest <> [] -> d <> []).
Proof.
  unfold res_readinto. destruct (n_read o (h_ri s)) as [c|]; intros [= <- <-]; (split; [auto|]);
    intros d rest' [= <- <-].
  pose proof (zlen_nonneg rest). split; [symmetry; apply take_drop|].
  unfold clamp. split; [rewrite zlen_take; lia|]. intros R N D.
  apply zlen_pos in N. apply (f_equal zlen) in D. rewrite zlen_take in D. cbn in D. lia.
Qed.

Lemma read_all_eq : forall fuel length rest got s r got' s',
  read_all o fuel length rest got s = (r, got', s') -> (List.length rest < fuel)%nat ->
  zlen got <= length ->
  exists ri, s' = set_net s ri (h_si s) /\ zlen got' <= length /\
    (exists d rest', got' = got ++ d /\ rest = d ++ rest') /\
    (r = inl tt -> zlen got' = length).
Proof.
  induction fuel as [|fuel IH]; intros length rest got s r got' s' E F L; [lia|].
  cbn [read_all] in E.
  destruct (Z.ltb_spec (zlen got) length) as [B|B].
  - destruct (res_readinto _ _ _ _) as [x s1] eqn:R.
    apply res_readinto_eq in R as (-> & R).
    destruct x as [[d rest']|].
    + destruct (R _ _ eq_refl) as (-> & D & _).
      destruct d as [|b d].
      * injection E as <- <- <-. exists (S (h_ri s)). split; auto. split; auto.
        split; [exists [], rest'; rewrite app_nil_r; auto|discriminate].
      * rewrite app_length in F. cbn in F.
        apply IH in E; [|lia|rewrite zlen_app; lia].
        destruct E as (ri & -> & E1 & (d2 & r2 & -> & ->) & E3). exists ri.
        split; auto. split; auto. split; auto.
        exists ((b :: d) ++ d2), r2. rewrite !app_assoc. auto.
    + injection E as <- <- <-. exists (S (h_ri s)). split; auto. split; auto.
      split; [exists [], rest; rewrite app_nil_r; auto|discriminate].
  - injection E as <- <- <-. exists (h_ri s). rewrite set_net_id. split; auto. split; auto.
    split; [exists [], rest; rewrite app_nil_r; auto|lia].
Qed.

Lemma write_to_loop_eq : forall fuel i buflen todo rest out s r out' s',
  write_to_loop o fuel i buflen todo rest out s = (r, out', s') -> 0 <= todo ->
  exists ri, s' = set_net s ri (h_si s) /\
    (r = inl tt -> exists d rest', rest = d ++ rest' /\ zlen d = todo /\
       ((forall i, exists c, n_dst o i = Some c /\ todo <= c) -> out' = out ++ d)).
Proof.
  induction fuel as [|fuel IH]; intros i buflen todo rest out s r out' s' E T.
  { injection E as <- <- <-. exists (h_ri s). rewrite set_net_id. split; auto. discriminate. }
  cbn [write_to_loop] in E.
  destruct (Z.eqb_spec todo 0) as [->|NT].
  { injection E as <- <- <-. exists (h_ri s). rewrite set_net_id. split; auto.
    intros _. exists [], rest. rewrite app_nil_r. auto. }
  destruct (res_readinto _ _ _ _) as [x s1] eqn:R. apply res_readinto_eq in R as (-> & R).
  destruct x as [[d rest']|]; [|injection E as <- <- <-; eexists; split; [reflexivity|discriminate]].
  destruct (R _ _ eq_refl) as (-> & D & _).
  destruct d as [|b d]; [injection E as <- <- <-; eexists; split; [reflexivity|discriminate]|].
  destruct (n_dst o i) as [c|] eqn:ND;
    [|injection E as <- <- <-; eexists; split; [reflexivity|discriminate]].
  assert (DT : zlen (b :: d) <= todo).
  { destruct (Z.ltb_spec buflen 0).
    - unfold py_stop in D. destruct (Z.min todo buflen <? 0) eqn:Q in D;
        pose proof (zlen_pos (b :: d) ltac:(discriminate)); lia.
    - rewrite py_stop_nonneg in D by lia. lia. }
  apply IH in E; [|lia]. destruct E as (ri & -> & E). exists ri. split; auto.
  intros ->. destruct (E eq_refl) as (d2 & r2 & -> & E1 & E2).
  exists ((b :: d) ++ d2), r2. rewrite app_assoc. split; auto. rewrite zlen_app. split; [lia|].
  intros H. rewrite E2.
  - destruct (H i) as (c' & H1 & H2). rewrite ND in H1. injection H1 as <-.
    rewrite take_all by lia. rewrite app_assoc. auto.
  - intros j. destruct (H j) as (c' & H1 & H2). exists c'. split; auto.
    pose proof (zlen_nonneg (b :: d)). lia.
Qed.

Lemma get_range_eq length s r s' :
  get_range serve length s = (r, s') ->
  exists p w, serve (h_world s) (MGet (Some (range_header (h_pos s) length))) = (p, w) /\
    s' = upd s w (MGet (Some (range_header (h_pos s) length))) /\
    forall x, r = inl x -> p = Some x /\ p_status x = 206 /\ p_length x = Some length.
Proof.
  unfold get_range. intros E. destruct (request _ _ _) as [x s1] eqn:R.
  apply request_eq in R as (p & w & S & -> & ->). injection E as <- <-.
  exists p, w. split; auto. split; auto. intros x. destruct p as [p|]; cbn [cbind]; [|discriminate].
  destruct (Z.eqb_spec (p_status p) 206) as [PS|]; cbn [negb]; [|discriminate].
  destruct (p_length p) as [n|] eqn:PL; [|discriminate].
  destruct (Z.eqb_spec n length) as [->|]; [|discriminate].
  intros [= <-]. auto.
Qed.

Lemma size_eq s r s' :
  size serve s = (r, s') ->
  h_pos s' = h_pos s /\ h_can_zero s' = h_can_zero s /\ h_can_flush s' = h_can_flush s /\
  h_can_extents s' = h_can_extents s /\ h_ri s' = h_ri s /\ h_si s' = h_si s /\
  (exists pre, h_sent s' = h_sent s ++ pre /\ Forall about_size pre) /\
  (forall n, r = inl n -> h_size s' = Some n).
Proof.
  unfold size. intros E. destruct (h_size s) as [n|] eqn:HS.
  { injection E as <- <-. repeat (split; auto).
    - exists []. rewrite app_nil_r. auto.
    - intros m [= <-]. auto. }
  destruct (h_can_extents s) eqn:CE.
  - unfold cached_extents in E. destruct (h_zero s) as [l|].
    { cbn [cbind] in E. destruct (match rev l with [] => _ | _ :: _ => _ end);
        injection E as <- <-; cbn; repeat (split; auto);
        try (exists []; rewrite app_nil_r; auto); congruence. }
    unfold get_extents in E. destruct (request _ _ _) as [x s1] eqn:R.
    apply request_eq in R as (p & w & S & -> & ->).
    assert (PRE : exists pre, h_sent s ++ [MExtents (lits "zero")] = h_sent s ++ pre /\ Forall about_size pre).
    { exists [MExtents (lits "zero")]. split; auto. constructor; auto. right. reflexivity. }
    destruct (cbind _ _) as [l|e].
    + cbn [cbind] in E. destruct (match rev l with [] => _ | _ :: _ => _ end);
        injection E as <- <-; cbn; repeat (split; auto); congruence.
    + cbn [cbind] in E. injection E as <- <-. cbn. repeat (split; auto). congruence.
  - unfold emulate_head in E. destruct (request _ _ _) as [x s1] eqn:R.
    apply request_eq in R as (p & w & S & -> & ->).
    assert (PRE : exists pre, h_sent s ++ [MGet None] = h_sent s ++ pre /\ Forall about_size pre).
    { exists [MGet None]. split; auto. constructor; auto. left. reflexivity. }
    destruct (cbind _ _) as [l|e]; injection E as <- <-; cbn; repeat (split; auto); congruence.
Qed.

Lemma readinto_eq buf s r buf' s' :
  readinto serve o buf s = (r, buf', s') ->
  exists s1 rs, size serve s = (rs, s1) /\
  match rs with
  | inr e => r = inr e /\ buf' = buf /\ s' = s1
  | inl sz =>
      let n := Z.min (zlen buf) (sz - h_pos s) in
      (n <= 0 /\ r = inl 0 /\ buf' = buf /\ s' = s1) \/
      (0 < n /\ exists p w ri d,
         serve (h_world s1) (MGet (Some (range_header (h_pos s) n))) = (p, w) /\
         buf' = d ++ drop (zlen d) buf /\ zlen d <= n /\
         (d = [] \/ exists x rest, p = Some x /\ p_status x = 206 /\ p_body x = d ++ rest) /\
         (r = inl n /\ zlen d = n /\
          s' = set_pos (set_net (upd s1 w (MGet (Some (range_header (h_pos s) n)))) ri (h_si s1))
                 (h_pos s + n)
          \/ (exists e, r = inr e) /\
             s' = set_net (upd s1 w (MGet (Some (range_header (h_pos s) n)))) ri (h_si s1)))
  end.
Proof.
  unfold readinto. intros E. destruct (size serve s) as [rs s1] eqn:SZ.
  exists s1, rs. split; auto. destruct rs as [sz|e]; [|injection E as <- <- <-; auto].
  apply size_eq in SZ as (HP & _). rewrite HP in E. cbn zeta.
  remember (Z.min (zlen buf) (sz - h_pos s)) as n.
  destruct (Z.leb_spec n 0) as [N|N]; [left; injection E as <- <- <-; auto|right].
  split; auto. destruct (get_range _ _ _) as [x s2] eqn:G.
  apply get_range_eq in G as (p & w & S & -> & G). rewrite HP in *.
  exists p, w. destruct x as [x|e].
  - destruct (G x eq_refl) as (-> & PS & PL).
    destruct (read_all _ _ _ _ _ _) as [[rr got] s3] eqn:RA.
    apply read_all_eq in RA; [|lia|rewrite zlen_nil; lia].
    destruct RA as (ri & -> & L & (d & rest & X & Y) & Z). cbn [app] in X. subst got.
    exists ri, d. split; auto. destruct rr as [[]|e]; injection E as <- <- <-.
    + split; auto. split; auto. split; [right; exists x, rest; auto|].
      left. split; auto. split; auto. cbn [set_net upd h_pos h_si] in *. rewrite HP. auto.
    + split; auto. split; auto. split; [right; exists x, rest; auto|].
      right. split; eauto.
  - injection E as <- <- <-. exists (h_ri s1), [].
    split; auto. split; [rewrite zlen_nil, drop_nonpos by lia; auto|].
    split; [rewrite zlen_nil; lia|]. split; auto. right. split; eauto.
Qed.

Lemma write_to_eq length buflen s r out s' :
  write_to serve o length buflen s = (r, out, s') -> 0 <= length ->
  exists p w ri,
    serve (h_world s) (MGet (Some (range_header (h_pos s) length))) = (p, w) /\
    (r = inl length /\
     (exists x d rest, p = Some x /\ p_status x = 206 /\ p_body x = d ++ rest /\ zlen d = length /\
        ((forall i, exists c, n_dst o i = Some c /\ length <= c) -> out = d)) /\
     s' = set_pos (set_net (upd s w (MGet (Some (range_header (h_pos s) length)))) ri (h_si s))
            (h_pos s + length)
     \/ (exists e, r = inr e) /\
        s' = set_net (upd s w (MGet (Some (range_header (h_pos s) length)))) ri (h_si s)).
Proof.
  unfold write_to. intros E L. destruct (get_range _ _ _) as [x s1] eqn:G.
  apply get_range_eq in G as (p & w & S & -> & G). exists p, w.
  destruct x as [x|e].
  - destruct (G x eq_refl) as (-> & PS & PL).
    destruct (write_to_loop _ _ _ _ _ _ _ _) as [[rr out1] s2] eqn:X.
    apply write_to_loop_eq in X; auto. destruct X as (ri & -> & X). exists ri.
    split; auto. destruct rr as [[]|e]; injection E as <- <- <-.
    + left. split; auto. destruct (X eq_refl) as (d & rest & X1 & X2 & X3). split; auto.
      exists x, d, rest. auto.
    + right. split; eauto.
  - injection E as <- <- <-. exists (h_ri s). split; auto. right. split; eauto.
Qed.

Lemma patch_request_eq msg s r s' :
  patch_request serve msg s = (r, s') ->
  exists p w, serve (h_world s) (MPatch msg) = (p, w) /\ s' = upd s w (MPatch msg) /\
    (r = inl tt /\ (exists x, p = Some x /\ p_status x = 200) \/ exists e, r = inr e).
Proof.
  unfold patch_request. intros E. destruct (request _ _ _) as [x s1] eqn:R.
  apply request_eq in R as (p & w & S & -> & ->). injection E as <- <-.
  exists p, w. split; auto. split; auto. destruct p as [p|]; cbn [cbind]; eauto.
  destruct (Z.eqb_spec (p_status p) 200) as [PS|]; cbn [negb]; eauto.
Qed.

End Calls.

(* ---- calls, for the imageio server ---- *)

Lemma getb_app_l (l m : list byte) i : i < zlen l -> 0 <= i -> getb (l ++ m) i = getb l i.
Proof. intros H N. rewrite getb_app by lia. destruct (Z.ltb_spec i (zlen l)); auto; lia. Qed.

Lemma durable_app a b : durable a -> durable b -> durable (a ++ b).
Proof.
  intros A B x f y E M. revert x f y E M.
  induction a as [|z a IH]; intros x f y E M; [eapply B; eauto|].
  destruct x as [|z' x].
  - cbn in E. injection E as -> <-. apply in_or_app. left. apply (A [] f a); auto.
  - cbn in E. injection E as -> E. eapply IH; eauto.
    intros x' f' y' E' M'. apply (A (z' :: x') f' y'); auto. cbn. rewrite E'. auto.
Qed.

Lemma durable_nil : durable [].
Proof. intros [|? ?] f b E; discriminate. Qed.

Lemma map_exc_forall {A B} (f : A -> B + cexc) : forall l r,
  map_exc f l = inl r -> Forall2 (fun a b => f a = inl b) l r.
Proof.
  induction l as [|x l IH]; cbn; intros r E; [injection E as <-; constructor|].
  destruct (f x) eqn:F; cbn in E; [|discriminate].
  destruct (map_exc f l); cbn in E; [|discriminate]. injection E as <-. constructor; auto.
Qed.

Lemma from_dict_end d e x : from_dict d (to_dict e) = inl x ->
  add (x_start x) (x_length x) =
  inl (match e with ZeroExtent a b _ _ | DirtyExtent a b _ _ => a + b end).
Proof.
  destruct e, d; cbn; try discriminate; intros [= <-]; reflexivity.
Qed.

(* Where the last of the extents stored by the backend ends. *)
Definition jend (l : list jext) : Z + cexc :=
  match rev l with [] => inr XIndex | e :: _ => add (x_start e) (x_length e) end.

Lemma jend_extents d l xs total :
  map_exc (from_dict d) (map to_dict l) = inl xs -> extents_end l = Some total ->
  jend xs = inl total.
Proof.
  intros M E. apply map_exc_forall in M. unfold extents_end in E.
  destruct (rev l) as [|e l'] eqn:R; [discriminate|].
  apply (f_equal (@rev _)) in R. rewrite rev_involutive in R. cbn in R. subst l.
  rewrite map_app in M. apply Forall2_app_inv_l in M as (a & b & _ & M & ->). cbn in M.
  inversion_clear M as [|? x ? ? X Y]. inversion Y. subst. unfold jend. rewrite rev_app_distr. cbn.
  rewrite (from_dict_end _ _ _ X). destruct e; injection E as <-; auto.
Qed.

Section ImageioCalls.
Variables (id : str) (total : Z) (envs : nat -> senv).
Hypothesis U : forall i, usable id total (envs i).
Notation srv := (imageio id envs).
Implicit Types s : hb iworld.

Definition Inv (s : hb iworld) : Prop :=
  zlen (iw_img (h_world s)) = total /\
  (forall n, h_size s = Some n -> n = total) /\
  (forall l, h_zero s = Some l -> jend l = inl total).

Lemma size_imageio s r s' :
  size srv s = (r, s') -> Inv s ->
  Inv s' /\ h_pos s' = h_pos s /\ h_can_flush s' = h_can_flush s /\
  h_si s' = h_si s /\ iw_img (h_world s') = iw_img (h_world s) /\ iw_log (h_world s') = iw_log (h_world s) /\
  forall n, r = inl n -> n = total.
Proof.
  unfold size. intros E (I1 & I2 & I3). destruct (h_size s) as [n|] eqn:HS.
  { injection E as <- <-. split; [split; auto; split; auto; rewrite HS; auto|].
    repeat (split; auto). intros m [= <-]; auto. }
  destruct (h_can_extents s) eqn:CE.
  - unfold cached_extents in E. destruct (h_zero s) as [l|] eqn:HZ.
    { cbn [cbind] in E. fold (jend l) in E. rewrite (I3 l eq_refl) in E. injection E as <- <-.
      split; [|repeat (split; auto); congruence]. split; auto. cbn. split; [congruence|].
      rewrite HZ. auto. }
    unfold get_extents in E. destruct (request _ _ _) as [x s1] eqn:R.
    apply request_eq in R as (p & w & S & -> & ->).
    apply (srv_extents id envs _ _ _ false) in S as (S1 & S2 & S3).
    destruct (U (iw_n (h_world s))) as (_ & _ & _ & UE).
    assert (FAIL : forall e, (@inr Z cexc e, upd s w (MExtents (lits "zero"))) = (r, s') ->
      Inv s' /\ h_pos s' = h_pos s /\ h_can_flush s' = h_can_flush s /\
      h_si s' = h_si s /\ iw_img (h_world s') = iw_img (h_world s) /\
      iw_log (h_world s') = iw_log (h_world s) /\ forall n, r = inl n -> n = total).
    { intros e [= <- <-]. cbn. split; [|repeat (split; auto); discriminate].
      split; [cbn; congruence|]. cbn. rewrite HS, HZ. split; discriminate. }
    destruct p as [p|]; [|cbn [cbind] in E; eapply FAIL; eauto].
    cbn [cbind] in E. destruct (p_status p =? 404); [cbn [cbind] in E; eapply FAIL; eauto|].
    destruct (Z.eqb_spec (p_status p) 200) as [PS|]; cbn [negb] in E;
      [|cbn [cbind] in E; eapply FAIL; eauto].
    destruct (S3 p eq_refl PS) as (l & L & J). rewrite J in E.
    destruct (map_exc _ _) as [xs|e] eqn:M; [|cbn [cbind] in E; eapply FAIL; eauto].
    cbn [cbind] in E. fold (jend xs) in E.
    assert (JE : jend xs = inl total) by (eapply jend_extents; eauto).
    rewrite JE in E. injection E as <- <-. cbn.
    split; [|repeat (split; auto); congruence]. split; [cbn; congruence|]. cbn.
    split; congruence.
  - unfold emulate_head in E. destruct (request _ _ _) as [x s1] eqn:R.
    apply request_eq in R as (p & w & S & -> & ->).
    eapply srv_head in S as (S1 & S2 & S3); eauto.
    assert (FAIL : forall e, (@inr Z cexc e, upd s w (MGet None)) = (r, s') ->
      Inv s' /\ h_pos s' = h_pos s /\ h_can_flush s' = h_can_flush s /\
      h_si s' = h_si s /\ iw_img (h_world s') = iw_img (h_world s) /\
      iw_log (h_world s') = iw_log (h_world s) /\ forall n, r = inl n -> n = total).
    { intros e [= <- <-]. cbn. split; [|repeat (split; auto); discriminate].
      split; [cbn; congruence|]. cbn. rewrite HS. split; [discriminate|auto]. }
    destruct p as [p|]; [|cbn [cbind] in E; eapply FAIL; eauto].
    cbn [cbind] in E.
    destruct (Z.eqb_spec (p_status p) 200) as [PS|]; cbn [negb] in E; [|eapply FAIL; eauto].
    rewrite (S3 p eq_refl PS) in E. injection E as <- <-. cbn.
    split; [|repeat (split; auto); congruence]. split; [cbn; congruence|]. cbn.
    split; [congruence|auto].
Qed.

(* What any call does besides its result: the log of the server grows, by
   changes that are flushed if the call succeeds and the client cannot flush;
   a flush ends the log. *)
Definition logged (c : call) s (r : outcome) s' : Prop :=
  h_can_flush s' = h_can_flush s /\
  exists log, iw_log (h_world s') = iw_log (h_world s) ++ log /\
    (forall n, o_result r = inl n ->
       if h_can_flush s then c = CFlush -> log = [EFlush] else durable log).

Lemma logged_same c s r s' :
  h_can_flush s' = h_can_flush s -> iw_log (h_world s') = iw_log (h_world s) -> c <> CFlush ->
  logged c s r s'.
Proof.
  intros C L N. split; auto. exists []. rewrite app_nil_r. split; auto. intros n _.
  destruct (h_can_flush s); [tauto|apply durable_nil].
Qed.

Lemma put_imageio c length body s x r s' :
  put_done srv length body s x s' -> Inv s -> o_result r = x -> c <> CFlush ->
  Inv s' /\ logged c s r s' /\
  (exists k, 0 <= k <= Z.max 0 length /\ k <= zlen body /\ (0 < k -> 0 <= h_pos s /\ h_pos s + length <= total) /\
     replaced (iw_img (h_world s)) (iw_img (h_world s')) (h_pos s) k (getb body)) /\
  match x with
  | inl n => n = length /\ h_pos s' = h_pos s + length /\ 0 <= h_pos s /\
      h_pos s + length <= total /\ 0 < length <= zlen body /\
      replaced (iw_img (h_world s)) (iw_img (h_world s')) (h_pos s) length (getb body)
  | inr _ => h_pos s' = h_pos s
  end.
Proof.
  intros (si & p & w & S & D) (I1 & I2 & I3) RX NF. unfold put_message in S.
  eapply (srv_put id total envs U) in S as (log & L & Z & K & P); eauto.
  assert (LG : h_can_flush s' = h_can_flush s -> h_world s' = w ->
     (forall n, x = inl n -> exists y, p = Some y /\ p_status y = 200) -> logged c s r s').
  { intros C HW N. split; auto. exists log. rewrite HW. split; auto. intros n R.
    rewrite RX in R. destruct (N n R) as (y & Y1 & Y2). subst p.
    destruct (P y eq_refl Y2) as (_ & _ & _ & _ & _ & PD).
    destruct (h_can_flush s); [tauto|auto]. }
  destruct D as [(-> & (y & Y1 & Y2) & ->)|((e & ->) & ->)]; cbn [h_world h_pos set_pos set_net upd].
  - split; [split; [cbn; auto|auto]|]. split; [apply LG; eauto|]. split; auto.
    destruct (P y Y1 Y2) as (P1 & P2 & P3 & P4 & P5 & _). auto 10.
  - split; [split; [cbn; auto|auto]|]. split; [apply LG; auto; discriminate|]. auto.
Qed.

Lemma getb_prefix body buf i : prefix body buf -> 0 <= i < zlen body -> getb body i = getb buf i.
Proof. intros (x & ->) H. rewrite getb_app_l by lia. auto. Qed.

Lemma call_imageio o c s r s' :
  run_call srv o c s = (r, s') -> Inv s ->
  Inv s' /\ logged c s r s' /\
  array_call o c (h_pos s) (iw_img (h_world s)) r (h_pos s') (iw_img (h_world s')).
Proof.
  intros E I. pose proof I as (I1 & I2 & I3). destruct c; cbn [run_call] in E.
  - (* readinto *)
    destruct (readinto srv o buf s) as [[x b] s1] eqn:R. injection E as <- <-.
    apply readinto_eq in R as (s2 & rs & SZ & R).
    apply size_imageio in SZ as (J & HP & HF & _ & HI & HL & HN); auto.
    destruct rs as [sz|e].
    + rewrite (HN sz eq_refl) in *. cbn zeta in R. cbn [array_call o_result o_bytes].
      rewrite I1. pose proof (zlen_nonneg buf) as ZB.
      destruct R as [(N & -> & -> & ->)|(N & p & w & ri & d & S & -> & D & DP & R)].
      * split; auto. split; [apply logged_same; auto; discriminate|]. split; [lia|]. split; [lia|]. split; [lia|].
        split; auto. split; auto. split; [|auto].
        rewrite take_nonpos by lia. apply is_range_nil.
      * eapply (srv_get id total envs U) in S as (S1 & S2 & S3); [|exact (proj1 J)].
        assert (JJ : forall ri pos, Inv (set_pos (set_net (upd s2 w (MGet (Some (range_header (h_pos s)
           (Z.min (zlen buf) (total - h_pos s)))))) ri (h_si s2)) pos)).
        { intros. destruct J as (J1 & J2 & J3). split; [cbn; congruence|]. auto. }
        destruct R as [(-> & DE & ->)|((e & ->) & ->)].
        -- split; [apply JJ|]. split; [apply logged_same; cbn; congruence|].
           cbn [h_pos set_pos set_net h_world upd]. split; [lia|]. split.
           { destruct DP as [->|(y & rest & -> & Y1 & Y2)]; [rewrite zlen_nil in DE; lia|].
             destruct (S3 y eq_refl Y1) as (S4 & _). lia. }
           split; [lia|]. split; [congruence|].
           split; [rewrite zlen_app, zlen_drop; lia|].
           assert (TK : take (Z.min (zlen buf) (total - h_pos s)) (d ++ drop (zlen d) buf) = d).
           { rewrite take_app, DE, Z.sub_diag, (take_nonpos 0), app_nil_r by lia. apply take_all. lia. }
           rewrite TK. split.
           ++ destruct DP as [->|(y & rest & -> & Y1 & Y2)]; [rewrite zlen_nil in DE; lia|].
              destruct (S3 y eq_refl Y1) as (_ & _ & k & K & (G1 & G2)).
              rewrite Y2, zlen_app in G1. pose proof (zlen_nonneg rest).
              split; [auto|]. intros i Hi. rewrite <- HI. specialize (G2 i ltac:(lia)).
              rewrite Y2, getb_app_l in G2 by lia. auto.
           ++ rewrite drop_app, DE, Z.sub_diag, (drop_nonpos 0), (drop_all _ d) by lia. reflexivity.
        -- split; [apply (JJ ri (h_pos s2))|]. split; [apply logged_same; cbn; congruence|].
           cbn. split; congruence.
    + destruct R as (-> & -> & ->). split; auto. split; [apply logged_same; auto; discriminate|].
      cbn. auto.
  - (* write *)
    destruct (write srv o buf s) as [x s1] eqn:R. injection E as <- <-.
    apply write_done in R as (body & B & D).
    assert (ZB : zlen body <= zlen buf).
    { destruct B as (y & ->). rewrite zlen_app. pose proof (zlen_nonneg y). lia. }
    pose proof (zlen_nonneg buf) as ZF.
    apply (put_imageio (CWrite buf) _ _ _ _ (Out x [])) in D as (J & L & (k & K1 & K2 & KI & K3) & M);
      auto; [|discriminate]. split; auto. split; auto. cbn. destruct x as [n|e].
    + destruct M as (-> & M1 & M2 & M3 & M4 & M5). rewrite I1. do 4 (split; [auto|]).
      eapply replaced_ext; [|exact M5]. intros i Hi. apply getb_prefix; auto. lia.
    + split; auto. exists k. split; [lia|]. rewrite I1. split; [exact KI|]. eapply replaced_ext; [|exact K3].
      intros i Hi. apply getb_prefix; auto. lia.
  - (* zero *)
    destruct (zero srv o n s) as [x s1] eqn:R. injection E as <- <-.
    unfold zero in R. destruct (h_can_zero s); cbn [negb] in R.
    + destruct (patch_request _ _ _) as [y s2] eqn:P.
      apply patch_request_eq in P as (p & w & S & -> & P).
      eapply (srv_zero id total envs U) in S as (log & L & Z & K & Q); auto.
      assert (LG : forall pos, (forall m, x = inl m -> exists y, p = Some y /\ p_status y = 200) ->
        logged (CZero n) s (Out x []) (set_pos (upd s w (MPatch (zero_msg (h_pos s) n
          (negb (h_can_flush s))))) pos)).
      { intros pos N. split; auto. exists log. split; auto. intros m RX. cbn in RX.
        destruct (N m RX) as (y1 & -> & Y2). destruct (Q _ eq_refl Y2) as (_ & _ & _ & _ & PD).
        destruct (h_can_flush s); [discriminate|auto]. }
      destruct P as [(-> & y1 & Y1 & Y2)|(e & ->)]; injection R as <- <-.
      * destruct (Q _ Y1 Y2) as (Q1 & Q2 & Q3 & Q4 & _).
        split; [split; auto|]. split; [apply LG; eauto|]. cbn. rewrite I1. auto 10.
      * split; [split; auto|]. split; [apply (LG (h_pos s)); discriminate|]. cbn. rewrite I1. auto.
    + destruct (Z.leb_spec 0 n) as [N|N].
      * apply emulate_zero_done in R as (k & K & D & F); auto.
        apply (put_imageio (CZero n) _ _ _ _ (Out x [])) in D as (J & L & (k2 & K1 & K2 & KI & K3) & M);
          auto; [|discriminate]. rewrite zlen_zeros in * by lia. split; auto. split; auto.
        assert (ZE : forall i, 0 <= i < k -> getb (zeros k) i = x00) by (intros; apply getb_zeros).
        cbn. destruct x as [m|e].
        -- rewrite (F m eq_refl) in *. destruct M as (-> & M1 & M2 & M3 & M4 & M5). rewrite I1.
           do 4 (split; [auto|]). eapply replaced_ext; [|exact M5]. auto.
        -- split; auto. exists k2. split; [lia|]. rewrite I1. split; [exact KI|]. eapply replaced_ext; [|exact K3].
           intros i Hi. apply ZE. lia.
      * apply emulate_zero_neg in R as (body & D); auto.
        apply (put_imageio (CZero n) _ _ _ _ (Out x [])) in D as (J & L & (k2 & K1 & K2 & KI & K3) & M);
          auto; [|discriminate]. split; auto. split; auto. cbn. destruct x as [m|e]; [lia|].
        split; auto. exists k2. split; [lia|]. rewrite I1. split; [exact KI|]. eapply replaced_ext; [|exact K3]. lia.
  - (* flush *)
    destruct (flush srv s) as [x s1] eqn:R. injection E as <- <-. unfold flush in R.
    destruct (h_can_flush s) eqn:CF.
    + apply patch_request_eq in R as (p & w & S & -> & P).
      apply srv_flush in S as (S1 & log & L & Q).
      split; [split; [cbn; congruence|auto]|]. split.
      * split; auto. exists log. split; auto. rewrite CF. intros n RX _. cbn in RX.
        destruct P as [(-> & y1 & Y1 & Y2)|(e & ->)]; [eauto|discriminate].
      * destruct P as [(-> & _)|(e & ->)]; cbn; auto.
    + injection R as <- <-. split; auto. split; [|cbn; auto]. split; auto. exists [].
      rewrite app_nil_r. split; auto. rewrite CF. intros. apply durable_nil.
  - (* size *)
    destruct (size srv s) as [x s1] eqn:R. injection E as <- <-.
    apply size_imageio in R as (J & HP & HF & _ & HI & HL & HN); auto.
    split; auto. split; [apply logged_same; auto; discriminate|]. cbn. destruct x; auto.
    rewrite I1. auto.
  - (* tell *)
    injection E as <- <-. split; auto. split; [apply logged_same; auto; discriminate|]. cbn. auto.
  - (* seek *)
    destruct (seek srv n how s) as [x s1] eqn:R. injection E as <- <-. unfold seek in R. cbn.
    rewrite I1. destruct (how =? 0).
    { injection R as <- <-. split; [split; auto|]. split; [apply logged_same; auto; discriminate|].
      cbn. auto. }
    destruct (how =? 1).
    { injection R as <- <-. split; [split; auto|]. split; [apply logged_same; auto; discriminate|].
      cbn. auto. }
    destruct (how =? 2).
    { destruct (size srv s) as [y s2] eqn:SZ.
      apply size_imageio in SZ as (J & HP & HF & _ & HI & HL & HN); auto.
      destruct y as [sz|e]; injection R as <- <-.
      - split; [exact J|]. split; [apply logged_same; auto; discriminate|].
        cbn. rewrite (HN sz eq_refl). auto.
      - split; auto. split; [apply logged_same; auto; discriminate|]. auto. }
    injection R as <- <-. split; auto. split; [apply logged_same; auto; discriminate|]. auto.
  - (* read_from *)
    destruct (read_from srv o src length buflen s) as [[x b] s1] eqn:R. injection E as <- <-.
    apply read_from_done in R as (body & t & k & -> & -> & K & ZB & T & D & _).
    apply (put_imageio (CReadFrom src length buflen) _ _ _ _ (Out x (drop t src)))
      in D as (J & L & (k2 & K1 & K2 & KI & K3) & M); auto; [|discriminate].
    assert (ZK : k <= zlen src) by (pose proof (zlen_take k src); pose proof (zlen_nonneg src); lia).
    split; auto. split; auto. cbn.
    destruct x as [n|e].
    + destruct M as (-> & M1 & M2 & M3 & M4 & M5). rewrite I1.
      assert (TE : t = length) by lia. subst t. do 4 (split; [auto|]). split; [lia|]. split; [auto|].
      eapply replaced_ext; [|exact M5]. intros i Hi. rewrite getb_take by lia.
      destruct (Z.ltb_spec i k); auto; lia.
    + split; auto. exists k2. split; [lia|]. split; [lia|]. rewrite I1. split; [exact KI|]. eapply replaced_ext; [|exact K3].
      intros i Hi. rewrite getb_take by lia.
      destruct (Z.ltb_spec i k); auto; lia.
  - (* write_to *)
    destruct (write_to srv o length buflen s) as [[x b] s1] eqn:R. injection E as <- <-.
    destruct (Z.leb_spec 0 length) as [LN|LN].
    + apply write_to_eq in R as (p & w & ri & S & R); auto.
      eapply (srv_get id total envs U) in S as (S1 & S2 & S3); auto.
      assert (JJ : forall pos, Inv (set_pos (set_net (upd s w (MGet (Some (range_header (h_pos s)
         length)))) ri (h_si s)) pos)).
      { intros. split; [cbn; congruence|]. auto. }
      destruct R as [(-> & (y & d & rest & -> & Y1 & Y2 & Y3 & Y4) & ->)|((e & ->) & ->)].
      * split; [apply JJ|]. split; [apply logged_same; cbn; congruence|].
        destruct (S3 y eq_refl Y1) as (B1 & B2 & k & K & (G1 & G2)).
        cbn. rewrite I1. split; auto. split; auto. split; auto. split; [lia|]. split; [lia|].
        intros H. rewrite (Y4 H). rewrite Y2, zlen_app in G1. pose proof (zlen_nonneg rest).
        split; [auto|]. intros i Hi. specialize (G2 i ltac:(lia)). rewrite Y2, getb_app_l in G2 by lia. auto.
      * split; [apply (JJ (h_pos s))|]. split; [apply logged_same; cbn; congruence|]. cbn. auto.
    + unfold write_to in R. destruct (get_range _ _ _) as [y s2] eqn:G.
      apply get_range_eq in G as (p & w & S & -> & G).
      eapply (srv_get id total envs U) in S as (S1 & S2 & S3); auto. destruct y as [y|e].
      * destruct (G y eq_refl) as (-> & PS & _). destruct (S3 y eq_refl PS). lia.
      * injection R as <- <- <-. split; [split; [cbn; congruence|auto]|].
        split; [apply logged_same; cbn; congruence|]. cbn. auto.
Qed.

End ImageioCalls.

(* ---- a willing server ---- *)

Lemma rdigits_length fuel : forall n, (List.length (rdigits fuel n) <= fuel)%nat.
Proof.
  induction fuel as [|fuel IH]; intros n; cbn; [lia|]. destruct (n <? 10); cbn; [lia|].
  specialize (IH (n / 10)). lia.
Qed.

Lemma show_length n total : 0 <= n <= total -> Z.of_nat (List.length (show n)) <= Z.log2 total + 1.
Proof.
  intros H. unfold show. destruct (Z.ltb_spec n 0); [lia|]. rewrite rev_length.
  pose proof (rdigits_length (S (Z.to_nat (Z.log2 n))) n).
  pose proof (Z.log2_le_mono n total ltac:(lia)). pose proof (Z.log2_nonneg n). lia.
Qed.

Lemma range_parse_text lim a b total : 0 <= a <= b -> b <= total ->
  (forall m, lim = Some m -> 2 * Z.log2 total + 20 <= m) ->
  range_parse lim (range_text a b) = inl (Range a (Some b)).
Proof.
  intros H T L.
  assert (N : range_parse None (range_text a b) = inl (Range a (Some b))).
  { apply range_parse_spec. exists (range_text a b), (FromTo a b). split; auto. split; [|reflexivity].
    apply (form_from_to (show a) (show b)); try (apply show_decimal; lia). lia. }
  destruct lim as [m|]; auto. rewrite range_parse_lim; auto.
  specialize (L m eq_refl). pose proof (show_length a total ltac:(lia)).
  pose proof (show_length b total ltac:(lia)).
  unfold range_text. rewrite !app_length. cbn [lits list_ascii_of_string List.length]. lia.
Qed.

Lemma crange_parse_text lim a b total : 0 <= a <= b -> b <= total ->
  (forall m, lim = Some m -> 2 * Z.log2 total + 20 <= m) ->
  content_range_parse lim (crange_text a b) = inl (ContentRange a (Some b) None).
Proof.
  intros H T L.
  assert (N : content_range_parse None (crange_text a b) = inl (ContentRange a (Some b) None)).
  { apply content_range_parse_spec. exists (crange_text a b). split; auto.
    apply (cr_form (show a) (show b) (lit "*")).
    - apply show_decimal. lia.
    - constructor. apply show_decimal. lia.
    - constructor.
    - intros l [= <-]. lia.
    - discriminate. }
  destruct lim as [m|]; auto. rewrite content_range_parse_lim; auto.
  specialize (L m eq_refl). pose proof (show_length a total ltac:(lia)).
  pose proof (show_length b total ltac:(lia)).
  unfold crange_text. rewrite !app_length. cbn [lits list_ascii_of_string List.length]. lia.
Qed.

Section Willing.
Variables (id : str) (total : Z) (envs : nat -> senv).
Hypothesis ID : id <> [].
Hypothesis Wi : forall i, willing id total (envs i).
Hypothesis Pa : forall i, patient total (envs i).
Notation srv := (imageio id envs).

Lemma will_put w (f : bool) n a body :
  zlen (iw_img w) = total -> 0 <= a -> 0 < n -> a + n <= total -> n = zlen body ->
  exists p w', srv w (MPut (if f then [(lits "flush", lits "n")] else []) (show n)
                      (crange_text a (a + n - 1)) body) = (Some p, w') /\ p_status p = 200.
Proof.
  intros L A N T B.
  set (e := envs (iw_n w)). destruct (Wi (iw_n w)) as ((GB & CC & _) & (bs & buf & OP) & RD & WR & RF & CN & LS & LM & RG & WG & WW & WF). fold e in GB, CC, OP, RD, WR, RF, CN, LS, LM, RG, WG, WW, WF.
  destruct (GB bs buf OP) as (B1 & B2 & B3). destruct (CC CN) as (WC & _).
  pose proof (Pa _ _ _ OP) as FU. fold e in FU.
  destruct (write_run_ends (i_fuel (se_v e)) (iw_img w) body bs (zlen buf) a (Some n) (negb f) (i_write (se_v e)))
    as ([s r] & X); auto; try lia. { intros ? [= <-]. lia. }
  assert (r = Success) as ->.
  { eapply write_run_good; eauto; try lia. split; [exact WG|]. split; [exact WW|]. auto. }
  unfold imageio. fold e. cbn [ireq_of]. unfold put. cbn [q_id q_clen q_crange q_query q_data].
  destruct id as [|i0 id0]; [tauto|]. cbn [se_v i_lim i_auth i_open i_refused i_canceled i_write i_fuel].
  rewrite (content_length_decimal _ (show n) n); [|apply show_decimal; lia|].
  2:{ intros m M. specialize (LM m M). pose proof (show_length n total ltac:(lia)).
      pose proof (Z.log2_nonneg total). lia. }
  rewrite (crange_parse_text _ a (a + n - 1) total) by (auto; lia).
  cbn [cr_first]. rewrite query_flush.
  unfold enter. cbn [q_id i_auth i_open se_v]. rewrite WR, OP. unfold allowed_range.
  destruct (Z.gtb_spec (a + n) total); [lia|]. rewrite RF.
  match goal with |- context [write_run (i_fuel (se_v e)) _ _ _ _ _ _ ?i _] =>
    replace i with (negb f) by (destruct f; reflexivity) end.
  rewrite X. unfold op_result. rewrite CN. unfold served. rewrite LS.
  eexists _, _. split; reflexivity.
Qed.

Lemma will_zero w n a (f : bool) :
  zlen (iw_img w) = total -> 0 <= a -> 0 <= n -> a + n <= total ->
  exists p w', srv w (MPatch (zero_msg a n f)) = (Some p, w') /\ p_status p = 200.
Proof.
  intros L A N T.
  set (e := envs (iw_n w)). destruct (Wi (iw_n w)) as ((GB & CC & _) & (bs & buf & OP) & RD & WR & RF & CN & LS & LM & RG & WG & WW & WF). fold e in GB, CC, OP, RD, WR, RF, CN, LS, LM, RG, WG, WW, WF.
  destruct (CC CN) as (WC & _).
  pose proof (Pa _ _ _ OP) as FU. fold e in FU. destruct (GB bs buf OP) as (B1 & _).
  destruct (zero_run_ends (i_fuel (se_v e)) (iw_img w) a n f (i_write (se_v e))) as ([s r] & X); auto; try lia.
  assert (r = Success) as -> by (eapply zero_run_good; eauto).
  unfold imageio. fold e. cbn [ireq_of]. unfold patch. cbn [q_id q_json].
  destruct id as [|i0 id0]; [tauto|].
  replace (enum_json (zero_msg a n f) (lits "op") [lits "zero"; lits "flush"])
    with (@inl str exc (lits "zero")) by reflexivity.
  replace (str_eqb (lits "zero") (lits "zero")) with true by reflexivity. unfold patch_zero.
  replace (integer (zero_msg a n f) (lits "size") 0 None) with (@inl Z exc n)
    by (unfold integer; cbn; destruct (Z.ltb_spec n 0); [lia|auto]).
  replace (integer (zero_msg a n f) (lits "offset") 0 (Some 0)) with (@inl Z exc a)
    by (unfold integer; cbn; destruct (Z.ltb_spec a 0); [lia|auto]).
  replace (boolean (zero_msg a n f) (lits "flush") false) with (@inl bool exc f) by reflexivity.
  cbn [hbind]. unfold enter.
  cbn [q_id se_v i_lim i_auth i_open i_refused i_canceled i_write i_fuel].
  rewrite WR, OP. unfold allowed_range. destruct (Z.gtb_spec (a + n) total); [lia|]. rewrite RF.
  rewrite X. unfold op_result. rewrite CN. unfold served. rewrite LS.
  eexists _, _. split; reflexivity.
Qed.

Lemma will_flush w :
  exists p w', srv w (MPatch (JObj [(lits "op", JStr (lits "flush"))])) = (Some p, w') /\
    p_status p = 200.
Proof.
  set (e := envs (iw_n w)). destruct (Wi (iw_n w)) as ((GB & CC & _) & (bs & buf & OP) & RD & WR & RF & CN & LS & LM & RG & WG & WW & WF). fold e in GB, CC, OP, RD, WR, RF, CN, LS, LM, RG, WG, WW, WF.
  destruct (CC CN) as (WC & _).
  unfold imageio. fold e. cbn [ireq_of]. unfold patch. cbn [q_id q_json].
  destruct id as [|i0 id0]; [tauto|].
  replace (enum_json (JObj [(lits "op", JStr (lits "flush"))]) (lits "op") [lits "zero"; lits "flush"])
    with (@inl str exc (lits "flush")) by reflexivity.
  replace (str_eqb (lits "flush") (lits "zero")) with false by reflexivity. unfold patch_flush, enter.
  cbn [q_id se_v i_lim i_auth i_open i_refused i_canceled i_write i_fuel].
  rewrite WR, OP, RF. unfold flush_run, finish. rewrite WF. unfold op_result. rewrite CN.
  unfold served. rewrite LS. eexists _, _. split; reflexivity.
Qed.

Lemma will_get w n a :
  zlen (iw_img w) = total -> 0 <= a -> 0 < n -> a + n <= total ->
  exists p w', srv w (MGet (Some (range_text a (a + n - 1)))) = (Some p, w') /\
    p_status p = 206 /\ p_length p = Some n /\ zlen (p_body p) = n.
Proof.
  intros L A N T.
  set (e := envs (iw_n w)). destruct (Wi (iw_n w)) as ((GB & CC & _) & (bs & buf & OP) & RD & WR & RF & CN & LS & LM & RG & WG & WW & WF). fold e in GB, CC, OP, RD, WR, RF, CN, LS, LM, RG, WG, WW, WF.
  destruct (GB bs buf OP) as (B1 & B2 & B3). destruct (CC CN) as (_ & RC).
  pose proof (Pa _ _ _ OP) as FU. fold e in FU.
  destruct (run_ends (i_fuel (se_v e)) (iw_img w) buf bs a n (i_read (se_v e))) as ([s r] & X); auto; try lia.
  assert (r = Success) as ->.
  { eapply (run_good (iw_img w) buf bs a n); eauto; try lia.
    intros i. destruct (RG bs buf OP i) as (c & C1 & C2 & C3 & C4). eauto 10. }
  assert (SN : zlen (r_sent s) = n).
  { pose proof X as Y. apply read_sends_exact_bytes in Y as ((Y & _) & _); auto; lia. }
  unfold imageio. fold e. cbn [ireq_of]. unfold get. cbn [q_id q_range].
  destruct id as [|i0 id0]; [tauto|]. cbn [se_v i_lim i_auth i_open i_refused i_canceled i_write i_read i_fuel].
  rewrite (range_parse_text _ a (a + n - 1) total) by (auto; lia). cbn [r_first r_last].
  destruct (Z.ltb_spec a 0); [lia|]. unfold enter.
  cbn [q_id i_auth i_open se_v]. rewrite RD, OP. unfold allowed_range, available_range.
  replace (a + n - 1 - a + 1) with n by lia.
  destruct (Z.gtb_spec (a + n) total); [lia|]. cbn [hbind].
  destruct (Z.gtb_spec (a + n) (Z.min total (zlen (iw_img w)))); [lia|]. cbn [hbind].
  rewrite RF, X. unfold op_result. rewrite CN. unfold served. rewrite LS.
  eexists _, _. split; [reflexivity|]. auto.
Qed.

End Willing.

Lemma read_all_ok o : (forall i, n_read o i <> None) ->
  forall {W} fuel length rest got (s : hb W),
  (List.length rest < fuel)%nat -> zlen got <= length -> length <= zlen got + zlen rest ->
  exists got' s', read_all o fuel length rest got s = (inl tt, got', s').
Proof.
  intros R W. induction fuel as [|fuel IH]; intros length rest got s F G H; [lia|].
  cbn [read_all]. destruct (Z.ltb_spec (zlen got) length) as [B|B]; [|eauto].
  destruct (res_readinto o (length - zlen got) rest s) as [x s1] eqn:X.
  pose proof X as Y. apply res_readinto_eq in Y as (-> & Y).
  destruct x as [[d rest']|].
  - destruct (Y _ _ eq_refl) as (-> & D1 & D2).
    assert (N : d <> []). { apply D2; [lia|]. intros Z. rewrite Z, zlen_nil in H. lia. }
    destruct d as [|b d]; [tauto|]. rewrite app_length in F. cbn [List.length] in F. rewrite zlen_app in H.
    apply IH; rewrite ?zlen_app; lia.
  - unfold res_readinto in X. destruct (n_read o (h_ri s)) eqn:Q; [discriminate|].
    exfalso. eapply R; eauto.
Qed.

(* The loop of write_to ends well when nothing raises. *)
Lemma write_to_loop_ok o : (forall i, n_read o i <> None) -> (forall i, n_dst o i <> None) ->
  forall {W} fuel i buflen todo rest out (s : hb W),
  0 < buflen -> (List.length rest < fuel)%nat -> 0 <= todo <= zlen rest ->
  exists out' s', write_to_loop o fuel i buflen todo rest out s = (inl tt, out', s').
Proof.
  intros R D W. induction fuel as [|fuel IH]; intros i buflen todo rest out s B F T; [lia|].
  cbn [write_to_loop]. destruct (Z.eqb_spec todo 0) as [|NT]; [eauto|].
  rewrite py_stop_nonneg by lia.
  destruct (res_readinto o (Z.min (Z.min todo buflen) buflen) rest s) as [x s1] eqn:X.
  pose proof X as Y. apply res_readinto_eq in Y as (-> & Y).
  destruct x as [[d rest']|].
  - destruct (Y _ _ eq_refl) as (-> & D1 & D2).
    assert (N : d <> []). { apply D2; [lia|]. intros Q0. rewrite Q0 in T. change (zlen (@nil byte)) with 0 in T. lia. }
    destruct d as [|b d]; [tauto|]. destruct (n_dst o i) as [c|] eqn:Q; [|elim (D _ Q)].
    rewrite app_length in F. cbn [List.length] in F. rewrite zlen_app in T.
    apply IH; auto; lia.
  - unfold res_readinto in X. destruct (n_read o (h_ri s)) eqn:Q; [discriminate|].
    exfalso. eapply R; eauto.
Qed.

(* A state that differs only in the answers of the connection used. *)
Lemma put_message_net {W} n body (s : hb W) a b : put_message n body (set_net s a b) = put_message n body s.
Proof. reflexivity. Qed.

(* The loops that send a body reach the end of the request. *)
Lemma read_from_loop_ok o {W} (serve : W -> message -> option response * W) :
  (forall i, exists c, n_src o i = Some c /\ 0 < c) -> (forall i, n_send o i = SendOk) ->
  forall fuel i buflen length todo src sent (s : hb W),
  0 < buflen -> (List.length src < fuel)%nat -> 0 <= todo <= zlen src -> zlen sent + todo = length ->
  exists src' sent' si, zlen sent' = length /\
    read_from_loop serve o fuel i buflen length todo src sent s =
      let (r, s') := put_finish serve length sent' (set_net s (h_ri s) si) in (r, src', s').
Proof.
  intros C S. induction fuel as [|fuel IH]; intros i buflen length todo src sent s B F T L; [lia|].
  cbn [read_from_loop]. destruct (Z.eqb_spec todo 0) as [|NT].
  { exists src, sent, (h_si s). rewrite set_net_id. split; [lia|]. reflexivity. }
  destruct (C i) as (c & -> & CP). rewrite py_stop_nonneg by lia.
  set (n := clamp 0 _ c). assert (N : 1 <= n <= Z.min todo (zlen src)) by (unfold n, clamp; lia).
  clearbody n. destruct (Z.eqb_spec n 0); [lia|]. unfold send. rewrite S.
  destruct (IH (Datatypes.S i) buflen length (todo - n) (drop n src) (sent ++ take n src)
              (set_net s (h_ri s) (Datatypes.S (h_si s)))) as (src' & sent' & si & L' & E).
  - auto.
  - pose proof (zlen_drop n src). unfold zlen in *. lia.
  - rewrite zlen_drop. lia.
  - rewrite zlen_app, zlen_take. lia.
  - exists src', sent', si. split; auto.
Qed.

Lemma zero_loop_ok o {W} (serve : W -> message -> option response * W) : (forall i, n_send o i = SendOk) ->
  forall fuel length todo sent (s : hb W),
  zlen sent + todo = length -> 0 <= todo -> (Z.to_nat (todo / CHUNK) < fuel)%nat ->
  exists sent' si, zlen sent' = length /\
    zero_loop serve o fuel length todo sent s = put_finish serve length sent' (set_net s (h_ri s) si).
Proof.
  intros S. induction fuel as [|fuel IH]; intros length todo sent s L T F; [lia|].
  cbn [zero_loop]. unfold send. rewrite S. destruct (Z.ltb_spec CHUNK todo) as [B|B].
  - destruct (IH length (todo - CHUNK) (sent ++ zeros CHUNK) (set_net s (h_ri s) (Datatypes.S (h_si s))))
      as (sent' & si & L' & E).
    + rewrite zlen_app, zlen_zeros. unfold CHUNK in *. lia.
    + lia.
    + assert (Q : todo = (todo - CHUNK) + 1 * CHUNK) by lia. rewrite Q in F.
      rewrite Z.div_add in F by (unfold CHUNK; lia).
      assert (0 <= (todo - CHUNK) / CHUNK) by (apply Z.div_pos; unfold CHUNK in *; lia). lia.
    + exists sent', si. auto.
  - rewrite py_stop_nonneg by lia. exists (sent ++ zeros (Z.min todo CHUNK)), (Datatypes.S (h_si s)).
    split; [|reflexivity]. rewrite zlen_app, zlen_zeros. lia.
Qed.
