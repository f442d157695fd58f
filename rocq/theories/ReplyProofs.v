(* Lemmas for ReplyTheorems.v. *)
From Coq Require Import ZArith Lia List Bool String.
From Verif Require Import UrlModel ReplyModel ReplySpec.
Import ListNotations.
Open Scope Z_scope.

(* ---- encoding ---- *)

Lemma utf8_app a b : utf8 (a ++ b) = match utf8 a, utf8 b with Some x, Some y => Some (x ++ y) | _, _ => None end.
Proof.
  induction a as [|c a IH]; cbn [app utf8]; [destruct (utf8 b); auto|].
  rewrite IH. destruct (utf8_char c); auto. destruct (utf8 a); auto. destruct (utf8 b); auto. rewrite app_assoc. auto.
Qed.

Lemma utf8_ascii s : Forall (fun c => 0 <= c < 128) s -> utf8 s = Some s.
Proof.
  induction 1 as [|c s C _ IH]; cbn [utf8]; auto. rewrite IH. unfold utf8_char. replace (c <? 128) with true by lia. auto.
Qed.

Lemma utf8_clean s : clean s -> exists b, utf8 s = Some b /\ line_bytes b.
Proof.
  induction 1 as [|c s (C1 & C2 & C3 & C4) _ (b & E & L)]; [exists []; split; [auto|constructor]|].
  cbn [utf8]. rewrite E. unfold utf8_char.
  assert (D : forall x y, 0 <= y -> 0 < x -> 0 <= y mod x < x /\ 0 <= y / x).
  { intros. split; [apply Z.mod_pos_bound; lia|apply Z.div_pos; lia]. }
  repeat match goal with |- context [if ?x then _ else _] => destruct x eqn:?K end;
    try (eexists; split; [reflexivity|]); try lia;
    repeat (apply Forall_app; split; auto);
    repeat (constructor; [|]); auto;
    pose proof (D 64 c); pose proof (D 4096 c); pose proof (D 262144 c);
    pose proof (D 64 (c / 64)); pose proof (D 64 (c / 4096)); lia.
Qed.

Lemma name_ascii k : name k -> Forall (fun c => 0 <= c < 128) k.
Proof. intros (_ & H). eapply Forall_impl; [|exact H]. cbn. unfold name_char. intros. lia. Qed.

(* ---- decimal numbers ---- *)

Definition val (acc : Z) (l : list Z) : Z := fold_left (fun a c => 10 * a + (c - 48)) l acc.

Lemma dec_fuel_val fuel n : 0 <= n -> (Z.to_nat (Z.log2 n) < fuel)%nat ->
  val 0 (dec_fuel fuel n) = n /\ dec_fuel fuel n <> [] /\ Forall (fun c => 48 <= c <= 57) (dec_fuel fuel n).
Proof.
  revert n. induction fuel as [|fuel IH]; intros n N F; [lia|]. cbn [dec_fuel].
  destruct (Z.ltb_spec n 10) as [L|L]; [unfold val; cbn [fold_left]; split; [lia|split; [discriminate|constructor; [lia|constructor]]]|].
  pose proof (Z.div_mod n 10 ltac:(lia)). pose proof (Z.mod_pos_bound n 10 ltac:(lia)).
  destruct (IH (n / 10)) as (V & NE & FA).
  - apply Z.div_pos; lia.
  - assert (Z.log2 (n / 10) <= Z.log2 (n / 2)) by (apply Z.log2_le_mono; apply Z.div_le_compat_l; lia).
    assert (Z.log2 (n / 2) = Z.log2 n - 1).
    { change (n / 2) with (n / 2 ^ 1). rewrite <- Z.shiftr_div_pow2 by lia. rewrite Z.log2_shiftr by lia.
      pose proof (Z.log2_pos n). lia. }
    pose proof (Z.log2_nonneg (n / 10)). lia.
  - split; [|split; [destruct (dec_fuel fuel (n / 10)); discriminate|apply Forall_app; split; auto; constructor; [lia|constructor]]].
    unfold val in *. rewrite fold_left_app, V. cbn [fold_left]. lia.
Qed.

Lemma dec_val n : 0 <= n -> val 0 (dec n) = n /\ dec n <> [] /\ Forall (fun c => 48 <= c <= 57) (dec n).
Proof. intros N. unfold dec. replace (n <? 0) with false by lia. apply dec_fuel_val; lia. Qed.

Lemma dec_clean n : 0 <= n -> clean (dec n).
Proof.
  intros N. destruct (dec_val n N) as (_ & _ & F). eapply Forall_impl; [|exact F]. cbn. unfold clean_char. intros. lia.
Qed.

Lemma number_spec l acc p : Forall (fun c => 48 <= c <= 57) l -> number acc (l ++ 32 :: p) = Some (val acc l).
Proof.
  intros F. revert acc. induction F as [|c l C _ IH]; intros acc; [reflexivity|].
  cbn [app number val fold_left].
  assert (N : c <> 32) by lia.
  destruct c as [|q|q]; try lia.
  replace ((48 <=? Z.pos q) && (Z.pos q <=? 57)) with true by lia.
  rewrite IH. repeat (destruct q as [q|q|]; try lia; auto).
Qed.

(* ---- lines ---- *)

Lemma read_line l r cur : line_bytes l -> cur ++ l <> [] ->
  read_lines (l ++ CRLF ++ r) cur = match read_lines r [] with Some (ls, rest) => Some ((cur ++ l) :: ls, rest) | None => None end.
Proof.
  intros F. revert cur. induction F as [|c l (C & C') _ IH]; intros cur NE.
  - rewrite app_nil_r in *. cbn [app CRLF read_lines]. destruct cur; [congruence|]. auto.
  - assert (E : read_lines ((c :: l) ++ CRLF ++ r) cur = read_lines (l ++ CRLF ++ r) (cur ++ [c])).
    { cbn [app read_lines]. destruct c as [|q|q]; auto.
      replace ((Z.pos q =? 13) || (Z.pos q =? 10)) with false by lia.
      repeat (destruct q as [q|q|]; auto). congruence. }
    rewrite E, IH; rewrite <- app_assoc; auto.
Qed.

Lemma read_end r : read_lines (CRLF ++ r) [] = Some ([], r).
Proof. reflexivity. Qed.

Lemma field_spec k v : Forall name_char k -> field (k ++ 58 :: 32 :: v) = Some (k, v).
Proof.
  induction 1 as [|c k (C & C') _ IH]; [reflexivity|]. cbn [app field]. rewrite IH.
  destruct c as [|q|q]; auto. repeat (destruct q as [q|q|]; auto). congruence.
Qed.

(* ---- headers ---- *)

Lemma same_spec a b : reflect (a = b) (same a b).
Proof. unfold same. destruct (list_eq_dec Z.eq_dec a b); constructor; auto. Qed.

Lemma put_in k x h : NoDup (map fst h) ->
  forall k' y, In (k', y) (put k x h) <-> (k' = k /\ y = x) \/ (k' <> k /\ In (k', y) h).
Proof.
  induction h as [|[k0 z] h IH]; intros N k' y; cbn [put In].
  - split; [intros [E|[]]; injection E as <- <-; auto|intros [(-> & ->)|(_ & [])]; auto].
  - cbn [map fst] in N. inversion N as [|? ? N1 N2]; subst. destruct (same_spec k k0) as [->|NE]; cbn [In].
    + split.
      * intros [E|I]; [injection E as <- <-; auto|]. right. split; auto.
        intros ->. apply N1. apply in_map_iff. exists (k0, y). auto.
      * intros [(-> & ->)|(NE & [E|I])]; auto. congruence.
    + rewrite IH by auto. split.
      * intros [E|[(-> & ->)|(NK & I)]]; auto. injection E as <- <-. auto.
      * intros [(-> & ->)|(NK & [E|I])]; auto.
Qed.

Lemma put_keys k x h : forall j, In j (map fst (put k x h)) <-> j = k \/ In j (map fst h).
Proof.
  induction h as [|[k0 z] h IH]; intros j; cbn [put map fst In]; [intuition|].
  destruct (same_spec k k0) as [->|NE]; cbn [map fst In]; [intuition|]. rewrite IH. intuition.
Qed.

Lemma put_nodup k x h : NoDup (map fst h) -> NoDup (map fst (put k x h)).
Proof.
  induction h as [|[k0 z] h IH]; intros N; cbn [put map fst]; [repeat constructor; auto|].
  cbn [map fst] in N. inversion N as [|? ? N1 N2]; subst. destruct (same_spec k k0) as [->|NE]; cbn [map fst]; constructor; auto.
  rewrite put_keys. intros [E|I]; auto.
Qed.

Lemma last_set_snoc l a k x : last_set (l ++ [a]) k x <-> sets a k x \/ (last_set l k x /\ forall y, ~ sets a k y).
Proof.
  split.
  - intros H. inversion H as [l' a' k' x' S E|l' a' k' x' S NS E]; apply app_inj_tail in E; destruct E as (-> & ->); auto.
  - intros [S|(S & NS)]; [apply last_here|apply last_before]; auto.
Qed.

Lemma last_set_cons_default k x : last_set [SetHeader (lit "content-length") (VInt 0)] k x <-> k = lit "content-length" /\ x = VInt 0.
Proof.
  change [SetHeader (lit "content-length") (VInt 0)] with ([] ++ [SetHeader (lit "content-length") (VInt 0)]).
  rewrite last_set_snoc. cbn [sets]. change (lower (lit "content-length")) with (lit "content-length"). split.
  - intros [(-> & ->)|(H & _)]; auto. inversion H; destruct l; discriminate.
  - intros (-> & ->). auto.
Qed.

Lemma header_is_snoc l a k x : header_is (l ++ [a]) k x <-> sets a k x \/ (header_is l k x /\ forall y, ~ sets a k y).
Proof. unfold header_is. rewrite app_comm_cons. apply last_set_snoc. Qed.

Lemma last_status_snoc l a n : last_status (l ++ [a]) n <-> a = SetStatus n \/ (last_status l n /\ forall m, a <> SetStatus m).
Proof.
  split.
  - intros H. inversion H as [E|l' n' E|l' a' n' S NS E]; [destruct l; discriminate| |]; apply app_inj_tail in E; destruct E as (E1 & E2); subst; auto.
  - intros [->|(S & NS)]; [apply status_here|apply status_before]; auto.
Qed.

(* The response after actions that write nothing. *)
Definition follows (l : list act) (r : resp) : Prop :=
  r_started r = false /\ r_raw r = false /\ r_sent r = [] /\ NoDup (map fst (r_headers r)) /\
  (forall k x, In (k, x) (r_headers r) <-> header_is l k x) /\ last_status l (r_status r).

Lemma follows_new : follows [] new_resp.
Proof.
  repeat split; auto; try (cbn; repeat constructor; auto; fail).
  - intros [E|[]]. injection E as <- <-. unfold header_is. apply last_set_cons_default. auto.
  - unfold header_is. rewrite last_set_cons_default. intros (-> & ->). cbn. auto.
Qed.

Lemma follows_act t l a r : follows l r -> (forall d, a <> Write d) ->
  exists r', do_act t a r = (r', true) /\ follows (l ++ [a]) r'.
Proof.
  intros (A & B & C & D & E & F) Q. destruct a as [n|k x| |d]; [| | |destruct (Q d); auto];
    (eexists; split; [reflexivity|]); unfold follows; cbn [r_started r_raw r_sent r_headers r_status];
    (split; [auto|]); (split; [auto|]); (split; [auto|]).
  - split; auto. split.
    + intros k x. rewrite E, header_is_snoc. cbn. tauto.
    + apply last_status_snoc. auto.
  - unfold set_header. split; [apply put_nodup; auto|]. split.
    + intros k' y. rewrite put_in by auto. rewrite E, header_is_snoc. cbn [sets]. split.
      * intros [(-> & ->)|(NE & H)]; auto. right. split; auto. intros z (Y & _). congruence.
      * intros [(<- & <-)|(H & NE)]; auto. right. split; auto. intros ->. exact (NE x (conj eq_refl eq_refl)).
    + apply last_status_snoc. right. split; auto. discriminate.
  - unfold set_header. split; [apply put_nodup; auto|]. split.
    + intros k' y. rewrite put_in by auto. rewrite E, header_is_snoc. cbn [sets].
      change (lower (lit "connection")) with (lit "connection"). split.
      * intros [(-> & ->)|(NE & H)]; auto. right. split; auto. intros z (Y & _). congruence.
      * intros [(-> & ->)|(H & NE)]; auto. right. split; auto. intros ->. exact (NE _ (conj eq_refl eq_refl)).
    + apply last_status_snoc. right. split; auto. discriminate.
Qed.

Lemma follows_acts t l2 : forall l1 r, follows l1 r -> quiet l2 ->
  exists r', do_acts t l2 r = (r', true) /\ follows (l1 ++ l2) r'.
Proof.
  induction l2 as [|a l2 IH]; intros l1 r F Q; [exists r; rewrite app_nil_r; auto|].
  destruct (follows_act t l1 a r F) as (r1 & E & F1); [intros d; apply (Q a d); cbn; auto|].
  destruct (IH (l1 ++ [a]) r1 F1) as (r2 & E2 & F2); [intros b d I; apply (Q b d); cbn; auto|].
  exists r2. cbn [do_acts]. rewrite E. split; auto. rewrite <- app_assoc in F2. auto.
Qed.

Lemma do_acts_app t a b r : do_acts t (a ++ b) r = match do_acts t a r with (r, true) => do_acts t b r | (r, false) => (r, false) end.
Proof.
  revert r. induction a as [|x a IH]; intros r; cbn [app do_acts]; auto. destruct (do_act t x r) as [r1 []]; auto.
Qed.

(* Names and values of a clean response. *)
Definition clean_headers (h : headers) : Prop :=
  Forall (fun p : str * hvalue => name (fst p) /\ clean (hshow (snd p)) /\ forall n, snd p = VInt n -> 0 <= n) h.

Lemma lower_name k : name k -> name (lower k).
Proof.
  intros (NE & F). split; [destruct k; [congruence|discriminate]|]. unfold lower. apply Forall_forall. intros c I.
  apply in_map_iff in I. destruct I as (d & <- & I). rewrite Forall_forall in F. specialize (F d I). unfold name_char in *.
  destruct (_ && _) eqn:K; lia.
Qed.

Lemma clean_ascii s : forallb (fun c => (32 <=? c) && (c <? 127)) s = true -> clean s.
Proof. intros H. apply Forall_forall. intros c I. rewrite forallb_forall in H. specialize (H c I). unfold clean_char. lia. Qed.

Lemma name_ascii_b s : s <> [] -> forallb (fun c => (32 <? c) && (c <? 127) && negb (c =? 58)) s = true -> name s.
Proof.
  intros N H. split; auto. apply Forall_forall. intros c I. rewrite forallb_forall in H. specialize (H c I). unfold name_char. lia.
Qed.

Lemma header_is_clean l k x : clean_acts l -> header_is l k x -> name k /\ clean (hshow x) /\ forall n, x = VInt n -> 0 <= n.
Proof.
  intros C. revert k x. induction l as [|a l IH] using rev_ind; intros k x H.
  - unfold header_is in H. apply last_set_cons_default in H. destruct H as (-> & ->). split.
    + apply name_ascii_b; [discriminate|reflexivity].
    + split; [apply dec_clean; lia|]. intros n E. injection E as <-. lia.
  - apply header_is_snoc in H. destruct H as [S|(H & _)].
    + destruct a as [n|k' x'| |d]; cbn [sets] in S; try contradiction.
      * destruct S as (<- & ->). destruct (C k' x) as (N & T & Z0); [apply in_or_app; right; cbn; auto|].
        split; [apply lower_name; auto|]. split; auto. destruct x; cbn [hshow]; [auto|apply dec_clean; auto].
      * destruct S as (-> & ->). split; [apply name_ascii_b; [discriminate|reflexivity]|]. split; [apply clean_ascii; reflexivity|discriminate].
    + apply IH; auto. intros k' x' I. apply C. apply in_or_app. auto.
Qed.

Lemma number_val l acc : Forall (fun c => 48 <= c <= 57) l -> number acc (l ++ [32]) = Some (val acc l).
Proof.
  intros F. revert acc. induction F as [|c l C F IH]; intros acc; cbn [app val]; auto.
  assert (N : number acc (c :: l ++ [32]) = if (48 <=? c) && (c <=? 57) then number (10 * acc + (c - 48)) (l ++ [32]) else None).
  { destruct c as [|p|p]; cbn; try lia. do 6 (destruct p as [p|p|]; try lia; try reflexivity). }
  rewrite N. replace ((48 <=? c) && (c <=? 57)) with true by lia. apply IH.
Qed.

Lemma says_hshow x b : (forall n, x = VInt n -> 0 <= n) -> utf8 (hshow x) = Some b -> says x b.
Proof.
  destruct x as [s|n]; intros P E; cbn [hshow says] in *; auto.
  destruct (dec_val n (P n eq_refl)) as (V & NE & F).
  rewrite utf8_ascii in E by (eapply Forall_impl; [|exact F]; cbn; intros; lia).
  injection E as <-. rewrite number_val by auto. rewrite V. auto.
Qed.

Lemma given_asked q n : asked q n <-> given q n = true.
Proof.
  unfold asked, given. destruct (q n) as [[|c r]|]; split; try discriminate; eauto;
    intros (c' & r' & E); discriminate.
Qed.

Lemma user_headers_spec h body : clean_headers h ->
  exists u ls, user_headers h = Some u /\ read_lines (u ++ body) [] = Some (ls, body) /\
    exists bs, fields ls = Some bs /\
    Forall2 (fun (p : str * hvalue) q => fst q = fst p /\ says (snd p) (snd q)) h bs.
Proof.
  induction 1 as [|[k x] h (N & C & P) _ (u & ls & U & R & bs & F & A)].
  - exists CRLF, []. split; auto. split; [apply read_end|]. exists []. split; auto.
  - cbn [fst snd] in *. destruct (utf8_clean _ C) as (b & E & L).
    cbn [user_headers]. rewrite U.
    rewrite !utf8_app, (utf8_ascii k (name_ascii k N)), E, (utf8_ascii (lit ": ")), (utf8_ascii CRLF) by (repeat constructor; cbn; lia).
    eexists. exists ((k ++ 58 :: 32 :: b) :: ls). split; [reflexivity|]. split.
    + replace (((k ++ lit ": " ++ b ++ CRLF) ++ u) ++ body) with ((k ++ 58 :: 32 :: b) ++ CRLF ++ u ++ body)
        by (rewrite <- !app_assoc; reflexivity).
      rewrite read_line.
      * rewrite R. auto.
      * apply Forall_app. split; [|constructor; [lia|constructor; [lia|auto]]]. destruct N as (_ & N).
        eapply Forall_impl; [|exact N]. cbn. unfold name_char. intros. lia.
      * destruct k; discriminate.
    + exists ((k, b) :: bs). cbn [fields]. rewrite field_spec by apply N. rewrite F. split; auto.
      constructor; auto. split; auto. cbn [fst snd] in *. apply says_hshow; auto.
Qed.

Lemma header_bytes_spec t l r body : clean_texts t -> clean_acts l -> good_status l -> follows l r ->
  exists b, header_bytes t r = Some b /\ replies t (b ++ body) (r_status r) (header_is l) body.
Proof.
  intros (P & S & D) C G (_ & _ & _ & ND & H & ST).
  assert (CH : clean_headers (r_headers r)).
  { apply Forall_forall. intros [k x] I. apply H in I. exact (header_is_clean l k x C I). }
  assert (N0 : 0 <= r_status r).
  { clear - G ST. remember (r_status r) as n. clear Heqn. revert n ST. induction l as [|a l IH] using rev_ind; intros n ST.
    - inversion ST; try lia; destruct l; discriminate.
    - apply last_status_snoc in ST. destruct ST as [->|(ST & _)]; [apply G; apply in_or_app; cbn; auto|].
      apply IH; auto. intros m I. apply G. apply in_or_app. auto. }
  destruct (user_headers_spec (r_headers r) body CH) as (u & ls & U & R & bs & F & A).
  unfold header_bytes. rewrite U. eexists. split; [reflexivity|]. exists (r_headers r), bs.
  split; [|split; [auto|split; [auto|auto]]].
  destruct (dec_val (r_status r) N0) as (V & DN & DD).
  unfold parse_reply.
  match goal with |- context [read_lines ?x []] => replace x with
    ((lit "HTTP/1.1 " ++ dec (r_status r) ++ [32] ++ x_phrase t (r_status r)) ++ CRLF ++
     (lit "server: " ++ x_server t) ++ CRLF ++ (lit "date: " ++ x_date t) ++ CRLF ++ u ++ body) by (rewrite <- !app_assoc; reflexivity) end.
  assert (LB : forall s, forallb (fun c => (32 <=? c) && (c <? 127)) s = true -> line_bytes s).
  { intros s Hs. apply Forall_forall. intros c I. rewrite forallb_forall in Hs. specialize (Hs c I). lia. }
  assert (LD : line_bytes (dec (r_status r))) by (eapply Forall_impl; [|exact DD]; cbn; intros; lia).
  rewrite read_line; [|repeat (apply Forall_app; split); first [apply P|apply S|apply D|apply LD|apply LB; reflexivity]|discriminate].
  rewrite read_line; [|repeat (apply Forall_app; split); first [apply P|apply S|apply D|apply LD|apply LB; reflexivity]|discriminate].
  rewrite read_line; [|repeat (apply Forall_app; split); first [apply P|apply S|apply D|apply LD|apply LB; reflexivity]|discriminate].
  rewrite R. cbn [app].
  assert (SK : forall p x, skip p (p ++ x) = Some x).
  { induction p as [|c p IH]; intros x; cbn [app skip]; auto. rewrite Z.eqb_refl. auto. }
  rewrite SK. change ([32] ++ x_phrase t (r_status r)) with (32 :: x_phrase t (r_status r)). rewrite number_spec by auto. rewrite V.
  cbn [fields].
  change (lit "server: " ++ x_server t) with (lit "server" ++ 58 :: 32 :: x_server t).
  change (lit "date: " ++ x_date t) with (lit "date" ++ 58 :: 32 :: x_date t).
  rewrite (field_spec (lit "server")) by (apply (name_ascii_b (lit "server")); [discriminate|reflexivity]).
  rewrite (field_spec (lit "date")) by (apply (name_ascii_b (lit "date")); [discriminate|reflexivity]).
  rewrite F. reflexivity.
Qed.

(* ---- the router ---- *)

Lemma raw_acts t l : forall r, r_raw r = true ->
  exists r', do_acts t l r = (r', true) /\ r_sent r' = r_sent r ++ written l /\ (l <> [] \/ r_started r = true -> r_started r = true -> r_started r' = true).
Proof.
  induction l as [|a l IH]; intros r R; [exists r; rewrite app_nil_r; auto|].
  assert (X : exists r1, do_act t a r = (r1, true) /\ r_raw r1 = true /\ r_sent r1 ++ written l = r_sent r ++ written (a :: l) /\ (r_started r = true -> r_started r1 = true)).
  { destruct a; cbn [do_act written]; try (eexists; split; [reflexivity|]; cbn; auto; fail).
    unfold write. rewrite R. eexists. split; [reflexivity|]. cbn. rewrite <- app_assoc. auto. }
  destruct X as (r1 & E & R1 & S & T). destruct (IH r1 R1) as (r2 & E2 & S2 & T2). exists r2. cbn [do_acts]. rewrite E.
  split; auto. split; [congruence|]. auto.
Qed.

Lemma first_write t pre d r : clean_texts t -> clean_acts pre -> good_status pre -> follows pre r ->
  exists r' b, write t d r = (r', true) /\ r_sent r' = b ++ d /\ r_raw r' = true /\ r_started r' = true /\ r_close r' = r_close r /\
  last_status pre (r_status r) /\ forall body, replies t (b ++ body) (r_status r) (header_is pre) body.
Proof.
  intros T C G F. destruct (header_bytes_spec t pre r [] T C G F) as (b & E & _). unfold write.
  pose proof F as (A & B & S & _ & _ & ST). rewrite B, E. eexists. exists b. split; [reflexivity|]. cbn.
  rewrite S. cbn. repeat split; auto. intros body.
  destruct (header_bytes_spec t pre r body T C G F) as (b' & E' & R). congruence.
Qed.

(* The actions that make the header, and the body. *)
Fixpoint cut (l : list act) : list act * option (list Z * list act) :=
  match l with
  | [] => ([], None)
  | Write d :: r => ([], Some (d, r))
  | a :: r => let (p, x) := cut r in (a :: p, x)
  end.
Lemma cut_spec l : let (p, x) := cut l in quiet p /\ l = p ++ match x with Some (d, r) => Write d :: r | None => [] end.
Proof.
  induction l as [|a l IH]; cbn [cut]; [split; [intros a d []|auto]|].
  destruct (cut l) as [p x]. destruct IH as (Q & E).
  destruct a; try (split; [intros b d' [<-|I]; [discriminate|apply (Q b d' I)]|cbn [app]; rewrite <- E; auto]).
  split; [intros b d' []|auto].
Qed.
Lemma cut_app q l : quiet q -> cut (q ++ l) = (q ++ fst (cut l), snd (cut l)).
Proof.
  induction q as [|a q IH]; intros Q; cbn [app]; [destruct (cut l); auto|].
  destruct a; try (cbn [cut]; rewrite IH by (intros b d I; apply (Q b d); cbn; auto); destruct (cut l); auto).
  destruct (Q (Write data) data); cbn; auto.
Qed.

Definition error_head (unread : bool) (e : exc) : list act :=
  let '(code, body, cr) := match e with
                           | EHttp c m cr => (c, match utf8 m with Some b => b | None => [] end ++ [10], cr)
                           | EOther => (500, internal_error ++ [10], None)
                           end in
  (if unread then [CloseConnection] else []) ++ removelast (error_acts code body cr).
Definition error_text (e : exc) : list Z :=
  match e with
  | EHttp _ m _ => match utf8 m with Some b => b | None => [] end
  | EOther => internal_error
  end ++ [10].

Definition effective (unread : bool) (h : handler) : list act * list Z :=
  match cut (h_acts h) with
  | (pre, Some (d, post)) => (pre, d ++ written post)
  | (pre, None) =>
      match h_raises h with
      | None => (pre, [])
      | Some e => (pre ++ error_head unread e, error_text e)
      end
  end.

Lemma error_head_quiet unread e : quiet (error_head unread e).
Proof.
  intros a d. unfold error_head. destruct e as [c m cr|]; destruct unread; try destruct cr; cbn;
    intuition (subst; discriminate).
Qed.

Lemma error_head_clean unread e : clean_error e -> clean_acts (error_head unread e) /\ good_status (error_head unread e).
Proof.
  assert (N : forall s, (negb (Nat.eqb (List.length (lit s)) 0) && forallb (fun c => (32 <? c) && (c <? 127) && negb (c =? 58)) (lit s)) = true -> name (lit s)).
  { intros s H. apply andb_prop in H. destruct H as (A & B). apply name_ascii_b; auto. intros E. rewrite E in A. discriminate. }
  intros C. split.
  - intros k x I. unfold error_head in I.
    assert (Y : (k = lit "content-type" /\ x = VText (lit "text/plain; charset=UTF-8")) \/ (k = lit "content-length" /\ exists n, x = VInt (Z.of_nat n)) \/
      (k = lit "content-range" /\ exists c m s, e = EHttp c m (Some s) /\ x = VText s)).
    { destruct e as [c m cr|]; [destruct cr as [s|]|]; destruct unread; cbn [app removelast error_acts In] in I;
        repeat match goal with H : _ \/ _ |- _ => destruct H as [H|H] end; try discriminate; try contradiction; injection I as <- <-; eauto 12; right; left; split; auto; exists 49%nat; auto. }
    destruct Y as [(-> & ->)|[(-> & n & ->)|(-> & c & m & s & -> & ->)]]; (split; [apply N; reflexivity|]); split; intros; try discriminate.
    + injection H as <-. apply clean_ascii. reflexivity.
    + injection H as <-. lia.
    + injection H as <-. cbn in C. destruct C as (_ & _ & C). auto.
  - intros n I. unfold error_head in I. destruct e as [c m cr|]; [destruct cr as [s|]; cbn in C|]; destruct unread; cbn [app removelast error_acts In] in I;
        repeat match goal with H : _ \/ _ |- _ => destruct H as [H|H] end; try discriminate; try contradiction; injection I as <-; try lia; apply C.
Qed.

Lemma do_acts_one t a r : do_acts t [a] r = do_act t a r.
Proof. cbn [do_acts]. destruct (do_act t a r) as [r' []]; auto. Qed.

Lemma clean_app a b : clean_acts a -> clean_acts b -> clean_acts (a ++ b).
Proof. intros A B k x I. apply in_app_or in I. destruct I; [apply A|apply B]; auto. Qed.
Lemma good_app a b : good_status a -> good_status b -> good_status (a ++ b).
Proof. intros A B n I. apply in_app_or in I. destruct I; [apply A|apply B]; auto. Qed.

Lemma router_reply t unread h : clean_texts t -> clean_handler h ->
  let (pre, body) := effective unread h in
  quiet pre /\ exists r' code, router t unread h new_resp = (r', true) /\ last_status pre code /\
    replies t (r_sent r') code (header_is pre) body /\
    (h_raises h <> None -> snd (cut (h_acts h)) <> None -> r_close r' = true) /\
    (h_raises h <> None -> unread = true -> r_close r' = true).
Proof.
  intros T (C & G & E). unfold effective. pose proof (cut_spec (h_acts h)) as K. destruct (cut (h_acts h)) as [pre x]. destruct K as (Q & L).
  assert (CP : clean_acts pre) by (intros k y I; apply C; rewrite L; apply in_or_app; auto).
  assert (GP : good_status pre) by (intros n I; apply G; rewrite L; apply in_or_app; auto).
  destruct (follows_acts t pre [] new_resp follows_new Q) as (r1 & R1 & F1). cbn [app] in F1.
  unfold router. rewrite L, do_acts_app, R1. cbn [snd].
  destruct x as [[d post]|].
  - split; auto. destruct (first_write t pre d r1 T CP GP F1) as (r2 & b & W & S2 & RW & ST2 & _ & LS & RP).
    cbn [do_acts do_act]. rewrite W. destruct (raw_acts t post r2 RW) as (r3 & R3 & S3 & ST3). rewrite R3.
    assert (X : r_started r3 = true) by auto.
    destruct (h_raises h) as [e|].
    + rewrite X. cbn [do_act fst]. eexists. exists (r_status r1). split; [reflexivity|]. cbn. split; auto.
      split; [rewrite S3, S2, <- app_assoc; apply RP|]. auto.
    + rewrite X. exists r3, (r_status r1). split; auto. split; auto. split; [rewrite S3, S2, <- app_assoc; apply RP|]. split; congruence.
  - cbn [do_acts].
    destruct (h_raises h) as [e|].
    + pose proof F1 as (ST & _). rewrite ST.
      destruct (error_head_clean unread e (E e eq_refl)) as (CE & GE).
      split. { intros a d I. apply in_app_or in I. destruct I as [I|I]; [apply Q|apply (error_head_quiet unread e)]; auto. }
      destruct (follows_acts t (error_head unread e) pre r1 F1 (error_head_quiet unread e)) as (r2 & R2 & F2).
      destruct (first_write t _ (error_text e) r2 T (clean_app _ _ CP CE) (good_app _ _ GP GE) F2) as (r3 & b & W & S3 & _ & _ & CL & LS & RP).
      assert (X : (let '(code, message, cr) := match e with EHttp c m cr => (c, m, cr) | EOther => (500, internal_error, None) end in
          let r := if unread then fst (do_act t CloseConnection r1) else r1 in
          match utf8 message with
          | None => (r, false)
          | Some b => do_acts t (error_acts code (b ++ [10]) cr) r
          end) = (r3, true)).
      { assert (Y : do_acts t (error_head unread e ++ [Write (error_text e)]) r1 = (r3, true)).
        { rewrite do_acts_app, R2, do_acts_one. exact W. }
        rewrite <- Y. specialize (E e eq_refl). destruct e as [c m cr|]; unfold error_head, error_text.
        - cbn in E. destruct E as (_ & U & _). destruct (utf8 m) as [b'|]; [|congruence].
          rewrite <- app_assoc, do_acts_app. destruct unread; destruct cr; reflexivity.
        - change (utf8 internal_error) with (Some internal_error). rewrite <- app_assoc, do_acts_app. destruct unread; reflexivity. }
      exists r3, (r_status r2). split; [exact X|]. split; auto. split; [rewrite S3; apply RP|]. split; [congruence|].
      intros _ ->. rewrite CL. clear - R2. revert R2. unfold error_head. destruct e as [c m cr|]; [destruct cr|]; cbn; intros R2; injection R2 as <-; auto.
    + split; auto. pose proof F1 as (ST & _). rewrite ST.
      destruct (first_write t pre [] r1 T CP GP F1) as (r2 & b & W & S2 & _ & _ & _ & LS & RP).
      rewrite W. exists r2, (r_status r1). split; auto. split; auto. split; [rewrite S2; apply RP|]. split; congruence.
Qed.

(* ---- CORS ---- *)

Lemma last_set_app q l k x : last_set (q ++ l) k x <-> last_set l k x \/ (last_set q k x /\ forall y, ~ last_set l k y).
Proof.
  revert x. induction l as [|a l IH] using rev_ind; intros x.
  - rewrite app_nil_r. split; [intros H; right; split; auto; intros y Y; inversion Y; destruct l; discriminate|].
    intros [H|(H & _)]; auto. inversion H; destruct l; discriminate.
  - rewrite app_assoc, !last_set_snoc, IH. split.
    + intros [S|([H|(H & N)] & NS)]; auto. right. split; auto. intros y Y. apply last_set_snoc in Y. destruct Y as [Y|(Y & _)]; [apply (NS y Y)|apply (N y Y)].
    + intros [[S|(H & NS)]|(H & N)]; auto.
      assert (NS : forall y, ~ sets a k y) by (intros y Y; apply (N y); apply last_set_snoc; auto).
      right. split; auto. right. split; auto. intros y Y. apply (N y). apply last_set_snoc. auto.
Qed.

Lemma header_is_app q l k x : header_is (q ++ l) k x <-> last_set l k x \/ (header_is q k x /\ forall y, ~ last_set l k y).
Proof. unfold header_is. rewrite app_comm_cons. apply last_set_app. Qed.

Lemma last_set_sets l k x : last_set l k x -> exists a, In a l /\ sets a k x.
Proof.
  induction 1 as [l a k x S|l a k x _ (b & I & S) _]; [exists a|exists b]; (split; [apply in_or_app; cbn; auto|auto]).
Qed.

Lemma last_status_app q l n : (forall m, ~ In (SetStatus m) q) -> (last_status (q ++ l) n <-> last_status l n).
Proof.
  intros Q. induction l as [|a l IH] using rev_ind.
  - rewrite app_nil_r. induction q as [|b q IHq] using rev_ind; [tauto|]. rewrite last_status_snoc.
    rewrite IHq by (intros m I; apply (Q m); apply in_or_app; auto). split.
    + intros [->|(H & _)]; auto. destruct (Q n). apply in_or_app. cbn. auto.
    + intros H. right. split; auto. intros m ->. apply (Q m). apply in_or_app. cbn. auto.
  - rewrite app_assoc, !last_status_snoc, IH. tauto.
Qed.

Lemma nil_not_set k y : ~ last_set [] k y.
Proof. intros H. inversion H; destruct l; discriminate. Qed.

Lemma last_set_one a k x : last_set [a] k x <-> sets a k x.
Proof.
  change [a] with ([] ++ [a]). rewrite last_set_snoc. split; auto. intros [S|(H & _)]; auto. destruct (nil_not_set k x H).
Qed.

Lemma last_set_if (b : bool) a k x : last_set (if b then [a] else []) k x <-> b = true /\ sets a k x.
Proof.
  destruct b; [rewrite last_set_one; intuition|]. split; [intros H; destruct (nil_not_set k x H)|intros (H & _); discriminate].
Qed.

Lemma cors_acts_sets c q k x : last_set (cors_acts c q) k x <->
  (k = lit "access-control-allow-origin" /\ given q (lit "origin") = true /\ x = VText (c_origin c)) \/
  (k = lit "access-control-allow-headers" /\ given q (lit "access-control-request-headers") = true /\ x = VText (c_headers c)) \/
  (k = lit "access-control-allow-methods" /\ given q (lit "access-control-request-method") = true /\ x = VText (c_methods c)) \/
  (k = lit "access-control-max-age" /\ (given q (lit "origin") || given q (lit "access-control-request-headers") ||
     given q (lit "access-control-request-method") = true) /\ x = VInt (c_max_age c)).
Proof.
  unfold cors_acts. rewrite !last_set_app, !last_set_if. cbn [sets].
  repeat match goal with |- context [lower (lit ?s)] => change (lower (lit s)) with (lit s) end.
  remember (given q (lit "origin")) as o. remember (given q (lit "access-control-request-headers")) as h.
  remember (given q (lit "access-control-request-method")) as m.
  assert (NS : forall l k0, (forall a y, In a l -> ~ sets a k0 y) -> forall y, ~ last_set l k0 y).
  { intros l k0 N y H. apply last_set_sets in H. destruct H as (a & I & S). exact (N a y I S). }
  split.
  - intros [[[(A & <- & <-)|((A & <- & <-) & _)]|((A & <- & <-) & _)]|((A & <- & <-) & _)]; auto 10.
  - intros [(-> & A & ->)|[(-> & A & ->)|[(-> & A & ->)|(-> & A & ->)]]].
    + right. split; auto. apply NS. intros a y I. destruct h, m, o; cbn [app In orb] in I;
        repeat match goal with H : _ \/ _ |- _ => destruct H as [<-|H] end; try contradiction; cbn [sets]; intros (X & _); discriminate.
    + left. right. split; auto. apply NS. intros a y I. destruct h, m, o; cbn [app In orb] in I;
        repeat match goal with H : _ \/ _ |- _ => destruct H as [<-|H] end; try contradiction; cbn [sets]; intros (X & _); discriminate.
    + left. left. right. split; auto. apply NS. intros a y I. destruct h, m, o; cbn [app In orb] in I;
        repeat match goal with H : _ \/ _ |- _ => destruct H as [<-|H] end; try contradiction; cbn [sets]; intros (X & _); discriminate.
    + left. left. left. auto.
Qed.

Lemma last_status_mid l c b n : (forall m, ~ In (SetStatus m) b) -> last_status (l ++ SetStatus c :: b) n -> n = c.
Proof.
  induction b as [|a b IH] using rev_ind; intros N H.
  - apply last_status_snoc in H. destruct H as [H|(_ & H)]; [congruence|destruct (H c); auto].
  - change (l ++ SetStatus c :: b ++ [a]) with (l ++ (SetStatus c :: b) ++ [a]) in H. rewrite app_assoc in H. apply last_status_snoc in H.
    destruct H as [->|(H & _)]; [destruct (N n); apply in_or_app; cbn; auto|]. apply IH; auto.
    intros m I. apply (N m). apply in_or_app. auto.
Qed.
