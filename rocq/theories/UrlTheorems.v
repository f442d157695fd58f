(* Theorems about addresses: C39. *)
From Coq Require Import ZArith List Bool Ascii String Lia.
From Verif Require Import UrlModel UrlSpec.
Import ListNotations.
Open Scope Z_scope.

Lemma has_in c s : has c s = true <-> In c s.
Proof.
  unfold has. rewrite existsb_exists. split.
  - intros (x & I & E). apply Z.eqb_eq in E. subst. auto.
  - intros I. exists c. split; auto. apply Z.eqb_refl.
Qed.
Lemma has_out c s : has c s = false <-> ~ In c s.
Proof. rewrite <- has_in. destruct (has c s); split; congruence. Qed.

(* Quoting: for every string *)
Theorem ipv6_round_trip : forall host, unquote (quote host) = host.
Proof.
  intros host. unfold quote. destruct (has COLON host) eqn:H; unfold unquote.
  - rewrite Z.eqb_refl. change (91 :: host ++ [93]) with ((91 :: host) ++ [93]). rewrite last_last.
    rewrite Z.eqb_refl. cbn [andb].
    replace (has COLON ((91 :: host) ++ [93])) with true.
    + cbn [app tl]. apply removelast_last.
    + symmetry. apply has_in. apply in_or_app. left. right. apply has_in. auto.
  - rewrite H. rewrite !andb_false_r. auto.
Qed.
Print Assumptions ipv6_round_trip.
Example ipv6_round_trip_case :
  quote (lit "fe80::1%eth0") = lit "[fe80::1%eth0]" /\ quote (lit "a.b") = lit "a.b".
Proof. split; reflexivity. Qed.

(* Only quoted addresses are changed by unquoting. *)
Theorem unquote_cases :
  forall host, unquote host = host
  \/ exists h, host = 91 :: h ++ [93] /\ In COLON h /\ unquote host = h.
Proof.
  intros host. unfold unquote. destruct host as [|c r]; auto.
  destruct (c =? 91) eqn:C; cbn [andb]; auto. destruct (last (c :: r) 0 =? 93) eqn:L; cbn [andb]; auto.
  destruct (has COLON (c :: r)) eqn:H; auto. right. apply Z.eqb_eq in C, L. subst c.
  destruct (exists_last (l := 91 :: r)) as (x & y & E); [discriminate|].
  rewrite E, last_last in L. subst y. destruct x as [|z x]; [discriminate|]. injection E as <- ->.
  exists x. split; auto. apply has_in in H. split.
  - destruct H as [H|H]; [discriminate|]. apply in_app_or in H as [H|[H|[]]]; [auto|discriminate].
  - cbn [tl]. apply removelast_last.
Qed.
Print Assumptions unquote_cases.
Example unquote_case : unquote (lit "[::1]") = lit "::1" /\ unquote (lit "[x]") = lit "[x]".
Proof. split; reflexivity. Qed.

(* ---- numbers ---- *)
Lemma ascii_digit_digit w c : ascii_digit c = true -> digit w c = Some (c - 48).
Proof. unfold digit. intros ->. auto. Qed.
Lemma value_app w a c : value w (a ++ [c]) = 10 * value w a + digit_val w c.
Proof. unfold value. rewrite fold_left_app. reflexivity. Qed.
Lemma dec_fuel_spec w fuel n : 0 <= n -> (Z.to_nat (Z.log2 n) < fuel)%nat ->
  value w (dec_fuel fuel n) = n /\ dec_fuel fuel n <> [] /\ Forall (fun c => ascii_digit c = true) (dec_fuel fuel n).
Proof.
  revert n. induction fuel as [|fuel IH]; intros n N F; [lia|]. cbn [dec_fuel].
  destruct (n <? 10) eqn:T.
  - assert (ascii_digit (48 + n) = true) as D by (unfold ascii_digit; lia).
    split; [|split; [discriminate|constructor; auto]]. unfold value. cbn [fold_left].
    unfold digit_val. rewrite ascii_digit_digit by auto. lia.
  - assert (0 <= n / 10) by (apply Z.div_pos; lia).
    assert (n = 10 * (n / 10) + n mod 10) as DM by (apply Z.div_mod; lia).
    assert (0 <= n mod 10 < 10) by (apply Z.mod_pos_bound; lia).
    assert (Z.log2 (n / 10) < Z.log2 n) as LG.
    { assert (Z.log2 (n / 10) <= Z.log2 (n / 2)) by (apply Z.log2_le_mono; apply Z.div_le_compat_l; lia).
      assert (Z.log2 (n / 2) = Z.log2 n - 1).
      { change (n / 2) with (n / 2 ^ 1). rewrite <- Z.shiftr_div_pow2 by lia. rewrite Z.log2_shiftr by lia.
        pose proof (Z.log2_pos n). lia. }
      lia. }
    pose proof (Z.log2_nonneg (n / 10)).
    destruct (IH (n / 10)) as (V & NE & FA); [lia|lia|].
    assert (ascii_digit (48 + n mod 10) = true) as D by (unfold ascii_digit; lia).
    split; [|split].
    + rewrite value_app, V. unfold digit_val. rewrite ascii_digit_digit by auto. lia.
    + intros E. apply app_eq_nil in E as [_ E]. discriminate.
    + apply Forall_app. auto.
Qed.
Lemma dec_spec w n : 0 <= n ->
  value w (dec n) = n /\ dec n <> [] /\ Forall (fun c => ascii_digit c = true) (dec n).
Proof. intros N. unfold dec. replace (n <? 0) with false by lia. apply dec_fuel_spec; lia. Qed.

(* ---- parsing ---- *)
Lemma span_all f a b : Forall (fun c => f c = true) a -> match b with [] => True | c :: _ => f c = false end ->
  span f (a ++ b) = (a, b).
Proof.
  intros A B. induction A as [|c a C A IH]; cbn [app span].
  - destruct b as [|c b]; auto. cbn [span]. rewrite B. auto.
  - rewrite C, IH. auto.
Qed.
Lemma span_all_nil f a : Forall (fun c => f c = true) a -> span f a = (a, []).
Proof. intros A. rewrite <- (app_nil_r a) at 1. apply span_all; auto. Qed.
Lemma filter_all f (a : str) : Forall (fun c => f c = true) a -> filter f a = a.
Proof. intros A. induction A as [|c a C A IH]; cbn [filter]; auto. rewrite C, IH. auto. Qed.
Lemma skip_app p s : skip p (p ++ s) = Some s.
Proof. induction p as [|c p IH]; cbn [app skip]; auto. rewrite Z.eqb_refl. auto. Qed.
Lemma name_group_spec s : plain s ->
  name_group (match s with [] => [] | _ => lit ":exportname=" ++ s end) = match s with [] => None | _ => Some s end.
Proof.
  intros P. destruct s as [|c s]; [reflexivity|]. unfold name_group.
  assert (skip (lit "::exportname=") (lit ":exportname=" ++ c :: s) = None) as -> by reflexivity.
  rewrite skip_app. rewrite span_all_nil; auto. apply Forall_forall. intros x I. specialize (P x I).
  cbn in P. unfold NEWLINE. lia.
Qed.

Lemma plain_app a b : plain a -> plain b -> plain (a ++ b).
Proof. intros A B c I. apply in_app_or in I as [I|I]; auto. Qed.
Lemma plain_lit (s : string) : forallb (fun c => negb (existsb (Z.eqb c) [63; 35; 9; 10; 13])) (lit s) = true -> plain (lit s).
Proof.
  intros F c I J. rewrite forallb_forall in F. specialize (F c I).
  rewrite negb_true_iff in F. assert (existsb (Z.eqb c) [63; 35; 9; 10; 13] = true); [|congruence].
  apply existsb_exists. exists c. split; auto. apply Z.eqb_refl.
Qed.
Lemma plain_path s : plain s -> span in_path s = (s, []).
Proof.
  intros P. apply span_all_nil. apply Forall_forall. intros c I. specialize (P c I). unfold in_path. cbn in P. lia.
Qed.
Lemma plain_digits s : Forall (fun c => ascii_digit c = true) s -> plain s.
Proof. intros F c I. rewrite Forall_forall in F. specialize (F c I). unfold ascii_digit in F. cbn. lia. Qed.
Lemma plain_name s : plain s -> plain (match s with [] => [] | _ => lit ":exportname=" ++ s end).
Proof. intros P. destruct s; auto. apply plain_app; auto. apply plain_lit. reflexivity. Qed.

(* A plain URL of the documented notation. *)
Lemma urlparse_nbd ok s : ok [] = true -> plain s -> ~ starts (lit "//") s ->
  urlparse ok (lit "nbd:" ++ s) = Some (Parsed (lit "nbd") [] s).
Proof.
  intros OK P NS. unfold urlparse.
  assert (skip_while (fun c => (0 <=? c) && (c <=? 32)) (lit "nbd:" ++ s) = lit "nbd:" ++ s) as -> by reflexivity.
  rewrite filter_all.
  2:{ apply Forall_forall. intros c I. assert (plain (lit "nbd:" ++ s)) as P'.
      { apply plain_app; auto. apply plain_lit. reflexivity. }
      specialize (P' c I). cbn in P'. lia. }
  assert (split_scheme (lit "nbd:" ++ s) = (lit "nbd", s)) as -> by reflexivity.
  rewrite plain_path by auto. rewrite OK.
  destruct s as [|c [|d s]]; auto.
  - destruct (Z.eq_dec c 47) as [->|N]; [reflexivity|].
    destruct c as [|p|p]; auto. do 6 (destruct p as [p|p|]; auto).
  - destruct (Z.eq_dec c 47) as [->|N].
    + destruct (Z.eq_dec d 47) as [->|M].
      * exfalso. apply NS. exists s. reflexivity.
      * destruct d as [|p|p]; auto. do 6 (destruct p as [p|p|]; auto). congruence.
    + destruct c as [|p|p]; auto. do 6 (destruct p as [p|p|]; auto). congruence.
Qed.

(* Unix sockets: for every path that can be told (absolute, no colon, no URL
   delimiters) and every export name without URL delimiters. *)
Theorem unix_url_round_trip_partial :
  forall w ok path export,
  ok [] = true -> socket_path path -> plain path -> plain export ->
  opens w ok (url (Unix path) export) = Some (Unix path, export).
Proof.
  intros w ok path export OK (r & -> & R & NC) P E. unfold opens, url.
  set (e := match export with [] => [] | _ :: _ => lit ":exportname=" ++ export end).
  assert (plain e) as PE by (apply plain_name; auto).
  change (lit "nbd:unix:") with (lit "nbd:" ++ lit "unix:"). rewrite <- !app_assoc.
  rewrite urlparse_nbd; auto.
  2:{ apply plain_app; [apply plain_lit; reflexivity|]. apply plain_app; auto. }
  2:{ intros [x X]. discriminate. }
  unfold parse_url. cbn [p_scheme p_netloc p_path rsplit].
  destruct (list_eq_dec Z.eq_dec (lit "nbd") (lit "nbd")) as [_|N]; [|congruence].
  unfold unix_match. change (lit "unix:" ++ (47 :: r) ++ e) with (lit "unix:/" ++ r ++ e). rewrite skip_app.
  rewrite span_all.
  - destruct r as [|c r]; [congruence|]. unfold e. rewrite name_group_spec by auto. destruct export; auto.
  - apply Forall_forall. intros c I. unfold COLON. assert (c <> 58); [congruence|lia].
  - unfold e. destruct export; [auto|reflexivity].
Qed.
Print Assumptions unix_url_round_trip_partial.
Example unix_url_case :
  socket_path (lit "/run/nbd.sock") /\ plain (lit "/run/nbd.sock") /\ plain (lit "/sda:1")
  /\ url (Unix (lit "/run/nbd.sock")) (lit "/sda:1") = lit "nbd:unix:/run/nbd.sock:exportname=/sda:1".
Proof.
  split; [exists (lit "run/nbd.sock"); split; [reflexivity|split; [discriminate|vm_compute; intuition discriminate]]|].
  split; [apply plain_lit; reflexivity|]. split; [apply plain_lit; reflexivity|]. reflexivity.
Qed.

(* ---- TCP ---- *)
Lemma tcp_split_none w b s : ~ port_like w s -> tcp_split w b s = None.
Proof.
  revert b. induction s as [|c s IH]; intros b N; cbn [tcp_split]; auto.
  assert (~ port_like w s) as N'.
  { intros (a & d & t & E & D). apply N. exists (c :: a), d, t. subst. auto. }
  rewrite IH by auto.
  assert ((if c =? NEWLINE then None else @None (str * str)) = None) as -> by (destruct (_ =? _); auto).
  destruct (c =? COLON) eqn:C; [|rewrite andb_false_r; auto].
  destruct s as [|d s]; [rewrite andb_false_r; auto|]. destruct (is_digit w d) eqn:D; [|rewrite andb_false_r; auto].
  exfalso. apply N. apply Z.eqb_eq in C. subst. exists [], d, s. auto.
Qed.
Lemma tcp_split_spec w b h d t :
  b = true \/ h <> [] -> ~ In NEWLINE h -> is_digit w d = true -> ~ port_like w (d :: t) ->
  tcp_split w b (h ++ COLON :: d :: t) = Some (h, d :: t).
Proof.
  revert b. induction h as [|c h IH]; intros b B NL D N.
  - cbn [app]. destruct B as [->|B]; [|congruence].
    change (tcp_split w true (COLON :: d :: t)) with
      (match tcp_split w true (d :: t) with
       | Some (h, t0) => Some (COLON :: h, t0)
       | None => if is_digit w d then Some ([], d :: t) else None end).
    rewrite tcp_split_none by auto. rewrite D. auto.
  - cbn [app tcp_split]. replace (c =? NEWLINE) with false.
    2:{ symmetry. apply Z.eqb_neq. intros E. apply NL. left. auto. }
    rewrite IH; auto. intros I. apply NL. right. auto.
Qed.

Lemma is_digit_ascii w c : ascii_digit c = true -> is_digit w c = true.
Proof. intros A. unfold is_digit. rewrite ascii_digit_digit by auto. auto. Qed.

Lemma port_like_cons w c s : port_like w (c :: s) ->
  (c = 58 /\ exists d s', s = d :: s' /\ is_digit w d = true) \/ port_like w s.
Proof.
  intros (a & d & t & E & D). destruct a as [|y a]; cbn [app] in E; injection E as -> ->.
  - left. eauto.
  - right. exists a, d, t. auto.
Qed.
(* No port-like part in what follows the port *)
Lemma port_like_rest w ds export :
  Forall (fun c => ascii_digit c = true) ds -> ~ port_like w export ->
  ~ port_like w (ds ++ match export with [] => [] | _ => lit ":exportname=" ++ export end).
Proof.
  intros F N. induction F as [|c ds C F IH].
  - cbn [app]. destruct export as [|x export]; [exact N|].
    remember (x :: export) as ex eqn:X. clear X. cbn. intros H.
    repeat (apply port_like_cons in H as [(Q & d & s' & Q1 & Q2)|H];
      [try discriminate; injection Q1 as <- _; unfold is_digit, digit in Q2; cbn in Q2; discriminate|
       match type of H with port_like _ ex => fail 1 | _ => idtac end]).
    apply port_like_cons in H as [(Q & d & s' & Q1 & Q2)|H]; [discriminate|]. auto.
  - intros H. apply port_like_cons in H as [(Q & _)|H]; auto. subst c. unfold ascii_digit in C. lia.
Qed.
Lemma In_quote c h : In c (quote h) -> c = 91 \/ c = 93 \/ In c h.
Proof.
  unfold quote. destruct (has _ _); auto. intros [<-|I]; auto. apply in_app_or in I as [I|[<-|[]]]; auto.
Qed.

(* TCP: every host (also IPv6 addresses) and port, every export name without a
   colon followed by a digit. *)
Theorem tcp_url_round_trip_partial :
  forall w ok host port export,
  ok [] = true -> host <> [] -> plain host -> ~ starts (lit "//") host -> 0 <= port ->
  plain export -> ~ port_like w export ->
  opens w ok (url (Tcp host port) export) = Some (Tcp host port, export).
Proof.
  intros w ok host port export OK H P NS PO E NP. unfold opens, url.
  destruct (dec_spec w port PO) as (V & NE & FA).
  set (e := match export with [] => [] | _ :: _ => lit ":exportname=" ++ export end).
  assert (plain e) as PE by (apply plain_name; auto).
  assert (plain (quote host)) as PQ.
  { intros c I J. apply In_quote in I as [->|[->|I]]; [| |exact (P c I J)]; cbn in J; lia. }
  rewrite <- !app_assoc.
  rewrite urlparse_nbd; auto.
  2:{ apply plain_app; auto. apply plain_app; [intros c [<-|[]]; cbn; unfold COLON; lia|].
      apply plain_app; [apply plain_digits; auto|auto]. }
  2:{ intros [x X]. unfold quote in X. destruct (has COLON host) eqn:HC; [discriminate|].
      destruct host as [|a [|b host]]; [congruence| |].
      - cbn in X. injection X as _ X. discriminate.
      - cbn in X. injection X as -> -> _. apply NS. exists host. reflexivity. }
  unfold parse_url. cbn [p_scheme p_netloc p_path rsplit].
  destruct (list_eq_dec Z.eq_dec (lit "nbd") (lit "nbd")) as [_|N]; [|congruence].
  destruct (dec port) as [|d ds] eqn:DP; [congruence|].
  assert (unix_match (quote host ++ [COLON] ++ (d :: ds) ++ e) = None) as UM.
  { unfold unix_match. destruct (skip (lit "unix:/") _) eqn:SK; auto. exfalso.
    assert (forall p s r, skip p s = Some r -> s = p ++ r) as SS.
    { clear. induction p as [|x p IH]; intros s r; cbn [skip]; [intros Q; injection Q as ->; reflexivity|]. destruct s as [|y s]; [discriminate|].
      destruct (x =? y) eqn:XY; [|discriminate]. apply Z.eqb_eq in XY. intros Q. apply IH in Q. subst. auto. }
    apply SS in SK. unfold quote in SK. destruct (has COLON host) eqn:HC; [discriminate|].
    apply has_out in HC.
    assert (d <> 47) as D47. { inversion FA; subst. unfold ascii_digit in *. lia. }
    do 4 (destruct host as [|? host]; [discriminate SK|
          cbn in SK; injection SK as -> SK]).
    destruct host as [|x host]; [cbn in SK; injection SK as -> _; congruence|].
    cbn in SK. injection SK as -> _. apply HC. right. right. right. right. left. auto. }
  rewrite UM. unfold tcp_match. change (quote host ++ [COLON] ++ (d :: ds) ++ e) with (quote host ++ COLON :: d :: (ds ++ e)).
  rewrite tcp_split_spec.
  - change (d :: ds ++ e) with ((d :: ds) ++ e). rewrite span_all.
    + unfold tcp_address. rewrite ipv6_round_trip, V. unfold e. rewrite name_group_spec by auto. destruct export; auto.
    + eapply Forall_impl; [|exact FA]. intros c. apply is_digit_ascii.
    + unfold e. destruct export; [auto|reflexivity].
  - right. unfold quote. destruct (has _ _); [discriminate|auto].
  - intros I. apply In_quote in I as [I|[I|I]]; try discriminate. apply (P _ I). cbn. auto.
  - apply is_digit_ascii. inversion FA; auto.
  - change (d :: ds ++ e) with ((d :: ds) ++ e). apply port_like_rest; auto.
Qed.
Print Assumptions tcp_url_round_trip_partial.
Example tcp_url_case :
  plain (lit "fe80::1") /\ ~ starts (lit "//") (lit "fe80::1") /\ plain (lit "sda:x")
  /\ ~ port_like (Unicode (fun _ => None) (fun _ => false)) (lit "sda:x")
  /\ url (Tcp (lit "fe80::1") 10809) (lit "sda:x") = lit "nbd:[fe80::1]:10809:exportname=sda:x".
Proof.
  split; [apply plain_lit; reflexivity|]. split; [intros [x X]; discriminate|].
  split; [apply plain_lit; reflexivity|]. split; [|vm_compute; reflexivity].
  cbn. intros H.
  repeat (apply port_like_cons in H as [(Q & d & s' & Q1 & Q2)|H];
          [try discriminate; injection Q1 as <- _; discriminate|]).
  destruct H as (a & d & t & E & _). destruct a; discriminate.
Qed.

(* With a colon and a digit in the export name the host is wrong: for every
   such name. *)
Lemma tcp_split_length w b s h t : tcp_split w b s = Some (h, t) ->
  forall h' d t', s = h' ++ COLON :: d :: t' -> b = true \/ h' <> [] -> ~ In NEWLINE h' -> is_digit w d = true ->
  (List.length h' <= List.length h)%nat.
Proof.
  revert b h t. induction s as [|c s IH]; intros b h t E h' d t' S B NL D; [discriminate|].
  destruct h' as [|c' h']; [cbn; lia|]. cbn [app] in S. injection S as <- S.
  cbn [tcp_split] in E. replace (c =? NEWLINE) with false in E.
  2:{ symmetry. apply Z.eqb_neq. intros X. apply NL. left. auto. }
  destruct (tcp_split w true s) as [[h1 t1]|] eqn:T.
  - injection E as <- <-. cbn [List.length]. apply le_n_S.
    eapply IH; eauto. intros I. apply NL. right. auto.
  - exfalso. clear E IH. subst s.
    assert (forall h', tcp_split w true (h' ++ COLON :: d :: t') = None -> ~ In NEWLINE h' -> False) as X.
    { clear - D. induction h' as [|x h' IH]; intros E N.
      - change (tcp_split w true ([] ++ COLON :: d :: t')) with
          (match tcp_split w true (d :: t') with
           | Some (h, t0) => Some (COLON :: h, t0)
           | None => if is_digit w d then Some ([], d :: t') else None end) in E.
        rewrite D in E. destruct (tcp_split w true (d :: t')) as [[? ?]|]; discriminate.
      - cbn [app tcp_split] in E. replace (x =? NEWLINE) with false in E.
        2:{ symmetry. apply Z.eqb_neq. intros X. apply N. left. auto. }
        destruct (tcp_split w true (h' ++ COLON :: d :: t')) as [[? ?]|] eqn:T; [discriminate|].
        apply IH; auto. intros I. apply N. right. auto. }
    apply (X h' T). intros I. apply NL. right. auto.
Qed.
Theorem tcp_url_port_like_export_wrong :
  forall w ok host port export r,
  ok [] = true -> host <> [] -> plain host -> ~ In COLON host -> ~ starts (lit "//") host -> 0 <= port ->
  plain export -> port_like w export ->
  opens w ok (url (Tcp host port) export) = Some r -> fst r <> Tcp host port.
Proof.
  intros w ok host port export r OK H P NC NS PO E PL. unfold opens, url.
  destruct (dec_spec w port PO) as (V & NE & FA).
  assert (quote host = host) as -> by (unfold quote; apply has_out in NC; rewrite NC; auto).
  destruct PL as (a & d & t & X & D).
  destruct export as [|x0 export]; [destruct a; discriminate|].
  rewrite X in E |- *.
  assert (plain (dec port)) as PD by (apply plain_digits; auto).
  assert (plain (lit ":exportname=")) as PX by (apply plain_lit; reflexivity).
  assert (forall x y, host ++ x :: y <> [] ) as _ by (destruct host; discriminate).
  replace (match a ++ 58 :: d :: t with [] => [] | _ :: _ => lit ":exportname=" ++ a ++ 58 :: d :: t end)
    with (lit ":exportname=" ++ a ++ 58 :: d :: t) by (destruct a; reflexivity).
  rewrite <- !app_assoc.
  rewrite urlparse_nbd; auto.
  2:{ assert (plain [COLON]) by (intros c [<-|[]]; cbn; unfold COLON; lia). auto using plain_app. }
  2:{ intros [x Y]. destruct host as [|z [|b host]]; [congruence| |].
      - cbn in Y. injection Y as _ Y. discriminate.
      - cbn in Y. injection Y as -> -> _. apply NS. exists host. reflexivity. }
  unfold parse_url. cbn [p_scheme p_netloc p_path rsplit].
  destruct (list_eq_dec Z.eq_dec (lit "nbd") (lit "nbd")) as [_|N]; [|congruence].
  destruct (unix_match _) as [[path name]|].
  { intros Q. injection Q as <-. discriminate. }
  unfold tcp_match.
  destruct (tcp_split w false _) as [[h' t']|] eqn:T; [|discriminate].
  destruct (span (is_digit w) t') as [p' rest]. intros Q. injection Q as <-. cbn [fst]. unfold tcp_address. intros Q.
  injection Q as QH _.
  apply tcp_split_length with (h' := host ++ [COLON] ++ dec port ++ lit ":exportname=" ++ a) (d := d) (t' := t) in T; auto.
  - assert (List.length host < List.length h')%nat as L.
    { rewrite !app_length in T. cbn in T. lia. }
    destruct (unquote_cases h') as [U|(h2 & -> & C2 & U)].
    + rewrite U in QH. subst. lia.
    + rewrite U in QH. subst h2. auto.
  - rewrite <- !app_assoc. reflexivity.
  - right. destruct host; discriminate.
  - intros I. assert (plain (host ++ [COLON] ++ dec port ++ lit ":exportname=" ++ a)) as PP.
    { repeat apply plain_app; auto. { intros c [<-|[]]. cbn. unfold COLON. lia. }
      intros c J. apply E. apply in_or_app. auto. }
    apply (PP _ I). cbn. auto.
Qed.
Print Assumptions tcp_url_port_like_export_wrong.

(* So the claim fails for such names, for sockets with a colon in the path, for
   names with a question mark. *)
Definition ascii_only := Unicode (fun _ => None) (fun _ => false).
Theorem tcp_url_round_trip_refuted :
  exists host port export, host <> [] /\ plain host /\ plain export
  /\ opens ascii_only (fun _ => true) (url (Tcp host port) export)
     = Some (Tcp (lit "host:10809:exportname=disk") 1, []).
Proof.
  exists (lit "host"), 10809, (lit "disk:1"). split; [discriminate|].
  split; [apply plain_lit; reflexivity|]. split; [apply plain_lit; reflexivity|]. vm_compute. reflexivity.
Qed.
Print Assumptions tcp_url_round_trip_refuted.
Theorem unix_url_round_trip_refuted :
  exists path export, opens ascii_only (fun _ => true) (url (Unix path) export) = Some (Unix (lit "/run/a"), [])
  /\ path = lit "/run/a:b" /\ export = lit "sda".
Proof. eexists _, _. split; [|split; reflexivity]. vm_compute. reflexivity. Qed.
Print Assumptions unix_url_round_trip_refuted.
Theorem url_export_delimiter_refuted :
  exists path export, opens ascii_only (fun _ => true) (url (Unix path) export) = Some (Unix path, lit "a")
  /\ export = lit "a?b".
Proof. exists (lit "/run/s"), (lit "a?b"). split; [vm_compute; reflexivity|reflexivity]. Qed.
Print Assumptions url_export_delimiter_refuted.

(* ---- The nice notation ---- *)
Lemma rsplit_none s : ~ In COLON s -> rsplit s = None.
Proof.
  induction s as [|c s IH]; intros N; cbn [rsplit]; auto. rewrite IH by (intros I; apply N; right; auto).
  destruct (c =? COLON) eqn:C; auto. exfalso. apply N. left. lia.
Qed.
Lemma rsplit_last a b : ~ In COLON b -> rsplit (a ++ COLON :: b) = Some (a, b).
Proof.
  intros N. induction a as [|c a IH]; cbn [app rsplit].
  - rewrite rsplit_none by auto. rewrite Z.eqb_refl. auto.
  - rewrite IH. auto.
Qed.
Lemma int_digits_ascii w s : s <> [] -> Forall (fun c => ascii_digit c = true) s -> int_digits w s = Some s.
Proof.
  intros N F. induction F as [|c s C F IH]; [congruence|]. cbn [int_digits].
  rewrite (is_digit_ascii w c C). destruct s as [|d s]; auto. rewrite IH by discriminate.
  inversion F as [|? ? D F']; subst. destruct (Z.eq_dec d 95) as [->|E].
  - discriminate.
  - destruct d as [|p|p]; auto. do 7 (destruct p as [p|p|]; auto). congruence.
Qed.
Lemma skip_none f s : match s with [] => True | c :: _ => f c = false end -> skip_while f s = s.
Proof. destruct s as [|c s]; auto. cbn. intros ->. auto. Qed.
Lemma digit_no_space w c : ascii_digit c = true -> is_space w c = false.
Proof. unfold ascii_digit, is_space. intros H. destruct (u_space w c); lia. Qed.
Lemma py_int_dec w n : 0 <= n -> py_int w (dec n) = Some n.
Proof.
  intros N. destruct (dec_spec w n N) as (V & NE & FA). unfold py_int.
  rewrite (skip_none _ (dec n)).
  2:{ destruct (dec n); auto. apply digit_no_space. inversion FA; auto. }
  rewrite skip_none.
  2:{ destruct (rev (dec n)) as [|c r] eqn:R; auto. apply digit_no_space.
      rewrite Forall_forall in FA. apply FA. apply in_rev. rewrite R. left. auto. }
  rewrite rev_involutive. rewrite (int_digits_ascii w (dec n)) by auto. rewrite V.
  destruct (dec n) as [|c ds]; [congruence|]. inversion FA as [|? ? D F']; subst.
  destruct (Z.eq_dec c 45) as [->|E]; [discriminate|]. destruct (Z.eq_dec c 43) as [->|E']; [discriminate|].
  destruct c as [|p|p]; auto. do 6 (destruct p as [p|p|]; auto); congruence.
Qed.

(* ---- int() ---- *)
Lemma digit_iff w c v : digit w c = Some v <-> digit_of w c v.
Proof.
  unfold digit, digit_of, ascii_digit. destruct ((48 <=? c) && (c <=? 57)) eqn:A.
  - split; [intros [= <-]; left; lia|intros [[_ ->]|[B _]]; [auto|lia]].
  - destruct (c <? 128) eqn:L; split.
    + discriminate.
    + intros [[B _]|[B _]]; lia.
    + intros E. right. split; [lia|auto].
    + intros [[B _]|[_ E]]; [lia|auto].
Qed.
Lemma is_digit_iff w c : is_digit w c = true <-> exists v, digit_of w c v.
Proof.
  unfold is_digit. destruct (digit w c) as [v|] eqn:D.
  - split; auto. intros _. exists v. apply digit_iff. auto.
  - split; [discriminate|]. intros [v V]. apply digit_iff in V. congruence.
Qed.
Lemma is_space_iff w c : is_space w c = true <-> space_of w c.
Proof.
  unfold is_space, space_of. cbn [In]. destruct (u_space w c); rewrite ?andb_true_r, ?andb_false_r, ?orb_false_r.
  - split; intros H; [|lia]. destruct (Z_le_gt_dec 128 c); [right; auto|left; lia].
  - split; intros H; [left; lia|]. destruct H as [H|[_ H]]; [lia|discriminate].
Qed.
Lemma digit_val_of w c v : digit_of w c v -> digit_val w c = v.
Proof. intros D. unfold digit_val. apply digit_iff in D. rewrite D. auto. Qed.
Lemma digit_not_under w c v : digit_of w c v -> c <> 95 /\ c <> 45 /\ c <> 43.
Proof. unfold digit_of. lia. Qed.
Lemma int_digits_sound w s : forall l, int_digits w s = Some l ->
  digits_of w s (map (digit_val w) l).
Proof.
  assert (D : forall c, is_digit w c = true -> digit_of w c (digit_val w c)).
  { intros c H. apply is_digit_iff in H as [v V]. rewrite (digit_val_of _ _ _ V). auto. }
  remember (List.length s) as n eqn:N. assert (L : (List.length s <= n)%nat) by lia. clear N.
  revert s L. induction n as [|n IH]; intros [|c s] L l E; try discriminate; [cbn in L; lia|].
  cbn [int_digits] in E. destruct s as [|d s].
  - destruct (is_digit w c) eqn:C; [|discriminate]. injection E as <-. constructor. auto.
  - cbn [List.length] in L.
    assert (K : forall t, (List.length t <= n)%nat ->
       (if is_digit w c then match int_digits w t with Some l => Some (c :: l) | None => None end else None) = Some l ->
       exists l', l = c :: l' /\ is_digit w c = true /\ digits_of w t (map (digit_val w) l')).
    { intros t T H. destruct (is_digit w c) eqn:C; [|discriminate]. destruct (int_digits w t) as [l'|] eqn:R; [|discriminate].
      injection H as <-. exists l'. split; auto. }
    destruct (Z.eq_dec d 95) as [->|NE].
    + apply K in E as (l' & -> & C & H); [|lia]. cbn [map]. constructor 3; auto.
    + assert ((if is_digit w c then match int_digits w (d :: s) with Some l => Some (c :: l) | None => None end else None) = Some l) as E'.
      { rewrite <- E. destruct d as [|p|p]; auto. do 7 (destruct p as [p|p|]; auto). congruence. }
      apply K in E' as (l' & -> & C & H); [|cbn; lia]. cbn [map]. constructor 2; auto.
Qed.
Lemma int_digits_complete w s l : digits_of w s l -> exists t, int_digits w s = Some t /\ map (digit_val w) t = l.
Proof.
  induction 1 as [c v D|c v s l D H (t & I1 & I2)|c v s l D H (t & I1 & I2)].
  - exists [c]. cbn [int_digits map]. rewrite (proj2 (is_digit_iff w c)) by eauto. rewrite (digit_val_of _ _ _ D). auto.
  - exists (c :: t). cbn [map]. rewrite (digit_val_of _ _ _ D), I2. split; auto.
    cbn [int_digits]. rewrite (proj2 (is_digit_iff w c)) by eauto. rewrite I1.
    destruct s as [|d s]; [inversion H|].
    assert (d <> 95). { inversion H; subst; eapply digit_not_under; eauto. }
    destruct d as [|p|p]; auto. do 7 (destruct p as [p|p|]; auto). congruence.
  - exists (c :: t). cbn [map]. rewrite (digit_val_of _ _ _ D), I2. split; auto.
    cbn [int_digits]. rewrite (proj2 (is_digit_iff w c)) by eauto. rewrite I1. auto.
Qed.
Lemma value_number w s : value w s = number (map (digit_val w) s).
Proof.
  unfold value. enough (forall a, fold_left (fun a c => 10 * a + digit_val w c) s a
                          = a * 10 ^ Z.of_nat (List.length s) + number (map (digit_val w) s)) as E.
  { rewrite E. lia. }
  induction s as [|c s IH]; intros a; cbn [fold_left map number List.length].
  - rewrite Z.pow_0_r. lia.
  - rewrite IH, map_length. rewrite Nat2Z.inj_succ, Z.pow_succ_r by lia. lia.
Qed.
Lemma skip_while_split f s : exists a, s = a ++ skip_while f s /\ Forall (fun c => f c = true) a /\
  match skip_while f s with [] => True | c :: _ => f c = false end.
Proof.
  induction s as [|c s (a & I1 & I2 & I3)]; cbn [skip_while]; [exists []; auto|].
  destruct (f c) eqn:C; [|exists []; auto]. exists (c :: a). cbn [app]. rewrite <- I1. auto.
Qed.
Lemma skip_while_app f a s : Forall (fun c => f c = true) a ->
  match s with [] => True | c :: _ => f c = false end -> skip_while f (a ++ s) = s.
Proof. intros A S. induction A as [|c a C A IH]; cbn [app skip_while]; [apply skip_none; auto|rewrite C; auto]. Qed.
Lemma last_digits w d l : digits_of w d l -> exists r c v, d = r ++ [c] /\ digit_of w c v.
Proof.
  induction 1 as [c v D|c v s l D H (r & x & u & -> & I)|c v s l D H (r & x & u & -> & I)].
  - exists [], c, v. auto.
  - exists (c :: r), x, u. auto.
  - exists (c :: 95 :: r), x, u. auto.
Qed.
Lemma first_digits w d l : digits_of w d l -> exists c r v, d = c :: r /\ digit_of w c v.
Proof. destruct 1; eauto. Qed.
Lemma digit_space w c v : sane w -> digit_of w c v -> is_space w c = false.
Proof.
  intros S D. destruct (is_space w c) eqn:E; auto. exfalso. apply is_space_iff in E.
  destruct D as [[D _]|[D V]]; destruct E as [E|[E U]]; try (cbn [In] in E; lia).
  specialize (S c U). congruence.
Qed.

(* int() reads exactly the texts of the grammar. *)
Lemma py_int_exact w s n : sane w -> py_int w s = Some n <-> int_of w s n.
Proof.
  intros SN. unfold py_int. split.
  - destruct (skip_while_split (is_space w) s) as (a & E1 & A & _).
    set (t := skip_while (is_space w) s) in *.
    destruct (skip_while_split (is_space w) (rev t)) as (b & E2 & B & _).
    set (u := rev (skip_while (is_space w) (rev t))) in *.
    assert (T : t = u ++ rev b). { rewrite <- (rev_involutive t), E2, rev_app_distr. reflexivity. }
    assert (A' : Forall (space_of w) a) by (eapply Forall_impl; [|exact A]; intros c; apply is_space_iff).
    assert (B' : Forall (space_of w) (rev b)).
    { apply Forall_rev. eapply Forall_impl; [|exact B]; intros c; apply is_space_iff. }
    intros H.
    assert (K : forall r z, (match int_digits w r with Some l => Some (z * value w l) | None => None end) = Some n ->
                exists l, digits_of w r l /\ n = z * number l).
    { intros r z Q. destruct (int_digits w r) as [l|] eqn:I; [|discriminate]. injection Q as <-.
      exists (map (digit_val w) l). split; [apply int_digits_sound; auto|]. rewrite value_number. auto. }
    assert (C : (exists r, u = 45 :: r) \/ (exists r, u = 43 :: r) \/
                (match int_digits w u with Some l => Some (value w l) | None => None end) = Some n).
    { destruct u as [|c r]; [auto|]. destruct (Z.eq_dec c 45) as [->|N1]; [eauto|].
      destruct (Z.eq_dec c 43) as [->|N2]; [eauto|]. right. right. rewrite <- H.
      destruct c as [|p|p]; auto. do 6 (destruct p as [p|p|]; auto); congruence. }
    destruct C as [[r R]|[[r R]|C]].
    + rewrite R in H. destruct (K r (-1)) as (l & L1 & L2).
      { rewrite <- H. destruct (int_digits w r); [f_equal; lia|auto]. }
      exists a, [45], r, (rev b), l. rewrite E1, T, R. split; [reflexivity|]. split; [auto|]. split; [auto|]. split; [auto|].
      left. split; [auto|lia].
    + rewrite R in H. destruct (K r 1) as (l & L1 & L2).
      { rewrite <- H. destruct (int_digits w r); [f_equal; lia|auto]. }
      exists a, [43], r, (rev b), l. rewrite E1, T, R. split; [reflexivity|]. split; [auto|]. split; [auto|]. split; [auto|].
      right. split; [auto|lia].
    + destruct (K u 1) as (l & L1 & L2).
      { rewrite <- C. destruct (int_digits w u); [f_equal; lia|auto]. }
      exists a, [], u, (rev b), l. rewrite E1, T. split; [reflexivity|]. split; [auto|]. split; [auto|]. split; [auto|].
      right. split; [auto|lia].
  - intros (a & sg & d & b & l & -> & A & B & D & SG).
    destruct (int_digits_complete w d l D) as (t & T1 & T2).
    destruct (first_digits _ _ _ D) as (c & r & v & F1 & F2).
    destruct (last_digits _ _ _ D) as (r' & c' & v' & G1 & G2).
    assert (A' : Forall (fun c => is_space w c = true) a) by (eapply Forall_impl; [|exact A]; intros x; apply is_space_iff).
    assert (B' : Forall (fun c => is_space w c = true) (rev b)).
    { apply Forall_rev. eapply Forall_impl; [|exact B]; intros x; apply is_space_iff. }
    assert (Q : sg = [45] \/ sg = [] \/ sg = [43]) by tauto.
    assert (U : rev (skip_while (is_space w) (rev (skip_while (is_space w) (a ++ sg ++ d ++ b)))) = sg ++ d).
    { rewrite skip_while_app; auto.
      - rewrite (app_assoc sg d b). rewrite rev_app_distr. rewrite skip_while_app; auto; [apply rev_involutive|].
        rewrite G1, app_assoc, rev_app_distr. cbn [rev app]. eapply digit_space; eauto.
      - destruct Q as [->|[->| ->]]; cbn [app]; [reflexivity| |reflexivity].
        rewrite F1. cbn [app]. eapply digit_space; eauto. }
    rewrite U. destruct SG as [[-> ->]|[[->| ->] ->]]; cbn [app].
    + rewrite T1, value_number, T2. auto.
    + rewrite T1, value_number, T2. rewrite F1. pose proof (digit_not_under _ _ _ F2) as (_ & N1 & N2).
      destruct c as [|p|p]; auto. do 6 (destruct p as [p|p|]; auto); congruence.
    + rewrite T1, value_number, T2. auto.
Qed.

Lemma nice_url_text :
  forall w ok host text export,
  plain host -> ~ In SLASH host -> plain text -> ~ In SLASH text -> ~ In COLON text -> plain export ->
  ok (quote host ++ [COLON] ++ text) = true ->
  opens w ok (lit "nbd://" ++ quote host ++ [COLON] ++ text ++ [SLASH] ++ export)
  = match py_int w text with Some n => Some (Tcp host n, export) | None => None end.
Proof.
  intros w ok host text export P NS PT NT CT E OK. unfold opens.
  assert (plain (quote host)) as PQ.
  { intros c I J. apply In_quote in I as [->|[->|I]]; [| |exact (P c I J)]; cbn in J; lia. }
  unfold urlparse.
  match goal with |- context [skip_while ?f (lit "nbd://" ++ ?x)] =>
    assert (skip_while f (lit "nbd://" ++ x) = lit "nbd://" ++ x) as -> by reflexivity; set (rest := x) end.
  assert (plain rest) as PR.
  { unfold rest. repeat apply plain_app; auto.
    - intros c [<-|[]]. cbn. unfold COLON. lia.
    - intros c [<-|[]]. cbn. unfold SLASH. lia. }
  rewrite filter_all.
  2:{ apply Forall_forall. intros c I. assert (plain (lit "nbd://" ++ rest)) as P'.
      { apply plain_app; auto. apply plain_lit. reflexivity. }
      specialize (P' c I). cbn in P'. lia. }
  assert (split_scheme (lit "nbd://" ++ rest) = (lit "nbd", 47 :: 47 :: rest)) as -> by reflexivity.
  cbn iota. unfold rest.
  replace (quote host ++ [COLON] ++ text ++ [SLASH] ++ export)
    with ((quote host ++ [COLON] ++ text) ++ SLASH :: export) by (rewrite <- !app_assoc; reflexivity).
  rewrite span_all; [|apply Forall_forall; intros c I; unfold not_delim|reflexivity].
  2:{ assert (c <> SLASH /\ plain [c]) as [C1 C2].
      { apply in_app_or in I as [I|I].
        - split.
          + intros ->. apply In_quote in I as [I|[I|I]]; try discriminate. auto.
          + intros x [<-|[]]. apply PQ. auto.
        - cbn [app] in I. destruct I as [<-|I].
          + split; [discriminate|]. intros x [<-|[]]. cbn. unfold COLON. lia.
          + split; [intros ->; auto|]. intros x [<-|[]]. apply PT. auto. }
      specialize (C2 c (or_introl eq_refl)). cbn in C2. unfold SLASH in *. lia. }
  rewrite OK. unfold parse_url. cbn [p_scheme p_netloc p_path].
  destruct (list_eq_dec Z.eq_dec (lit "nbd") (lit "nbd")) as [_|N]; [|congruence].
  cbn [app]. rewrite rsplit_last by auto.
  rewrite plain_path. 2:{ apply (plain_app [SLASH] export); auto. intros c [<-|[]]. cbn. unfold SLASH. lia. }
  cbn [fst]. unfold tcp_address. rewrite ipv6_round_trip. destruct (py_int w text); reflexivity.
Qed.

(* Every host without URL delimiters whose brackets urlparse() accepts, every
   port and every export name without ? and #, also with a leading slash. *)
Theorem nice_url_round_trip :
  forall w ok host port export,
  plain host -> ~ In SLASH host -> 0 <= port -> plain export ->
  ok (quote host ++ [COLON] ++ dec port) = true ->
  opens w ok (nice_url host port export) = Some (Tcp host port, export).
Proof.
  intros w ok host port export P NS PO E OK. unfold nice_url.
  destruct (dec_spec w port PO) as (V & NE & FA). rewrite Forall_forall in FA.
  rewrite nice_url_text; auto.
  - rewrite py_int_dec by auto. auto.
  - apply plain_digits. apply Forall_forall. auto.
  - intros I. specialize (FA _ I). discriminate.
  - intros I. specialize (FA _ I). discriminate.
Qed.
Print Assumptions nice_url_round_trip.

(* The port of the nice notation: exactly what int() reads; any other text is
   an error. *)
Theorem nice_url_port : forall w ok host text export n,
  sane w -> plain host -> ~ In 47 host -> plain text -> ~ In 47 text -> ~ In 58 text -> plain export ->
  ok (quote host ++ [58] ++ text) = true ->
  opens w ok (lit "nbd://" ++ quote host ++ [58] ++ text ++ [47] ++ export) = Some (Tcp host n, export)
  <-> int_of w text n.
Proof.
  intros w ok host text export n SN P NS PT NT CT E OK.
  change [58] with [COLON] in *. change [47] with [SLASH]. rewrite nice_url_text by auto.
  rewrite <- py_int_exact by auto. destruct (py_int w text) as [k|]; [|split; discriminate].
  split; intros [= ->]; auto.
Qed.
Print Assumptions nice_url_port.
Example nice_url_port_case :
  let w := Unicode (fun c => if c =? 1633 then Some 1 else None) (fun c => c =? 8195) in
  sane w /\ int_of w (lit " +10_809 ") 10809 /\ int_of w [8195; 1633; 50] 12 /\ int_of w (lit "-7") (-7) /\
  ~ (exists n, int_of w (lit "1__0") n) /\ ~ (exists n, int_of w (lit "_1") n) /\ ~ (exists n, int_of w (lit "10a") n).
Proof.
  intros w. assert (S : sane w).
  { intros c. cbn. intros H. replace (c =? 1633) with false by lia. auto. }
  split; [auto|]. split; [apply py_int_exact; [auto|vm_compute; reflexivity]|].
  split; [apply py_int_exact; [auto|vm_compute; reflexivity]|].
  split; [apply py_int_exact; [auto|vm_compute; reflexivity]|].
  assert (K : forall s, py_int w s = None -> ~ exists n, int_of w s n).
  { intros s H [n N]. apply (py_int_exact w s n S) in N. congruence. }
  split; [apply K; vm_compute; reflexivity|]. split; apply K; vm_compute; reflexivity.
Qed.
Example nice_url_case :
  nice_url (lit "::1") 10809 (lit "/sda:1") = lit "nbd://[::1]:10809//sda:1"
  /\ plain (lit "::1") /\ ~ In SLASH (lit "::1").
Proof.
  split; [vm_compute; reflexivity|]. split; [apply plain_lit; reflexivity|]. vm_compute. intuition discriminate.
Qed.

(* ---- What makes no difference ---- *)
Lemma skip_while_insert f a c b : f c = true ->
  skip_while f (a ++ c :: b) = skip_while f (a ++ b) \/
  exists a', skip_while f (a ++ c :: b) = a' ++ c :: b /\ skip_while f (a ++ b) = a' ++ b.
Proof.
  intros C. induction a as [|x a IH]; cbn [app skip_while].
  - rewrite C. auto.
  - destruct (f x); auto. right. exists (x :: a). auto.
Qed.

(* Tabs, newlines and carriage returns anywhere in a URL are ignored, as are
   spaces and control characters before it. *)
Theorem url_white_space : forall w ok a b c,
  (In c [9; 10; 13] -> opens w ok (a ++ c :: b) = opens w ok (a ++ b)) /\
  (0 <= c <= 32 -> opens w ok (c :: b) = opens w ok b).
Proof.
  intros w ok a b c.
  assert (K : forall u v, filter (fun c => negb ((c =? 9) || (c =? 13) || (c =? 10))) (skip_while (fun c => (0 <=? c) && (c <=? 32)) u)
                        = filter (fun c => negb ((c =? 9) || (c =? 13) || (c =? 10))) (skip_while (fun c => (0 <=? c) && (c <=? 32)) v) ->
              opens w ok u = opens w ok v).
  { intros u v E. unfold opens, urlparse. rewrite E. auto. }
  split.
  - intros I. apply K.
    assert (C : (0 <=? c) && (c <=? 32) = true) by (cbn [In] in I; lia).
    assert (F : negb ((c =? 9) || (c =? 13) || (c =? 10)) = false) by (cbn [In] in I; lia).
    destruct (skip_while_insert (fun c => (0 <=? c) && (c <=? 32)) a c b C) as [->|(a' & -> & ->)]; auto.
    rewrite !filter_app. cbn [filter]. rewrite F. auto.
  - intros I. apply K. cbn [skip_while]. replace ((0 <=? c) && (c <=? 32)) with true by lia. auto.
Qed.
Print Assumptions url_white_space.
Example url_white_space_case :
  opens (Unicode (fun _ => None) (fun _ => false)) (fun _ => true)
    (9 :: 32 :: lit "nb" ++ [13; 10] ++ lit "d:unix:/s" ++ [9] ++ lit "ock:exportname=a")
  = Some (Unix (lit "/sock"), lit "a").
Proof. vm_compute. reflexivity. Qed.

(* The scheme is read without regard to case, and the colon before exportname
   may be doubled. *)
Theorem url_variants : forall w ok scheme s path export,
  ok [] = true -> any_case_nbd scheme ->
  opens w ok (scheme ++ 58 :: s) = opens w ok (lit "nbd:" ++ s) /\
  (socket_path path -> plain path -> plain export ->
   opens w ok (lit "nbd:unix:" ++ path ++ lit "::exportname=" ++ export) = Some (Unix path, export)).
Proof.
  intros w ok scheme s path export OK (n & b & d & -> & N & B & D). split.
  - unfold opens, urlparse.
    assert (forall x, In x [110; 78; 98; 66; 100; 68] ->
      (0 <=? x) && (x <=? 32) = false /\ negb ((x =? 9) || (x =? 13) || (x =? 10)) = true) as X.
    { intros x I. cbn [In] in I. lia. }
    cbn [app skip_while]. rewrite (proj1 (X n ltac:(cbn [In] in *; tauto))).
    cbn [filter]. rewrite (proj2 (X n ltac:(cbn [In] in *; tauto))), (proj2 (X b ltac:(cbn [In] in *; tauto))), (proj2 (X d ltac:(cbn [In] in *; tauto))).
    change (skip_while (fun c => (0 <=? c) && (c <=? 32)) (lit "nbd:" ++ s)) with (lit "nbd:" ++ s).
    rewrite filter_app. change (filter (fun c => negb ((c =? 9) || (c =? 13) || (c =? 10))) (lit "nbd:")) with (lit "nbd:").
    cbn [filter]. change (negb ((58 =? 9) || (58 =? 13) || (58 =? 10))) with true. cbv iota.
    set (r := filter _ s).
    assert (split_scheme (n :: b :: d :: 58 :: r) = split_scheme (lit "nbd:" ++ r)) as ->; auto.
    cbn [In] in N, B, D. destruct N as [<-|[<-|[]]], B as [<-|[<-|[]]], D as [<-|[<-|[]]]; reflexivity.
  - intros (r & -> & R & NC) P E. unfold opens.
    change (lit "nbd:unix:") with (lit "nbd:" ++ lit "unix:"). rewrite <- !app_assoc.
    rewrite urlparse_nbd; auto.
    2:{ repeat (apply plain_app; auto); apply plain_lit; reflexivity. }
    2:{ intros [x X]. discriminate. }
    unfold parse_url. cbn [p_scheme p_netloc p_path rsplit].
    destruct (list_eq_dec Z.eq_dec (lit "nbd") (lit "nbd")) as [_|NN]; [|congruence].
    unfold unix_match.
    change (lit "unix:" ++ (47 :: r) ++ lit "::exportname=" ++ export) with (lit "unix:/" ++ r ++ lit "::exportname=" ++ export).
    rewrite skip_app. rewrite span_all.
    + destruct r as [|c r]; [congruence|]. unfold name_group. rewrite skip_app.
      rewrite span_all_nil; auto. apply Forall_forall. intros x I. specialize (E x I).
      cbn in E. unfold NEWLINE. lia.
    + apply Forall_forall. intros c I. unfold COLON. assert (c <> 58); [congruence|lia].
    + reflexivity.
Qed.
Print Assumptions url_variants.
Example url_variants_case : any_case_nbd (lit "NbD").
Proof. exists 78, 98, 68. cbn. intuition. Qed.

(* Only URLs with this scheme are opened. *)
Lemma span_split f s a b : span f s = (a, b) -> s = a ++ b /\ match b with [] => True | c :: _ => f c = false end.
Proof.
  revert a b. induction s as [|c s IH]; intros a b; cbn [span]; [intros [= <- <-]; auto|].
  destruct (f c) eqn:C.
  - destruct (span f s) as [x y]. intros [= <- <-]. destruct (IH x y eq_refl) as [-> H]. auto.
  - intros [= <- <-]. auto.
Qed.
Lemma lower_is c v : 97 <= v <= 122 -> lower c = v -> In c [v; v - 32].
Proof. unfold lower. cbn [In]. destruct ((65 <=? c) && (c <=? 90)) eqn:E; lia. Qed.
Theorem url_scheme : forall w ok u r,
  (forall c, In c u -> 32 < c) -> opens w ok u = Some r ->
  exists scheme s, u = scheme ++ 58 :: s /\ any_case_nbd scheme.
Proof.
  intros w ok u r P O. unfold opens, urlparse in O.
  rewrite skip_none in O.
  2:{ destruct u as [|c u]; auto. specialize (P c (or_introl eq_refl)). lia. }
  rewrite filter_all in O.
  2:{ apply Forall_forall. intros c I. specialize (P c I). lia. }
  destruct (split_scheme u) as [sc rest] eqn:S.
  assert (sc = lit "nbd") as ->.
  { match type of O with match ?x with _ => _ end = _ => destruct x as [p|] eqn:X; [|discriminate] end.
    assert (p_scheme p = sc) as <-.
    { assert (forall nl q, (if ok nl then Some (Parsed sc nl q) else None) = Some p -> p_scheme p = sc) as K.
      { intros nl q. destruct (ok nl); [|discriminate]. intros [= <-]. auto. }
      destruct rest as [|c [|d rest]]; [eauto| |].
      - destruct c as [|q|q]; eauto. do 6 (destruct q as [q|q|]; eauto).
      - destruct (Z.eq_dec c 47) as [->|N].
        + destruct (Z.eq_dec d 47) as [->|M].
          * destruct (span not_delim rest). eauto.
          * destruct d as [|q|q]; eauto. do 6 (destruct q as [q|q|]; eauto). congruence.
        + destruct c as [|q|q]; eauto. do 6 (destruct q as [q|q|]; eauto). congruence. }
    unfold parse_url in O. destruct (list_eq_dec Z.eq_dec (p_scheme p) (lit "nbd")) as [E|_]; [auto|discriminate]. }
  unfold split_scheme in S. destruct (span _ u) as [a b] eqn:SP. apply span_split in SP as [-> B].
  destruct a as [|c a]; [discriminate|]. destruct b as [|x b]; [discriminate|].
  destruct (is_alpha c && forallb scheme_char a); [|discriminate].
  injection S as L1 L2 _. exists (c :: a), b. unfold COLON in B. replace x with 58 by lia. split; [auto|].
  destruct a as [|y [|z [|t a]]]; try discriminate. injection L2 as L2 L3.
  exists c, y, z. split; [auto|].
  split; [apply (lower_is c 110); [lia|exact L1]|]. split; [apply (lower_is y 98); [lia|exact L2]|apply (lower_is z 100); [lia|exact L3]].
Qed.
Print Assumptions url_scheme.
Example url_scheme_case :
  opens (Unicode (fun _ => None) (fun _ => false)) (fun _ => true) (lit "Nbd:localhost:10809")
  = Some (Tcp (lit "localhost") 10809, []) /\
  opens (Unicode (fun _ => None) (fun _ => false)) (fun _ => true) (lit "nbds:localhost:10809") = None /\
  forall c, In c (lit "Nbd:localhost:10809") -> 32 < c.
Proof.
  split; [vm_compute; reflexivity|]. split; [vm_compute; reflexivity|].
  apply Forall_forall. vm_compute. repeat constructor.
Qed.
