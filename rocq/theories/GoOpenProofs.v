(* Lemmas about opening an image in the Go program. *)
From Coq Require Import ZArith List Bool String Lia.
From Verif Require Import UrlModel GoOpenModel GoOpenSpec.
From Verif Require UuidModel.
Import ListNotations.
Open Scope Z_scope.

Lemma str_eqb_iff a b : str_eqb a b = true <-> a = b.
Proof. unfold str_eqb. destruct (list_eq_dec Z.eq_dec a b); split; auto; discriminate. Qed.

Lemma span_app f a b : (forall c, In c a -> f c = true) -> (forall c r, b = c :: r -> f c = false) -> span f (a ++ b) = (a, b).
Proof.
  intros A B. induction a as [|c a IH]; cbn.
  - destruct b as [|c b]; cbn; auto. rewrite (B c b eq_refl). reflexivity.
  - rewrite A by (left; reflexivity). rewrite IH; auto. intros x I. apply A. right. exact I.
Qed.

Lemma before_none c s : ~ In c s -> before c s = s /\ after c s = [].
Proof.
  intros N. unfold before, after. rewrite <- (app_nil_r s) at 1 2.
  assert (E : span (fun x => negb (x =? c)) (s ++ []) = (s, [])).
  { apply span_app; [|discriminate]. intros x I. destruct (Z.eqb_spec x c); [subst; contradiction|reflexivity]. }
  rewrite app_nil_r in *. rewrite E. auto.
Qed.

Lemma before_app c a b : ~ In c a -> (b = [] \/ exists q, b = c :: q) -> before c (a ++ b) = a.
Proof.
  intros N B. unfold before.
  rewrite (span_app _ a b); auto.
  - intros x I. destruct (Z.eqb_spec x c); [subst; contradiction|reflexivity].
  - intros x r ->. destruct B as [B|[q B]]; [discriminate|]. injection B as -> _. rewrite Z.eqb_refl. reflexivity.
Qed.

(* ---- schemes ---- *)

Definition plain_scheme (c : Z) : Prop := is_alpha c = true \/ c = 43.

Lemma get_scheme_rest a r : Forall plain_scheme a -> get_scheme false (a ++ 58 :: r) = SSome a r.
Proof.
  induction 1 as [|c a P _ IH]; [reflexivity|]. cbn [app get_scheme].
  replace (is_alpha c || (negb false && (ascii_digit c || (c =? 43) || (c =? 45) || (c =? 46)))) with true.
  - rewrite IH. reflexivity.
  - destruct P as [-> | ->]; reflexivity.
Qed.

Lemma get_scheme_first c a r : is_alpha c = true -> Forall plain_scheme a -> get_scheme true ((c :: a) ++ 58 :: r) = SSome (c :: a) r.
Proof.
  intros C P. cbn [app get_scheme]. rewrite C. cbn [orb]. rewrite get_scheme_rest; auto.
Qed.

Lemma get_scheme_split s : forall b a r, get_scheme b s = SSome a r -> s = a ++ 58 :: r.
Proof.
  induction s as [|c s IH]; intros b a r H; [discriminate|]. cbn [get_scheme] in H.
  destruct (is_alpha c || _).
  - destruct (get_scheme false s) as [| |a' r'] eqn:G; try discriminate. injection H as <- <-.
    cbn. f_equal. eauto.
  - destruct (Z.eqb_spec c 58) as [->|N]; [|discriminate]. destruct b; [discriminate|].
    injection H as <- <-. reflexivity.
Qed.

Lemma lower_same a : Forall2 same_letter a (map lower a).
Proof.
  induction a as [|c a IH]; constructor; auto. unfold same_letter, lower.
  destruct ((65 <=? c) && (c <=? 90)) eqn:E; [right; lia|auto].
Qed.

Lemma same_lower a sch : Forall2 same_letter a sch -> Forall (fun c => ~ (65 <= c <= 90)) sch -> map lower a = sch.
Proof.
  induction 1 as [|c d a sch S _ IH]; intros F; cbn; auto. inversion F; subst. f_equal; auto.
  unfold same_letter, lower in *. destruct ((65 <=? c) && (c <=? 90)) eqn:E; lia.
Qed.

(* The schemes the program knows. *)
Definition known (sch : str) : Prop :=
  sch = lit "nbd" \/ sch = lit "nbd+unix" \/ sch = lit "https" \/ sch = lit "file".

Lemma known_chars sch : known sch ->
  Forall (fun c => ~ (65 <= c <= 90)) sch /\ Forall (fun c => 97 <= c <= 122 \/ c = 43) sch /\
  exists c t, sch = c :: t /\ 97 <= c <= 122.
Proof.
  intros [->|[->|[->| ->]]]; (split; [|split]).
  all: try (cbn; repeat (constructor; [lia|]); constructor).
  all: cbn; eexists _, _; (split; [reflexivity|lia]).
Qed.

Lemma known_scheme sch a r : known sch -> Forall2 same_letter a sch ->
  get_scheme true (a ++ 58 :: r) = SSome a r /\ map lower a = sch /\ a <> [] /\ Forall visible a.
Proof.
  intros K S. destruct (known_chars sch K) as (N & P & c & t & E & C).
  split; [|split; [|split]].
  - subst sch. inversion S as [|x ? a' ? X S']; subst. inversion P; subst.
    apply get_scheme_first; [unfold is_alpha, same_letter in *; lia|].
    clear -S' H2. induction S' as [|x d a' t X _ IH]; constructor.
    + inversion H2; subst. unfold plain_scheme, is_alpha, same_letter in *. lia.
    + apply IH. inversion H2; auto.
  - apply same_lower; auto.
  - intros ->. inversion S; subst. discriminate.
  - clear -S P. induction S as [|x d a' t X _ IH]; constructor.
    + inversion P; subst. unfold visible, same_letter in *. lia.
    + apply IH. inversion P; auto.
Qed.

(* ---- the path ---- *)

Lemma unescape_none s : ~ In 37 s -> unescape s = Some s.
Proof.
  induction s as [|c s IH]; intros N; cbn; auto.
  destruct (Z.eqb_spec c 37) as [->|X]; [exfalso; apply N; left; reflexivity|].
  rewrite IH; [reflexivity|]. intros I. apply N. right. exact I.
Qed.

Lemma digit16_val v : 0 <= v < 16 -> UuidModel.hex_val (digit16 v) = Some v.
Proof.
  intros H. assert (K : In v [0;1;2;3;4;5;6;7;8;9;10;11;12;13;14;15]) by (cbn; lia).
  cbn in K. repeat (destruct K as [<-|K]; [reflexivity|]). destruct K.
Qed.

Lemma digit16_range v : 0 <= v < 16 -> 48 <= digit16 v <= 57 \/ 65 <= digit16 v <= 70.
Proof.
  intros H. assert (K : In v [0;1;2;3;4;5;6;7;8;9;10;11;12;13;14;15]) by (cbn; lia).
  assert (F : forallb (fun v => ((48 <=? digit16 v) && (digit16 v <=? 57)) || ((65 <=? digit16 v) && (digit16 v <=? 70)))
                [0;1;2;3;4;5;6;7;8;9;10;11;12;13;14;15] = true) by reflexivity.
  rewrite forallb_forall in F. specialize (F v K). lia.
Qed.

Lemma unreserved_range c : unreserved c = true -> 45 <= c <= 126 /\ c <> 37 /\ c <> 35 /\ c <> 63.
Proof. unfold unreserved. cbn. lia. Qed.

Lemma unescape_quoted p : Forall (fun c => 0 <= c < 256) p -> unescape (quoted p) = Some p.
Proof.
  induction 1 as [|c p B _ IH]; [reflexivity|]. unfold quoted in *. cbn [flat_map].
  destruct (unreserved c) eqn:U.
  - apply unreserved_range in U. cbn [app unescape]. destruct (Z.eqb_spec c 37); [lia|]. rewrite IH. reflexivity.
  - cbn [app unescape]. replace (37 =? 37) with true by reflexivity.
    rewrite !digit16_val.
    + rewrite IH. cbn [option_map]. f_equal. f_equal. symmetry. apply Z.div_mod. lia.
    + apply Z.mod_pos_bound. lia.
    + split; [apply Z.div_pos; lia|apply Z.div_lt_upper_bound; lia].
Qed.

Lemma quoted_chars p c : Forall (fun c => 0 <= c < 256) p -> In c (quoted p) -> visible c /\ c <> 63.
Proof.
  intros F I. unfold quoted in I. apply in_flat_map in I as (x & I & J). rewrite Forall_forall in F. specialize (F x I).
  destruct (unreserved x) eqn:U.
  - destruct J as [<-|[]]. apply unreserved_range in U. unfold visible. lia.
  - assert (A := digit16_range (x / 16) ltac:(split; [apply Z.div_pos; lia|apply Z.div_lt_upper_bound; lia])).
    assert (B := digit16_range (x mod 16) ltac:(apply Z.mod_pos_bound; lia)).
    destruct J as [<-|[<-|[<-|[]]]]; unfold visible; lia.
Qed.

(* ---- parse ---- *)

Lemma visible_plain s : Forall visible s ->
  existsb (fun c => (c <? 32) || (c =? 127)) s = false /\ ~ In 35 s.
Proof.
  intros F. rewrite Forall_forall in F. split.
  - destruct (existsb _ s) eqn:E; auto. apply existsb_exists in E as (c & I & E). specialize (F c I). unfold visible in F. lia.
  - intros I. specialize (F 35 I). unfold visible in F. lia.
Qed.

Lemma parse_scheme y sch a host path query w :
  known sch -> Forall2 same_letter a sch ->
  Forall visible host -> Forall visible path -> Forall visible query ->
  ~ In 47 host -> ~ In 63 host -> (host = [] \/ authority_ok y host = true) ->
  ~ In 63 path -> unescape path = Some w -> (path = [] \/ exists p, path = 47 :: p) ->
  (query = [] \/ exists q, query = 63 :: q) ->
  parse y (a ++ lit "://" ++ host ++ path ++ query) = Some (sch, w).
Proof.
  intros K S Vh Vp Vq H1 H2 Ah P1 Un P3 Q.
  destruct (known_scheme sch a (lit "//" ++ host ++ path ++ query) K S) as (G & L & Na & Va).
  change (a ++ lit "://" ++ host ++ path ++ query) with (a ++ 58 :: lit "//" ++ host ++ path ++ query).
  assert (V : Forall visible (a ++ 58 :: lit "//" ++ host ++ path ++ query)).
  { apply Forall_app. split; auto. constructor; [unfold visible; lia|]. cbn.
    repeat (constructor; [unfold visible; lia|]). rewrite !Forall_app. auto. }
  destruct (visible_plain _ V) as [E N].
  unfold parse. cbv zeta. destruct (before_none 35 _ N) as [-> ->]. rewrite E.
  cbn [unescape].
  replace ((List.length (a ++ 58%Z :: lit "//" ++ host ++ path ++ query) =? 1)%nat && _) with false.
  2:{ symmetry. apply andb_false_intro1. apply Nat.eqb_neq. destruct a as [|c a]; [congruence|]. cbn [app List.length]. rewrite app_length. cbn [List.length]. lia. }
  rewrite G. rewrite L.
  assert (B : before 63 (lit "//" ++ host ++ path ++ query) = lit "//" ++ host ++ path).
  { rewrite !app_assoc. apply before_app; auto. intros I. rewrite !in_app_iff in I.
    destruct I as [[I|I]|I]; auto. cbn in I. lia. }
  rewrite B. change (lit "//" ++ host ++ path) with (47 :: 47 :: host ++ path). cbv iota.
  unfold rest_path.
  destruct sch as [|x sch]; [destruct (known_chars _ K) as (_ & _ & ? & ? & X & _); discriminate|].
  assert (Sp : span (fun x => negb (x =? 47)) (host ++ path) = (host, path)).
  { apply span_app.
    - intros z I. destruct (Z.eqb_spec z 47); [subst; contradiction|reflexivity].
    - intros z r ->. destruct P3 as [P3|[q P3]]; [discriminate|]. injection P3 as -> _. reflexivity. }
  unfold before. rewrite Sp. cbn [fst snd].
  replace (match host with [] => true | _ => authority_ok y host end) with true.
  2:{ destruct Ah as [-> | ->]; [reflexivity|destruct host; reflexivity]. }
  rewrite Un. reflexivity.
Qed.

Lemma before_prefix c s : exists t, s = before c s ++ t.
Proof.
  unfold before. exists (snd (span (fun x => negb (x =? c)) s)).
  induction s as [|x s IH]; cbn; auto. destruct (negb (x =? c)); cbn; auto.
  destruct (span (fun x => negb (x =? c)) s) as [a b]. cbn in *. f_equal. exact IH.
Qed.

Lemma parse_has_scheme y s sch path : parse y s = Some (sch, path) -> sch <> [] -> has_scheme sch s.
Proof.
  unfold parse. cbv zeta. destruct (before_prefix 35 s) as [t T].
  remember (before 35 s) as u eqn:EU. clear EU.
  destruct (existsb _ u); [discriminate|]. destruct (unescape (after 35 s)); [|discriminate].
  destruct ((List.length u =? 1)%nat && (hd 0 u =? 42)).
  { intros H. injection H as <- _. congruence. }
  destruct (get_scheme true u) as [| |a r] eqn:G; [discriminate| |].
  - intros H N. exfalso. apply N.
    destruct (before 63 u) as [|c rest]; cbn in H.
    + injection H as <- _. reflexivity.
    + revert H. assert (X : forall o : option str, option_map (pair []) o = Some (sch, path) -> sch = []).
      { intros [p|] H; [|discriminate]. cbn in H. injection H as <- _. reflexivity. }
      destruct (has 58 (before 47 (c :: rest))).
      * destruct c as [|p|p]; try discriminate.
        repeat (destruct p as [p|p|]; try discriminate); apply X.
      * destruct c as [|p|p]; try apply X.
        repeat (destruct p as [p|p|]; try apply X).
  - apply get_scheme_split in G. intros H N.
    assert (L : map lower a = sch).
    { revert H. remember (map lower a) as m eqn:EM. clear EM.
      assert (X : forall o : option str, option_map (pair m) o = Some (sch, path) -> m = sch).
      { intros [p|] H; [|discriminate]. cbn in H. injection H as <- _. reflexivity. }
      assert (Y : forall c : str, Some (m, c) = Some (sch, path) -> m = sch) by (intros c H; congruence).
      destruct (before 63 r) as [|c rest].
      { destruct m; [|apply Y]. destruct (has 58 (before 47 [])); [discriminate|apply X]. }
      destruct (Z.eq_dec c 47) as [->|C]; [apply X|].
      intros H.
      assert (H' : match m with _ :: _ => Some (m, []) | [] => if has 58 (before 47 (c :: rest)) then None else option_map (pair m) (rest_path y m (c :: rest)) end = Some (sch, path)).
      { destruct c as [|p|p]; try exact H. repeat (destruct p as [p|p|]; try exact H). congruence. }
      destruct m; [|revert H'; apply Y]. destruct (has 58 (before 47 (c :: rest))); [discriminate|revert H'; apply X]. }
    exists a, (r ++ t). split.
    + rewrite T, G, <- app_assoc. reflexivity.
    + rewrite <- L. apply lower_same.
Qed.

(* ---- connecting ---- *)

Lemma connectFile_events y f r l : connectFile y f = (r, l) -> forall e, In e l ->
  e = Run (info_argv f) \/ e = Create \/ e = Close \/ exists fmt, info y f = Some fmt /\ e = Activate (nbd_argv f fmt).
Proof.
  unfold connectFile. destruct (info y f) as [fmt|] eqn:I.
  - unfold ConnectFile. destruct (h_create y), (h_meta y), (h_connect y), (h_size y); cbn; intros H; injection H as <- <-; cbn;
      intros e K; repeat (destruct K as [<-|K]; [eauto 8|]); destruct K.
  - intros H. injection H as <- <-. intros e [<-|[]]. auto.
Qed.

Lemma Connect_events y u r l : Connect y u = (r, l) -> forall e, In e l -> e = Create \/ e = Close \/ e = Uri u.
Proof.
  unfold Connect. destruct (h_create y), (h_meta y), (h_connect y), (h_size y); cbn; intros H; injection H as <- <-; cbn;
    intros e K; repeat (destruct K as [<-|K]; [auto|]); destruct K.
Qed.

Lemma connectURL_cases y s r l : connectURL y s = (r, l) ->
  (r = Failed /\ l = []) \/
  (Connect y s = (r, l) /\ (has_scheme (lit "nbd") s \/ has_scheme (lit "nbd+unix") s)) \/
  (r = Opened /\ l = [Https s] /\ has_scheme (lit "https") s) \/
  (exists p, connectFile y p = (r, l) /\ has_scheme (lit "file") s).
Proof.
  unfold connectURL. destruct (parse y s) as [[sch path]|] eqn:P; [|intros H; injection H as <- <-; auto].
  assert (H := parse_has_scheme y s sch path P).
  destruct (str_eqb sch (lit "nbd")) eqn:A.
  { apply str_eqb_iff in A. subst. cbn [orb]. intros C. right. left. split; auto. left. apply H. discriminate. }
  destruct (str_eqb sch (lit "nbd+unix")) eqn:B.
  { apply str_eqb_iff in B. subst. cbn [orb]. intros C. right. left. split; auto. right. apply H. discriminate. }
  cbn [orb]. destruct (str_eqb sch (lit "https")) eqn:D.
  { apply str_eqb_iff in D. subst. intros C. injection C as <- <-. right. right. left. split; auto. split; auto. apply H. discriminate. }
  destruct (str_eqb sch (lit "file")) eqn:E.
  { apply str_eqb_iff in E. subst. intros C. right. right. right. exists path. split; auto. apply H. discriminate. }
  intros C. injection C as <- <-. auto.
Qed.
