From Coq Require Import ZArith List Bool Ascii String Lia.
From Verif Require Import HeaderModel HeaderSpec.
Import ListNotations.
Open Scope Z_scope.

Lemma skip_prefix_spec p s r : skip_prefix p s = Some r <-> s = p ++ r.
Proof.
  revert s; induction p as [|c p IH]; intros s; cbn [skip_prefix app].
  - split; [intros [= ->]; reflexivity | intros ->; reflexivity].
  - destruct s as [|d s]; [split; discriminate|].
    destruct (Ascii.eqb_spec c d) as [->|N].
    + rewrite IH. split; [intros ->; reflexivity | intros [= ->]; reflexivity].
    + split; [discriminate | intros [= -> _]; tauto].
Qed.

Definition digits (s : str) : Prop := Forall (fun c => is_digit c = true) s.
Definition stops (s : str) : Prop :=
  match s with [] => True | c :: _ => is_digit c = false end.

Lemma span_digits_spec s a b :
  span_digits s = (a, b) -> s = a ++ b /\ digits a /\ stops b.
Proof.
  revert a b; induction s as [|c s IH]; intros a b; cbn [span_digits].
  - intros [= <- <-]. repeat split; constructor.
  - destruct (is_digit c) eqn:D.
    + destruct (span_digits s) as [a' b'] eqn:E. intros [= <- <-].
      destruct (IH _ _ eq_refl) as (-> & H1 & H2).
      repeat split; auto. constructor; auto.
    + intros [= <- <-]. repeat split; [constructor|exact D].
Qed.

Lemma span_digits_app a b : digits a -> stops b -> span_digits (a ++ b) = (a, b).
Proof.
  induction 1 as [|c a D H IH]; intros S; cbn [app].
  - destruct b as [|c b]; auto. cbn [span_digits]. cbn in S. rewrite S. reflexivity.
  - cbn [span_digits]. rewrite D, IH; auto.
Qed.

Lemma digit_is_digit c v : digit c v <-> is_digit c = true /\ digit_val c = v.
Proof.
  split.
  - intros [H E].
    assert (L : (Z.to_nat v < 10)%nat).
    { apply (proj1 (nth_error_Some (lit "0123456789") (Z.to_nat v))).
      rewrite E. discriminate. }
    assert (C : v = 0 \/ v = 1 \/ v = 2 \/ v = 3 \/ v = 4 \/ v = 5 \/ v = 6
                \/ v = 7 \/ v = 8 \/ v = 9) by lia.
    decompose [or] C; subst v; cbn in E; injection E as <-; split; reflexivity.
  - intros [D <-]. unfold is_digit in D. apply andb_prop in D as [D1 D2].
    apply N.leb_le in D1, D2.
    unfold digit, digit_val. split; [lia|].
    rewrite <- (ascii_N_embedding c) at 2.
    generalize dependent (N_of_ascii c); intros n D1 D2.
    assert (C : (n = 48 \/ n = 49 \/ n = 50 \/ n = 51 \/ n = 52 \/ n = 53
                 \/ n = 54 \/ n = 55 \/ n = 56 \/ n = 57)%N) by lia.
    decompose [or] C; subst n; reflexivity.
Qed.

Definition value (s : str) : Z := fold_left (fun acc c => 10 * acc + digit_val c) s 0.

Lemma decimal_spec s n : decimal s n <-> s <> [] /\ digits s /\ value s = n.
Proof.
  split.
  - induction 1 as [c v H | s n c v H [N [D V]] H'].
    + apply digit_is_digit in H as [H1 H2].
      repeat split; [discriminate | repeat constructor; auto | unfold value; cbn [fold_left]; lia].
    + apply digit_is_digit in H' as [H1 H2]. repeat split.
      * destruct s; discriminate.
      * apply Forall_app; split; auto.
      * unfold value in *. rewrite fold_left_app. cbn [fold_left]. lia.
  - intros (N & D & <-). revert N D. induction s as [|c s IH] using rev_ind; [tauto|].
    intros _ D. apply Forall_app in D as [D1 D2]. inversion_clear D2.
    unfold value. rewrite fold_left_app. cbn [fold_left].
    destruct s as [|d s].
    + apply dec_one. apply digit_is_digit. auto.
    + apply dec_more.
      * apply IH; [discriminate|auto].
      * apply digit_is_digit; auto.
Qed.

Lemma decimal_digits s n : decimal s n -> digits s.
Proof. intros H; apply decimal_spec in H; tauto. Qed.

Lemma value_nonneg s : digits s -> 0 <= value s.
Proof.
  induction s as [|c s IH] using rev_ind; intros D; [cbn; lia|].
  apply Forall_app in D as [D1 D2]. inversion_clear D2.
  unfold value in *. rewrite fold_left_app. cbn [fold_left].
  specialize (IH D1). assert (0 <= digit_val c); [|lia].
  unfold is_digit in H. unfold digit_val.
  apply andb_prop in H as [H _]. apply N.leb_le in H. lia.
Qed.

Lemma decimal_nonneg s n : decimal s n -> 0 <= n.
Proof. intros H; apply decimal_spec in H as (_ & D & <-). apply value_nonneg; auto. Qed.

Lemma at_end_spec s : at_end s = true <-> s = [] \/ s = [newline].
Proof.
  destruct s as [|c [|d s]]; cbn [at_end].
  - tauto.
  - destruct (Ascii.eqb_spec c newline) as [->|N].
    + tauto.
    + split; [discriminate|]. intros [H|H]; [discriminate|]. injection H as H. tauto.
  - split; [discriminate|]. intros [H|H]; discriminate.
Qed.

Lemma stops_end s : s = [] \/ s = [newline] -> stops s.
Proof. intros [->| ->]; cbn; auto. Qed.

Lemma range_rx_spec h a b :
  range_rx h = Some (a, b) <->
  digits a /\ digits b /\
  exists e, (e = [] \/ e = [newline]) /\ h = lit "bytes=" ++ a ++ lit "-" ++ b ++ e.
Proof.
  unfold range_rx. split.
  - destruct (skip_prefix _ h) as [s|] eqn:E; [|discriminate].
    apply skip_prefix_spec in E.
    destruct (span_digits s) as [a' s1] eqn:E1.
    apply span_digits_spec in E1 as (-> & D1 & _).
    unfold chr. destruct (skip_prefix _ s1) as [s2|] eqn:E2; [|discriminate].
    apply skip_prefix_spec in E2.
    destruct (span_digits s2) as [b' s3] eqn:E3.
    apply span_digits_spec in E3 as (-> & D3 & _).
    destruct (at_end s3) eqn:E4; [|discriminate].
    apply at_end_spec in E4. intros [= <- <-].
    repeat split; auto. exists s3. split; auto. subst h s1. reflexivity.
  - intros (D1 & D2 & e & He & ->).
    rewrite (proj2 (skip_prefix_spec _ _ _) eq_refl).
    rewrite span_digits_app; [|auto|reflexivity].
    unfold chr. change (skip_prefix ["-"%char] (lit "-" ++ b ++ e)) with (Some (b ++ e)).
    cbn iota beta.
    rewrite span_digits_app; [|auto|apply stops_end; auto].
    rewrite (proj2 (at_end_spec e)); auto.
Qed.

Lemma int_of_digits_none s : int_of_digits None s = inl (value s).
Proof. reflexivity. Qed.

Lemma range_parse_spec h r :
  range_parse None h = inl r <->
  exists h' f, (h = h' \/ h = h' ++ [newline]) /\ range_form h' f /\ r = range_of f.
Proof.
  unfold range_parse. split.
  - destruct (range_rx h) as [[a b]|] eqn:E; [|discriminate].
    apply range_rx_spec in E as (Da & Db & e & He & ->).
    rewrite !int_of_digits_none; cbn [bind].
    intros H.
    exists (lit "bytes=" ++ a ++ lit "-" ++ b).
    assert (X : lit "bytes=" ++ a ++ lit "-" ++ b ++ e = lit "bytes=" ++ a ++ lit "-" ++ b
                \/ lit "bytes=" ++ a ++ lit "-" ++ b ++ e
                   = (lit "bytes=" ++ a ++ lit "-" ++ b) ++ [newline]).
    { destruct He as [->| ->]; [left|right].
      - rewrite app_nil_r; reflexivity.
      - rewrite <- !app_assoc; reflexivity. }
    destruct a as [|c a].
    + destruct b as [|d b]; [discriminate|]. injection H as <-.
      exists (Suffix (value (d :: b))). split; [exact X|]. split; [|reflexivity].
      apply (form_suffix (d :: b)). apply decimal_spec; repeat split; auto; discriminate.
    + destruct b as [|d b].
      * injection H as <-. exists (From (value (c :: a))).
        split; [exact X|]. split; [|reflexivity].
        rewrite app_nil_r.
        apply form_from. apply decimal_spec; repeat split; auto; discriminate.
      * destruct (value (d :: b) <? value (c :: a)) eqn:L; [discriminate|].
        apply Z.ltb_ge in L. injection H as <-.
        exists (FromTo (value (c :: a)) (value (d :: b))).
        split; [exact X|]. split; [|reflexivity].
        apply form_from_to; auto; apply decimal_spec; repeat split; auto; discriminate.
  - intros (h' & f & Hh & F & ->).
    assert (Hh' : exists e, (e = [] \/ e = [newline]) /\ h = h' ++ e).
    { destruct Hh as [->| ->]; [exists []|exists [newline]]; rewrite ?app_nil_r; auto. }
    clear Hh. destruct Hh' as (e & He & ->).
    destruct F as [a n Ha | a b n m Ha Hb L | b n Hb].
    + assert (E : range_rx ((lit "bytes=" ++ a ++ lit "-") ++ e) = Some (a, [])).
      { apply range_rx_spec. split; [eapply decimal_digits; eauto|].
        split; [constructor|]. exists e. split; auto.
        rewrite <- !app_assoc. reflexivity. }
      rewrite E. apply decimal_spec in Ha as (N & _ & V).
      destruct a; [tauto|]. rewrite int_of_digits_none. cbn [bind range_of].
      rewrite V. reflexivity.
    + assert (E : range_rx ((lit "bytes=" ++ a ++ lit "-" ++ b) ++ e) = Some (a, b)).
      { apply range_rx_spec. split; [eapply decimal_digits; eauto|].
        split; [eapply decimal_digits; eauto|]. exists e. split; auto.
        rewrite <- !app_assoc. reflexivity. }
      rewrite E. apply decimal_spec in Ha as (N & _ & V).
      apply decimal_spec in Hb as (N' & _ & V').
      destruct a; [tauto|]. destruct b; [tauto|].
      rewrite !int_of_digits_none. cbn [bind range_of]. rewrite V, V'.
      rewrite (proj2 (Z.ltb_ge m n)); auto.
    + assert (E : range_rx ((lit "bytes=-" ++ b) ++ e) = Some ([], b)).
      { apply range_rx_spec. split; [constructor|].
        split; [eapply decimal_digits; eauto|]. exists e. split; auto. }
      rewrite E. apply decimal_spec in Hb as (N & _ & V).
      destruct b; [tauto|]. rewrite int_of_digits_none. cbn [bind range_of].
      rewrite V. reflexivity.
Qed.

Lemma range_parse_error h e :
  range_parse None h = inr e -> e = HttpError 416.
Proof.
  unfold range_parse. destruct (range_rx h) as [[a b]|].
  - destruct a, b; rewrite ?int_of_digits_none; cbn [bind];
      try (intros [= <-]; reflexivity); try discriminate.
    destruct (_ <? _); [intros [= <-]; reflexivity|discriminate].
  - intros [= <-]; reflexivity.
Qed.

(* The limit on the number of digits only matters for numbers longer than it. *)
Lemma int_of_digits_lim m s :
  Z.of_nat (List.length s) <= m -> int_of_digits (Some m) s = int_of_digits None s.
Proof.
  intros H. unfold int_of_digits. rewrite (proj2 (Z.ltb_ge m _)); auto.
Qed.

Lemma range_rx_len h a b :
  range_rx h = Some (a, b) ->
  (List.length a + List.length b + 7 <= List.length h)%nat.
Proof.
  intros H. apply range_rx_spec in H as (_ & _ & e & _ & ->).
  rewrite !app_length. cbn. lia.
Qed.

Lemma range_parse_lim m h :
  Z.of_nat (List.length h) <= m -> range_parse (Some m) h = range_parse None h.
Proof.
  intros H. unfold range_parse. destruct (range_rx h) as [[a b]|] eqn:E; auto.
  apply range_rx_len in E. rewrite !int_of_digits_lim by lia. reflexivity.
Qed.

(* --- Content-Range --- *)

Definition star_digits (o : option str) : str :=
  match o with Some s => s | None => lit "*" end.
Definition ok_group (o : option str) : Prop :=
  match o with Some s => s <> [] /\ digits s | None => True end.

Lemma digits1_spec s a r :
  digits1 s = Some (a, r) -> s = a ++ r /\ a <> [] /\ digits a.
Proof.
  unfold digits1. destruct (span_digits s) as [a' r'] eqn:E.
  apply span_digits_spec in E as (-> & D & _).
  destruct a'; [discriminate|]. intros [= <- <-]. repeat split; auto. discriminate.
Qed.

Lemma digits1_app a r : a <> [] -> digits a -> stops r -> digits1 (a ++ r) = Some (a, r).
Proof.
  intros N D S. unfold digits1. rewrite span_digits_app; auto. destruct a; tauto.
Qed.

Lemma digits_or_star_spec s o r :
  digits_or_star s = Some (o, r) -> s = star_digits o ++ r /\ ok_group o.
Proof.
  unfold digits_or_star. destruct (digits1 s) as [[a r']|] eqn:E.
  - intros [= <- <-]. apply digits1_spec in E as (-> & N & D). cbn. auto.
  - unfold chr. destruct (skip_prefix _ s) eqn:E'; [|discriminate].
    intros [= <- <-]. apply skip_prefix_spec in E'. cbn. auto.
Qed.

Lemma digits_or_star_app o r :
  ok_group o -> stops r -> digits_or_star (star_digits o ++ r) = Some (o, r).
Proof.
  unfold digits_or_star. destruct o as [a|]; cbn [ok_group star_digits].
  - intros [N D] S. rewrite digits1_app; auto.
  - intros _ _. reflexivity.
Qed.

Lemma content_range_rx_spec h a b c :
  content_range_rx h = Some (a, b, c) <->
  a <> [] /\ digits a /\ ok_group b /\ ok_group c /\
  exists e, (e = [] \/ e = [newline]) /\
    h = lit "bytes " ++ a ++ lit "-" ++ star_digits b ++ lit "/" ++ star_digits c ++ e.
Proof.
  unfold content_range_rx. split.
  - destruct (skip_prefix _ h) as [s|] eqn:E; [|discriminate].
    apply skip_prefix_spec in E.
    destruct (digits1 s) as [[a' s1]|] eqn:E1; [|discriminate].
    apply digits1_spec in E1 as (-> & N1 & D1). unfold chr.
    destruct (skip_prefix _ s1) as [s2|] eqn:E2; [|discriminate].
    apply skip_prefix_spec in E2.
    destruct (digits_or_star s2) as [[b' s3]|] eqn:E3; [|discriminate].
    apply digits_or_star_spec in E3 as (-> & O3).
    destruct (skip_prefix _ s3) as [s4|] eqn:E4; [|discriminate].
    apply skip_prefix_spec in E4.
    destruct (digits_or_star s4) as [[c' s5]|] eqn:E5; [|discriminate].
    apply digits_or_star_spec in E5 as (-> & O5).
    destruct (at_end s5) eqn:E6; [|discriminate]. apply at_end_spec in E6.
    intros [= <- <- <-]. repeat split; auto. exists s5. split; auto.
    subst h s1 s3. reflexivity.
  - intros (N & D & Ob & Oc & e & He & ->).
    rewrite (proj2 (skip_prefix_spec _ _ _) eq_refl).
    rewrite digits1_app; [|auto|auto|reflexivity]. unfold chr.
    change (skip_prefix ["-"%char] (lit "-" ++ star_digits b ++ lit "/" ++ star_digits c ++ e))
      with (Some (star_digits b ++ lit "/" ++ star_digits c ++ e)).
    cbn iota beta.
    rewrite digits_or_star_app; [|auto|reflexivity].
    change (skip_prefix ["/"%char] (lit "/" ++ star_digits c ++ e))
      with (Some (star_digits c ++ e)).
    cbn iota beta.
    rewrite digits_or_star_app; [|auto|apply stops_end; auto].
    rewrite (proj2 (at_end_spec e)); auto.
Qed.

Definition group_value (o : option str) : option Z := option_map value o.

Lemma number_or_star_spec s v :
  number_or_star s v <->
  exists o, ok_group o /\ s = star_digits o /\ v = group_value o.
Proof.
  split.
  - intros [s' n H|].
    + exists (Some s'). apply decimal_spec in H as (N & D & <-). cbn. auto.
    + exists None. cbn. auto.
  - intros ([s'|] & O & -> & ->); cbn in *.
    + constructor. apply decimal_spec. tauto.
    + apply is_star.
Qed.

Lemma content_range_parse_spec h f l c :
  content_range_parse None h = inl (ContentRange f l c) <->
  exists h', (h = h' \/ h = h' ++ [newline]) /\ content_range_form h' f l c.
Proof.
  unfold content_range_parse. split.
  - destruct (content_range_rx h) as [[[a b] d]|] eqn:E; [|discriminate].
    apply content_range_rx_spec in E as (N & D & Ob & Od & e & He & ->).
    rewrite int_of_digits_none. cbn [bind]. intros H.
    exists (lit "bytes " ++ a ++ lit "-" ++ star_digits b ++ lit "/" ++ star_digits d).
    split.
    { destruct He as [->| ->]; [left|right].
      - rewrite app_nil_r; reflexivity.
      - rewrite <- !app_assoc; reflexivity. }
    assert (X : f = value a /\ l = group_value b /\ c = group_value d
                /\ (forall x, l = Some x -> f <= x)
                /\ (forall x y, l = Some x -> c = Some y -> x < y)).
    { destruct b as [b|]; rewrite ?int_of_digits_none in H; cbn [bind group_value option_map] in *.
      - destruct (value b <? value a) eqn:L; [discriminate|]. apply Z.ltb_ge in L.
        cbn [bind] in H.
        destruct d as [d|]; rewrite ?int_of_digits_none in H; cbn [bind option_map] in *.
        + destruct (value d <=? value b) eqn:L'; [discriminate|]. apply Z.leb_gt in L'.
          injection H as <- <- <-. repeat split; auto.
          * intros x [= <-]; auto.
          * intros x y [= <-] [= <-]; auto.
        + injection H as <- <- <-. repeat split; auto.
          * intros x [= <-]; auto.
          * intros x y _; discriminate.
      - destruct d as [d|]; rewrite ?int_of_digits_none in H; cbn [bind option_map] in *;
          injection H as <- <- <-; repeat split; auto; intros; discriminate. }
    destruct X as (-> & -> & -> & X1 & X2). constructor; auto.
    + apply decimal_spec; auto.
    + apply number_or_star_spec. exists b; auto.
    + apply number_or_star_spec. exists d; auto.
  - intros (h' & Hh & F).
    assert (Hh' : exists e, (e = [] \/ e = [newline]) /\ h = h' ++ e).
    { destruct Hh as [->| ->]; [exists []|exists [newline]]; rewrite ?app_nil_r; auto. }
    clear Hh. destruct Hh' as (e & He & ->).
    destruct F as [a b c' f l c Ha Hb Hc X1 X2].
    apply decimal_spec in Ha as (N & D & <-).
    apply number_or_star_spec in Hb as (ob & Ob & -> & ->).
    apply number_or_star_spec in Hc as (oc & Oc & -> & ->).
    match goal with |- context [content_range_rx ?x] =>
      assert (E : content_range_rx x = Some (a, ob, oc)) end.
    { apply content_range_rx_spec. repeat split; auto. exists e. split; auto.
      rewrite <- !app_assoc. reflexivity. }
    rewrite E, int_of_digits_none. cbn [bind].
    destruct ob as [b|]; cbn [group_value option_map] in *.
    + rewrite int_of_digits_none. cbn [bind].
      rewrite (proj2 (Z.ltb_ge (value b) (value a))) by auto. cbn [bind].
      destruct oc as [d|]; cbn [group_value option_map] in *; auto.
      rewrite int_of_digits_none. cbn [bind].
      rewrite (proj2 (Z.leb_gt (value d) (value b))) by auto. reflexivity.
    + cbn [bind]. destruct oc as [d|]; reflexivity.
Qed.

Lemma content_range_parse_error h e :
  content_range_parse None h = inr e -> e = HttpError 400.
Proof.
  unfold content_range_parse. destruct (content_range_rx h) as [[[a b] c]|].
  - rewrite int_of_digits_none; cbn [bind].
    destruct b as [b|]; rewrite ?int_of_digits_none; cbn [bind].
    + destruct (_ <? _); cbn [bind]; [intros [= <-]; reflexivity|].
      destruct c as [c|]; rewrite ?int_of_digits_none; cbn [bind]; [|discriminate].
      destruct (_ <=? _); cbn [bind]; [intros [= <-]; reflexivity|discriminate].
    + destruct c as [c|]; rewrite ?int_of_digits_none; cbn [bind]; discriminate.
  - intros [= <-]; reflexivity.
Qed.

Lemma content_range_parse_lim m h :
  Z.of_nat (List.length h) <= m ->
  content_range_parse (Some m) h = content_range_parse None h.
Proof.
  intros H. unfold content_range_parse.
  destruct (content_range_rx h) as [[[a b] c]|] eqn:E; auto.
  apply content_range_rx_spec in E as (_ & _ & _ & _ & e & _ & ->).
  rewrite !app_length in H.
  rewrite int_of_digits_lim by lia.
  destruct b as [b|]; cbn [star_digits] in H; [rewrite int_of_digits_lim by lia|];
    (destruct c as [c|]; cbn [star_digits] in H; [rewrite int_of_digits_lim by lia|]);
    reflexivity.
Qed.

(* --- Content-Length --- *)

Lemma content_length_error lim v e :
  content_length lim v = inr e -> e = HttpError 400.
Proof.
  unfold content_length. destruct v as [v|]; [|discriminate].
  destruct (py_int lim v) as [n|x]; [|intros [= <-]; reflexivity].
  destruct (n <? 0); [intros [= <-]; reflexivity|discriminate].
Qed.

Lemma content_length_nonneg lim v n :
  content_length lim v = inl (Some n) -> 0 <= n.
Proof.
  unfold content_length. destruct v as [v|]; [|discriminate].
  destruct (py_int lim v) as [k|x]; [|discriminate].
  destruct (k <? 0) eqn:E; [discriminate|]. apply Z.ltb_ge in E.
  intros [= <-]; auto.
Qed.

Lemma int_digits_all s : s <> [] -> digits s -> int_digits s = Some s.
Proof.
  intros N D. revert N. induction D as [|c s Dc D IH]; intros N; [tauto|].
  cbn [int_digits]. rewrite Dc. destruct s as [|d s]; [reflexivity|].
  destruct (Ascii.eqb_spec d "_"%char) as [->|_].
  - inversion D; discriminate.
  - rewrite IH by discriminate. reflexivity.
Qed.

Lemma digit_not_space c : is_digit c = true -> is_space c = false.
Proof.
  unfold is_digit, is_space. intros H. apply andb_prop in H as [H1 H2].
  apply N.leb_le in H1, H2.
  rewrite (proj2 (N.leb_gt _ 13)), (proj2 (N.eqb_neq _ 32)) by lia.
  rewrite (proj2 (N.eqb_neq _ 133)), (proj2 (N.eqb_neq _ 160)) by lia.
  rewrite !andb_false_r. reflexivity.
Qed.

Lemma lstrip_digits s : digits s -> lstrip s = s.
Proof.
  destruct 1 as [|c s D _]; cbn; auto. rewrite digit_not_space; auto.
Qed.

Lemma strip_digits s : digits s -> strip s = s.
Proof.
  intros D. unfold strip. rewrite (lstrip_digits s); auto.
  rewrite (lstrip_digits (rev s)); [apply rev_involutive|].
  apply Forall_rev; auto.
Qed.

Lemma content_length_decimal lim s n :
  decimal s n -> (forall m, lim = Some m -> Z.of_nat (List.length s) <= m) ->
  content_length lim (Some s) = inl (Some n).
Proof.
  intros H L. apply decimal_spec in H as (N & D & V).
  unfold content_length, py_int. rewrite strip_digits by auto.
  assert (X : match s with
              | [] => (1, [])
              | c :: r => if Ascii.eqb c "-" then (-1, r)
                          else if Ascii.eqb c "+" then (1, r) else (1, s)
              end = (1, s)).
  { destruct s as [|c s]; auto. inversion D; subst.
    destruct (Ascii.eqb_spec c "-"%char) as [->|_]; [discriminate|].
    destruct (Ascii.eqb_spec c "+"%char) as [->|_]; [discriminate|]. reflexivity. }
  rewrite X, int_digits_all by auto.
  assert (Y : int_of_digits lim s = inl n).
  { destruct lim as [m|]; [rewrite int_of_digits_lim by auto|];
      rewrite int_of_digits_none, V; reflexivity. }
  rewrite Y. cbn [bind]. rewrite Z.mul_1_l.
  rewrite (proj2 (Z.ltb_ge n 0)); auto. rewrite <- V. apply value_nonneg; auto.
Qed.
