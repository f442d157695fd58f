(* Lemmas about disk ids. *)
From Coq Require Import ZArith List Bool String Lia.
From Verif Require Import UrlModel UuidModel UuidSpec.
Import ListNotations.
Open Scope Z_scope.

(* ---- removing ---- *)

Lemma skip_split p : forall s r, skip p s = Some r -> s = p ++ r.
Proof.
  induction p as [|c p IH]; intros s r H; cbn in H; [injection H as ->; reflexivity|].
  destruct s as [|d s]; [discriminate|]. destruct (Z.eqb_spec c d) as [->|N]; [|discriminate].
  cbn. f_equal. auto.
Qed.

Lemma skip_app p r : skip p (p ++ r) = Some r.
Proof. induction p as [|c p IH]; cbn; auto. rewrite Z.eqb_refl. auto. Qed.

Lemma drop_app p a : forall s, remove_from p (List.length a) (a ++ s) = remove_from p 0 s.
Proof. induction a as [|c a IH]; intros s; cbn [List.length app remove_from]; auto. Qed.

Lemma remove_app c p s : remove (c :: p) ((c :: p) ++ s) = remove (c :: p) s.
Proof.
  unfold remove. cbn [app remove_from]. change (c :: p ++ s) with ((c :: p) ++ s). rewrite skip_app.
  cbn [List.length]. replace (S (List.length p) - 1)%nat with (List.length p) by lia. apply drop_app.
Qed.

Lemma remove_none p x s : In x p -> ~ In x s -> remove p s = s.
Proof.
  unfold remove. intros P. induction s as [|c s IH]; intros N; cbn [remove_from]; auto.
  destruct (skip p (c :: s)) as [r|] eqn:E.
  - apply skip_split in E. exfalso. apply N. rewrite E. apply in_or_app. auto.
  - f_equal. apply IH. intros H. apply N. right. exact H.
Qed.

Lemma remove_keeps c0 p : forall n s, (List.length s <= n)%nat ->
  forall c, In c s -> In c (c0 :: p) \/ In c (remove (c0 :: p) s).
Proof.
  induction n as [|n IH]; intros s L c I.
  - destruct s; [destruct I|cbn in L; lia].
  - destruct s as [|d s]; [destruct I|].
    destruct (skip (c0 :: p) (d :: s)) as [r|] eqn:E.
    + apply skip_split in E. rewrite E in I. apply in_app_or in I as [I|I]; [auto|].
      rewrite E, remove_app. apply IH; auto.
      apply (f_equal (@List.length Z)) in E. rewrite app_length in E. cbn in E, L. lia.
    + unfold remove. cbn [remove_from]. rewrite E. destruct I as [<-|I]; [right; left; reflexivity|].
      destruct (IH s ltac:(cbn in L; lia) c I) as [H|H]; auto. right. right. exact H.
Qed.

Lemma skip_while_id f s : (forall c, In c s -> f c = false) -> skip_while f s = s.
Proof. destruct s as [|c s]; intros H; cbn; auto. rewrite H; auto. left; auto. Qed.

Lemma strip_id f s : (forall c, In c s -> f c = false) -> rev (skip_while f (rev (skip_while f s))) = s.
Proof.
  intros H. rewrite (skip_while_id f s H), skip_while_id, rev_involutive; auto.
  intros c I. apply H, in_rev. exact I.
Qed.

Lemma skip_while_in f s c : In c s -> f c = true \/ In c (skip_while f s).
Proof.
  induction s as [|d s IH]; intros I; [destruct I|]. cbn. destruct (f d) eqn:F.
  - destruct I as [<-|I]; auto.
  - auto.
Qed.

Lemma strip_in f s c : In c s -> f c = true \/ In c (rev (skip_while f (rev (skip_while f s)))).
Proof.
  intros I. apply (skip_while_in f) in I as [I|I]; auto. apply in_rev in I.
  apply (skip_while_in f) in I as [I|I]; auto. right. apply -> in_rev. exact I.
Qed.

(* ---- digits ---- *)

Lemma hex_val_is c v : hex_val c = Some v <-> digit_is c v.
Proof.
  unfold hex_val, digit_is.
  destruct ((48 <=? c) && (c <=? 57)) eqn:A.
  { split; [intros H; injection H as <-|intros H; f_equal]; lia. }
  destruct ((97 <=? c) && (c <=? 102)) eqn:B.
  { split; [intros H; injection H as <-|intros H; f_equal]; lia. }
  destruct ((65 <=? c) && (c <=? 70)) eqn:C.
  { split; [intros H; injection H as <-|intros H; f_equal]; lia. }
  split; [discriminate|lia].
Qed.

Definition hv (c : Z) : Z := match hex_val c with Some v => v | None => 0 end.
Definition value (a : Z) (d : str) : Z := fold_left (fun a c => 16 * a + hv c) d a.
Definition low (c : Z) : Z := hex_char (hv c).

Lemma hex_hv c : hex c -> hex_val c = Some (hv c) /\ 0 <= hv c < 16.
Proof.
  intros [v H]. assert (E := proj2 (hex_val_is c v) H). unfold hv. rewrite E. split; auto.
  unfold digit_is in H. lia.
Qed.

Lemma low_lower c : hex c -> lower_hex (low c) /\ digit_is c (hv c) /\ digit_is (low c) (hv c).
Proof.
  intros H. destruct (hex_hv c H) as [E B]. apply hex_val_is in E.
  unfold low, hex_char, lower_hex. destruct (Z.ltb_spec (hv c) 10).
  - split; [lia|]. split; auto. left. lia.
  - split; [lia|]. split; auto. right. left. lia.
Qed.

Lemma low_id c : lower_hex c -> low c = c.
Proof.
  intros H. assert (X : hex c).
  { destruct H; [exists (c - 48); left; lia|exists (c - 87); right; left; lia]. }
  destruct (low_lower c X) as (L & D & _).
  unfold low, hex_char. unfold digit_is, lower_hex in *. destruct (Z.ltb_spec (hv c) 10); lia.
Qed.

Lemma digit_unique a c v v' : digit_is a v -> digit_is a v' -> lower_hex c -> digit_is c v -> digit_is c v' /\ v = v'.
Proof. unfold digit_is, lower_hex. lia. Qed.

Lemma same_low d : Forall hex d -> same_digits d (map low d).
Proof.
  induction 1 as [|c d H _ IH]; constructor; auto.
  destruct (low_lower c H) as (L & A & B). split; auto. exists (hv c). auto.
Qed.

Lemma same_is_low d e : same_digits d e -> e = map low d.
Proof.
  induction 1 as [|c x d e [L (v & A & B)] _ IH]; cbn; auto. f_equal; auto.
  assert (H : hex c) by (exists v; auto). destruct (low_lower c H) as (L' & A' & B').
  unfold digit_is, lower_hex in *. lia.
Qed.

Lemma value_bound d : Forall hex d -> 0 <= value 0 d < 16 ^ Z.of_nat (List.length d).
Proof.
  induction d as [|c d IH] using rev_ind; intros H.
  - cbn. lia.
  - apply Forall_app in H as [H C]. inversion C as [|? ? C1 _]; subst. destruct (hex_hv c C1) as [_ B].
    specialize (IH H). unfold value in *. rewrite fold_left_app, app_length. cbn [fold_left List.length].
    rewrite Nat2Z.inj_add, Z.pow_add_r by lia. change (16 ^ Z.of_nat 1) with 16. nia.
Qed.

Lemma hex_text_value d : Forall hex d -> hex_text (List.length d) (value 0 d) = map low d.
Proof.
  induction d as [|c d IH] using rev_ind; intros H; [reflexivity|].
  apply Forall_app in H as [H C]. inversion C as [|? ? C1 _]; subst. destruct (hex_hv c C1) as [_ B].
  rewrite app_length. cbn [List.length]. rewrite Nat.add_1_r. cbn [hex_text].
  unfold value. rewrite fold_left_app. cbn [fold_left]. fold (value 0 d).
  replace ((16 * value 0 d + hv c) / 16) with (value 0 d).
  2:{ apply (Z.div_unique _ _ _ (hv c)); lia. }
  replace ((16 * value 0 d + hv c) mod 16) with (hv c).
  2:{ apply (Z.mod_unique _ _ (value 0 d)); lia. }
  rewrite IH; auto. rewrite map_app. reflexivity.
Qed.

Lemma hex_digits_value d : Forall hex d -> forall b a, (d <> [] \/ b = true) ->
  hex_digits b a d = Some (value a d).
Proof.
  induction 1 as [|c d H _ IH]; intros b a N; cbn.
  - destruct N as [N| ->]; [congruence|reflexivity].
  - destruct (hex_hv c H) as [E _]. rewrite E. rewrite IH by auto. unfold value. cbn. unfold hv. rewrite E. reflexivity.
Qed.

Lemma hex_range c : hex c -> 48 <= c <= 57 \/ 97 <= c <= 102 \/ 65 <= c <= 70.
Proof. intros [v H]. unfold digit_is in H. lia. Qed.

Lemma int16_hex w d : d <> [] -> Forall hex d -> int16 w d = Some (value 0 d).
Proof.
  intros N H. assert (R : forall c, In c d -> 48 <= c <= 57 \/ 97 <= c <= 102 \/ 65 <= c <= 70).
  { rewrite Forall_forall in H. intros c I. apply hex_range. auto. }
  unfold int16. cbv zeta.
  assert (M : map (to_ascii w) d = d).
  { rewrite <- (map_id d) at 2. apply map_ext_in. intros c I. specialize (R c I). unfold to_ascii.
    destruct (Z.ltb_spec c 128); [reflexivity|lia]. }
  rewrite M, strip_id.
  2:{ intros c I. specialize (R c I). unfold white. lia. }
  assert (X : skip_0x d = d).
  { destruct d as [|a [|b d]]; [reflexivity| |].
    - unfold skip_0x. destruct a as [|p|p]; auto.
      repeat (destruct p as [p|p|]; try reflexivity).
    - assert (Rb := R b ltac:(right; left; reflexivity)). unfold skip_0x.
      replace ((b =? 120) || (b =? 88)) with false by lia.
      destruct a as [|p|p]; auto. repeat (destruct p as [p|p|]; try reflexivity). }
  assert (Y : hex_digits false 0 d = Some (value 0 d)) by (apply hex_digits_value; auto).
  destruct d as [|a d]; [congruence|].
  assert (Ra := R a ltac:(left; reflexivity)).
  assert (A : a <> 45 /\ a <> 43) by lia. destruct A as [A1 A2].
  rewrite X, Y.
  destruct a as [|p|p]; auto. repeat (destruct p as [p|p|]; try reflexivity; try lia).
Qed.

(* ---- hyphens ---- *)

Lemma hyphens_hex d s : with_hyphens d s -> Forall hex d.
Proof. induction 1; auto. Qed.

Lemma hyphens_chars d s : with_hyphens d s -> forall c, In c s -> c = 45 \/ hex c.
Proof.
  induction 1 as [|d s _ IH|c d s H _ IH]; intros x I; [destruct I| |].
  - destruct I as [<-|I]; auto.
  - destruct I as [<-|I]; auto.
Qed.

Lemma hyphens_removed d s : with_hyphens d s -> remove [45] s = d.
Proof.
  unfold remove. induction 1 as [|d s _ IH|c d s H _ IH]; auto.
  assert (c <> 45). { apply hex_range in H. lia. }
  cbn [remove_from skip]. destruct (Z.eqb_spec 45 c); [lia|]. f_equal. exact IH.
Qed.

Lemma hyphens_app d s e t : with_hyphens d s -> with_hyphens e t -> with_hyphens (d ++ e) (s ++ t).
Proof. induction 1; intros H2; cbn; [exact H2|constructor; auto|constructor; auto]. Qed.

Lemma hyphens_self d : Forall hex d -> with_hyphens d d.
Proof. induction 1; constructor; auto. Qed.

Lemma hyphenated_with d s : Forall hex d -> hyphenated d s -> with_hyphens d s.
Proof.
  intros F H. destruct H as [a b c e f].
  rewrite !Forall_app in F. destruct F as (A & B & C & E & F).
  assert (K : forall d s, with_hyphens d s -> with_hyphens d (lit "-" ++ s)) by (intros; constructor; auto).
  repeat (apply hyphens_app; [apply hyphens_self; assumption|]; try apply K). apply hyphens_self; auto.
Qed.

Lemma plain_chars d s : with_hyphens d s -> ~ In 58 s /\ ~ In 114 s /\ forall c, In c s -> brace c = false.
Proof.
  intros H. assert (C : forall c, In c s -> c = 45 \/ 48 <= c <= 57 \/ 97 <= c <= 102 \/ 65 <= c <= 70).
  { intros c I. destruct (hyphens_chars _ _ H c I) as [->|X]; auto. right. apply hex_range. auto. }
  split; [|split].
  - intros I. apply C in I. lia.
  - intros I. apply C in I. lia.
  - intros c I. apply C in I. unfold brace. lia.
Qed.

(* What uuid.UUID does after the removal of urn:, uuid: and braces. *)
Definition number (w : unicode) (s : str) : option Z :=
  if (List.length s =? 32)%nat
  then match int16 w s with Some n => if (0 <=? n) && (n <? 2 ^ 128) then Some n else None | None => None end
  else None.

Lemma number_hex w d : Forall hex d ->
  number w d = if (List.length d =? 32)%nat then Some (value 0 d) else None.
Proof.
  intros H. unfold number. destruct (Nat.eqb_spec (List.length d) 32) as [L|L]; auto.
  rewrite int16_hex; auto. 2:{ intros ->. discriminate. }
  assert (B := value_bound d H). rewrite L in B. change (16 ^ Z.of_nat 32) with (2 ^ 128) in B.
  replace ((0 <=? value 0 d) && (value 0 d <? 2 ^ 128)) with true; auto. symmetry. lia.
Qed.

Lemma uuid_hyphens w d s : with_hyphens d s -> uuid_of w s = number w d.
Proof.
  intros H. destruct (plain_chars _ _ H) as (A & B & C).
  unfold uuid_of. cbv zeta.
  rewrite (remove_none (lit "urn:") 58 s) by (cbn; auto). rewrite (remove_none (lit "uuid:") 58 s) by (cbn; auto 10).
  unfold strip_braces. rewrite (strip_id brace s C), (hyphens_removed _ _ H). reflexivity.
Qed.

Lemma uuid_braces w d s : with_hyphens d s -> s <> [] -> uuid_of w (lit "{" ++ s ++ lit "}") = number w d.
Proof.
  intros H N. destruct (plain_chars _ _ H) as (A & B & C).
  unfold uuid_of. cbv zeta.
  assert (K : ~ In 58 (lit "{" ++ s ++ lit "}")).
  { intros I. cbn in I. destruct I as [I|I]; [lia|]. apply in_app_or in I as [I|I]; auto. cbn in I. lia. }
  rewrite (remove_none (lit "urn:") 58) by (cbn; auto). rewrite (remove_none (lit "uuid:") 58) by (cbn; auto 10).
  assert (E : strip_braces (lit "{" ++ s ++ lit "}") = s).
  { unfold strip_braces. change (lit "{" ++ s ++ lit "}") with (123 :: (s ++ [125])). cbn [skip_while].
    replace (brace 123) with true by reflexivity.
    assert (E1 : skip_while brace (s ++ [125]) = s ++ [125]).
    { destruct s as [|c s]; [congruence|]. cbn [app skip_while]. rewrite C by (left; reflexivity). reflexivity. }
    rewrite E1, rev_app_distr. cbn [rev app skip_while]. replace (brace 125) with true by reflexivity.
    rewrite skip_while_id, rev_involutive; auto. intros c I. apply C, in_rev. exact I. }
  rewrite E, (hyphens_removed _ _ H). reflexivity.
Qed.

Lemma uuid_urn w d s : with_hyphens d s -> uuid_of w (lit "urn:uuid:" ++ s) = number w d.
Proof.
  intros H. destruct (plain_chars _ _ H) as (A & B & C).
  unfold uuid_of. cbv zeta.
  change (lit "urn:uuid:" ++ s) with (lit "urn:" ++ (lit "uuid:" ++ s)).
  assert (E1 : remove (lit "urn:") (lit "urn:" ++ (lit "uuid:" ++ s)) = lit "uuid:" ++ s).
  { change (lit "urn:") with (117 :: [114; 110; 58]). rewrite remove_app.
    apply (remove_none _ 114); [cbn; auto|]. intros I. apply in_app_or in I as [I|I]; [cbn in I; lia|auto]. }
  assert (E2 : remove (lit "uuid:") (lit "uuid:" ++ s) = s).
  { change (lit "uuid:") with (117 :: [117; 105; 100; 58]). rewrite remove_app.
    apply (remove_none _ 58); [cbn; auto 10|]. exact A. }
  rewrite E1, E2. unfold strip_braces. rewrite (strip_id brace s C), (hyphens_removed _ _ H). reflexivity.
Qed.

Lemma written_number w d id : List.length d = 32%nat -> Forall hex d -> written d id -> uuid_of w id = Some (value 0 d).
Proof.
  intros L F W.
  assert (G : number w d = Some (value 0 d)) by (rewrite number_hex, L; auto).
  assert (NN : forall s, hyphenated d s -> s <> []).
  { intros s H E. destruct H. destruct a; discriminate. }
  destruct W as [|s H|s H|s H].
  - rewrite (uuid_hyphens w d d); auto. apply hyphens_self; auto.
  - rewrite (uuid_hyphens w d s); auto. apply hyphenated_with; auto.
  - rewrite (uuid_braces w d s); auto. apply hyphenated_with; auto.
  - rewrite (uuid_urn w d s); auto. apply hyphenated_with; auto.
Qed.

(* ---- the text ---- *)

Lemma hex_text_length k : forall n, List.length (hex_text k n) = k.
Proof. induction k as [|k IH]; intros n; cbn; auto. rewrite app_length, IH. cbn. lia. Qed.

Lemma hex_text_lower k : forall n, Forall lower_hex (hex_text k n).
Proof.
  induction k as [|k IH]; intros n; cbn; auto. apply Forall_app. split; auto. constructor; auto.
  assert (B := Z.mod_pos_bound n 16 ltac:(lia)). unfold hex_char, lower_hex. destruct (Z.ltb_spec (n mod 16) 10); lia.
Qed.

Lemma uuid_str_hyphenated n : hyphenated (hex_text 32 n) (uuid_str n).
Proof.
  unfold uuid_str. cbv zeta. assert (L := hex_text_length 32 n).
  remember (hex_text 32 n) as h eqn:E. clear E.
  do 32 (destruct h as [|? h]; [discriminate L|]). destruct h; [|discriminate L].
  cbn [firstn skipn].
  match goal with |- hyphenated [?a1;?a2;?a3;?a4;?a5;?a6;?a7;?a8;?b1;?b2;?b3;?b4;?c1;?c2;?c3;?c4;?e1;?e2;?e3;?e4;?f1;?f2;?f3;?f4;?f5;?f6;?f7;?f8;?f9;?g1;?g2;?g3] _ =>
    exact (Hyphenated [a1;a2;a3;a4;a5;a6;a7;a8] [b1;b2;b3;b4] [c1;c2;c3;c4] [e1;e2;e3;e4]
             [f1;f2;f3;f4;f5;f6;f7;f8;f9;g1;g2;g3] eq_refl eq_refl eq_refl eq_refl eq_refl) end.
Qed.

Lemma app_len_inj {A} (a b c d : list A) : List.length a = List.length c -> a ++ b = c ++ d -> a = c /\ b = d.
Proof.
  revert c. induction a as [|x a IH]; destruct c as [|y c]; intros L E; try discriminate; auto.
  cbn in *. injection E as -> E. destruct (IH c ltac:(lia) E) as [-> ->]. auto.
Qed.

Lemma hyphenated_fun d s t : hyphenated d s -> hyphenated d t -> s = t.
Proof.
  intros H1 H2. destruct H1 as [a b c e f La Lb Lc Le Lf]. remember (a ++ b ++ c ++ e ++ f) as d eqn:E.
  destruct H2 as [a' b' c' e' f' La' Lb' Lc' Le' Lf'].
  apply app_len_inj in E as [-> E]; [|lia]. apply app_len_inj in E as [-> E]; [|lia].
  apply app_len_inj in E as [-> E]; [|lia]. apply app_len_inj in E as [-> ->]; [|lia]. reflexivity.
Qed.

Lemma hyphenated_inj d e s : hyphenated d s -> hyphenated e s -> d = e.
Proof.
  intros H1 H2. destruct H1 as [a b c x f La Lb Lc Le Lf].
  remember (a ++ lit "-" ++ b ++ lit "-" ++ c ++ lit "-" ++ x ++ lit "-" ++ f) as s eqn:E.
  destruct H2 as [a' b' c' x' f' La' Lb' Lc' Le' Lf'].
  assert (K : forall u v : str, lit "-" ++ u = lit "-" ++ v -> u = v) by (intros u v; cbn; congruence).
  apply app_len_inj in E as [-> E]; [|lia]. apply K in E.
  apply app_len_inj in E as [-> E]; [|lia]. apply K in E.
  apply app_len_inj in E as [-> E]; [|lia]. apply K in E.
  apply app_len_inj in E as [-> E]; [|lia]. apply K in E. subst. reflexivity.
Qed.

Lemma uuid_text w d id : uuid_of w id = Some (value 0 d) -> List.length d = 32%nat -> Forall hex d ->
  exists s, UUID w id = Some s /\ hyphenated (map low d) s.
Proof.
  intros U L F. exists (uuid_str (value 0 d)). split.
  - unfold UUID, validate_uuid. rewrite U. reflexivity.
  - rewrite <- (hex_text_value d F), L. apply uuid_str_hyphenated.
Qed.

(* ---- what is refused ---- *)

Lemma hex_digits_chars s : forall b a n, hex_digits b a s = Some n -> forall c, In c s -> hex c \/ c = 95.
Proof.
  induction s as [|x s IH]; intros b a n H c I; [destruct I|]. cbn in H.
  destruct (hex_val x) as [v|] eqn:V.
  - destruct I as [<-|I]; [left; exists v; apply hex_val_is; auto|eauto].
  - destruct (b && (x =? 95)) eqn:B; [|discriminate]. apply andb_prop in B as [_ B]. apply Z.eqb_eq in B.
    destruct I as [<-|I]; eauto.
Qed.

Lemma skip_0x_in s c : In c s -> c = 48 \/ c = 120 \/ c = 88 \/ c = 95 \/ In c (skip_0x s).
Proof.
  intros I. destruct (list_eq_dec Z.eq_dec (skip_0x s) s) as [->|N]; auto.
  destruct s as [|a [|x r]]; [destruct I|exfalso; apply N|].
  { unfold skip_0x. destruct a as [|p|p]; auto. repeat (destruct p as [p|p|]; try reflexivity). }
  destruct (Z.eq_dec a 48) as [->|A].
  2:{ exfalso. apply N. unfold skip_0x. destruct a as [|p|p]; auto. repeat (destruct p as [p|p|]; try reflexivity). congruence. }
  unfold skip_0x in *. destruct ((x =? 120) || (x =? 88)) eqn:X; [|congruence].
  destruct I as [<-|[<-|I]]; auto.
  { destruct (Z.eqb_spec x 120); auto. right. right. left. lia. }
  destruct r as [|y r]; [destruct I|].
  destruct (Z.eq_dec y 95) as [->|Y]; [destruct I as [<-|I]; auto 6|].
  right. right. right. right.
  destruct y as [|p|p]; auto. repeat (destruct p as [p|p|]; try exact I). congruence.
Qed.

Definition ascii_usable (c : Z) : Prop :=
  hex c \/ In c (lit "-_xX+") \/ 9 <= c <= 13 \/ c = 32.

Lemma int16_ascii w s n : int16 w s = Some n -> forall c, In c (map (to_ascii w) s) -> ascii_usable c.
Proof.
  unfold int16. cbv zeta. intros H c I.
  apply (strip_in white) in I as [I|I].
  { unfold white in I. unfold ascii_usable. right. right. lia. }
  assert (G : forall t m, hex_digits false 0 (skip_0x t) = Some m -> In c t -> ascii_usable c).
  { intros t m Ht It. apply skip_0x_in in It as [->|[->|[->|[->|It]]]].
    - left. exists 0. left. lia.
    - right. left. cbn. tauto.
    - right. left. cbn. tauto.
    - right. left. cbn. tauto.
    - destruct (hex_digits_chars _ _ _ _ Ht c It) as [X| ->]; [left; exact X|right; left; cbn; tauto]. }
  destruct (rev (skip_while white (rev (skip_while white (map (to_ascii w) s))))) as [|a t]; [destruct I|].
  destruct (Z.eq_dec a 45) as [->|A].
  { destruct (hex_digits false 0 (skip_0x t)) as [m|] eqn:E; [|discriminate].
    destruct I as [<-|I]; [right; left; cbn; tauto|eauto]. }
  destruct (Z.eq_dec a 43) as [->|B].
  { destruct I as [<-|I]; [right; left; cbn; tauto|eauto]. }
  assert (H' : hex_digits false 0 (skip_0x (a :: t)) = Some n).
  { destruct a as [|p|p]; auto. repeat (destruct p as [p|p|]; try exact H); congruence. }
  eauto.
Qed.

Lemma int16_chars w s n : int16 w s = Some n -> forall c, In c s -> usable w c.
Proof.
  intros H c I. apply (in_map (to_ascii w)) in I. assert (A := int16_ascii w s n H _ I).
  unfold to_ascii in A. destruct (Z.ltb_spec c 128) as [L|L].
  - destruct A as [A|[A|[A|A]]]; unfold usable; auto. right. left. cbn in *. tauto.
  - right. right. right. right. split; auto.
    destruct (u_space w c); auto. destruct (u_digit w c) as [v|]; eauto.
    exfalso. destruct A as [[v A]|[A|[A|A]]]; [unfold digit_is in A; lia|cbn in A; lia|lia|lia].
Qed.

Lemma remove_usable w p s : p <> [] -> (forall c, In c p -> usable w c) -> (forall c, In c (remove p s) -> usable w c) ->
  forall c, In c s -> usable w c.
Proof.
  intros N P R c I. destruct p as [|c0 p]; [congruence|].
  destruct (remove_keeps c0 p (List.length s) s ltac:(lia) c I); auto.
Qed.

Lemma lit_usable w p : (forall c, In c p -> In c (lit "urn:uid:{}-_xX+")) -> forall c, In c p -> usable w c.
Proof. intros H c I. right. left. auto. Qed.

Lemma uuid_chars w s n : uuid_of w s = Some n -> forall c, In c s -> usable w c.
Proof.
  unfold uuid_of. cbv zeta. intros H.
  destruct (List.length _ =? 32)%nat; [|discriminate].
  destruct (int16 w _) as [m|] eqn:E; [|discriminate]. clear H.
  assert (A := int16_chars _ _ _ E). clear E.
  apply (remove_usable w (lit "urn:")); [discriminate|apply lit_usable; intros c I; cbn in *; tauto|].
  apply (remove_usable w (lit "uuid:")); [discriminate|apply lit_usable; intros c I; cbn in *; tauto|].
  intros c I. apply (strip_in brace) in I as [I|I].
  - unfold brace in I. right. left. cbn. destruct (Z.eqb_spec c 123); [subst; tauto|].
    assert (c = 125) by lia. subst. tauto.
  - revert c I. apply (remove_usable w [45]); [discriminate|apply lit_usable; intros c I; cbn in *; tauto|exact A].
Qed.
