(* Lemmas about the version of qemu-nbd. *)
From Coq Require Import ZArith List Bool Lia.
From Verif Require Import UrlModel VersionModel VersionSpec.
From Verif Require UrlTheorems.
Import ListNotations.
Open Scope Z_scope.

Lemma number_digits t n : number t n -> t <> [] /\ Forall (fun c => ascii_digit c = true) t.
Proof.
  induction 1 as [d D|s n d N IH D].
  - split; [discriminate|]. constructor; [unfold ascii_digit; lia|constructor].
  - destruct IH as [_ F]. split; [destruct s; discriminate|]. apply Forall_app. split; [exact F|].
    constructor; [unfold ascii_digit; lia|constructor].
Qed.

Lemma number_value w t n : number t n -> value w t = n.
Proof.
  induction 1 as [d D|s n d N IH D]; unfold value.
  - cbn [fold_left]. unfold digit_val, digit, ascii_digit.
    replace ((48 <=? 48 + d) && (48 + d <=? 57)) with true by lia. lia.
  - rewrite fold_left_app. unfold value in IH. rewrite IH. cbn [fold_left].
    unfold digit_val, digit, ascii_digit.
    replace ((48 <=? 48 + d) && (48 + d <=? 57)) with true by lia. lia.
Qed.

Lemma py_int_number w t n : number t n -> py_int w t = Some n.
Proof.
  intros N. destruct (number_digits t n N) as (NE & FA). assert (V := number_value w t n N).
  unfold py_int. rewrite (UrlTheorems.skip_none _ t).
  2:{ destruct t; auto. apply UrlTheorems.digit_no_space. inversion FA; auto. }
  rewrite UrlTheorems.skip_none.
  2:{ destruct (rev t) as [|c r] eqn:R; auto. apply UrlTheorems.digit_no_space.
      rewrite Forall_forall in FA. apply FA. apply in_rev. rewrite R. left. auto. }
  rewrite rev_involutive. rewrite (UrlTheorems.int_digits_ascii w t) by auto. rewrite V.
  destruct t as [|c ds]; [congruence|]. inversion FA as [|? ? D F']; subst.
  destruct (Z.eq_dec c 45) as [->|E]; [discriminate|]. destruct (Z.eq_dec c 43) as [->|E']; [discriminate|].
  destruct c as [|p|p]; auto. do 6 (destruct p as [p|p|]; auto); congruence.
Qed.

Lemma split_dots_none t : ~ In 46 t -> split_dots t = [t].
Proof.
  induction t as [|c t IH]; intros N; [reflexivity|]. cbn [split_dots].
  destruct (c =? 46) eqn:E; [exfalso; apply N; left; lia|].
  rewrite IH by (intros I; apply N; right; exact I). reflexivity.
Qed.
Lemma split_dots_app t s : ~ In 46 t -> split_dots (t ++ [46] ++ s) = t :: split_dots s.
Proof.
  induction t as [|c t IH]; intros N; [reflexivity|]. cbn [app split_dots].
  destruct (c =? 46) eqn:E; [exfalso; apply N; left; lia|]. cbn [app] in IH.
  rewrite IH by (intros I; apply N; right; exact I). reflexivity.
Qed.
Lemma split_dots_dotted s : dotted (split_dots s) s.
Proof.
  induction s as [|c s IH]; cbn [split_dots].
  - apply dotted_one. intros [].
  - destruct (c =? 46) eqn:E.
    + assert (c = 46) as -> by lia. apply (dotted_more [] (split_dots s) s); [intros []|exact IH].
    + inversion IH as [t N H1 H2|t ts s' N D H1 H2].
      * subst t. apply dotted_one. intros [I|I]; [lia|auto].
      * subst s. apply (dotted_more (c :: t) ts s'); [intros [I|I]; [lia|auto]|exact D].
Qed.

Lemma ints_each w l v : ints w l = Some v -> Forall2 (fun t n => py_int w t = Some n) l v.
Proof.
  revert v. induction l as [|t l IH]; intros v H; cbn [ints] in H.
  - injection H as <-. constructor.
  - destruct (py_int w t) as [n|] eqn:P; [|discriminate].
    destruct (ints w l) as [v'|]; [|discriminate]. injection H as <-. constructor; auto.
Qed.

Lemma visible_no_blank w c : 33 <= c <= 126 -> blank w c = false.
Proof. unfold blank. intros H. destruct (u_space w c); lia. Qed.
Lemma visible_no_break c : 33 <= c <= 126 -> line_break c = false.
Proof. unfold line_break. lia. Qed.
Lemma digit_visible c : ascii_digit c = true -> 33 <= c <= 126.
Proof. unfold ascii_digit. lia. Qed.
Lemma number_no_dot t n : number t n -> ~ In 46 t.
Proof.
  intros N I. destruct (number_digits t n N) as [_ F]. rewrite Forall_forall in F.
  specialize (F _ I). discriminate.
Qed.

Lemma word_of w name word rest : plain_name name -> plain_name word ->
  (rest = [] \/ exists r, rest = 32 :: r) ->
  second_word w (name ++ [32] ++ word ++ rest) = Some word.
Proof.
  intros [N1 F1] [N2 F2] R. unfold second_word.
  assert (V : forall s, Forall (fun c => 33 <= c <= 126) s -> Forall (fun c => negb (blank w c) = true) s).
  { intros s F. eapply Forall_impl; [|exact F]. intros c C. cbn beta in C. rewrite visible_no_blank by exact C. reflexivity. }
  rewrite (UrlTheorems.skip_none _ (name ++ _)).
  2:{ destruct name as [|c name]; [congruence|]. inversion F1; subst. cbn [app].
      apply visible_no_blank. assumption. }
  rewrite UrlTheorems.span_all; [|apply V; exact F1|reflexivity]. cbn [snd app skip_while].
  replace (blank w 32) with true by reflexivity. rewrite UrlTheorems.skip_none.
  2:{ destruct word as [|c word]; [congruence|]. inversion F2; subst. cbn [app].
      apply visible_no_blank. assumption. }
  rewrite UrlTheorems.span_all; [|apply V; exact F2|].
  - cbn [fst]. destruct word; [congruence|reflexivity].
  - destruct R as [->|(r & ->)]; [exact I|reflexivity].
Qed.

(* The line ends before the first line break. *)
Lemma span_app_keep f (a s : list Z) : Forall (fun c => f c = true) a ->
  fst (span f (a ++ s)) = a ++ fst (span f s).
Proof.
  intros F. induction F as [|c a C F IH]; [reflexivity|]. cbn [app span]. rewrite C.
  destruct (span f (a ++ s)) as [x y]. cbn [fst] in IH |- *. rewrite IH. reflexivity.
Qed.

Lemma span_fst_all f (s : list Z) : Forall (fun c => f c = true) (fst (span f s)).
Proof.
  induction s as [|c s IH]; cbn [span]; [constructor|]. destruct (f c) eqn:C; [|constructor].
  destruct (span f s) as [a b]. cbn [fst] in IH |- *. constructor; auto.
Qed.
Lemma span_whole f (s : list Z) : s = fst (span f s) ++ snd (span f s).
Proof.
  induction s as [|c s IH]; cbn [span]; [reflexivity|]. destruct (f c); [|reflexivity].
  destruct (span f s) as [a b]. cbn [fst snd app] in IH |- *. rewrite <- IH. reflexivity.
Qed.

(* The word is a part of the line. *)
Lemma second_word_part w line word : second_word w line = Some word ->
  exists l1 first l2 rest, line = l1 ++ first ++ l2 ++ word ++ rest /\ word <> [] /\
    Forall (fun c => blank w c = true) l1 /\ Forall (fun c => blank w c = false) first /\
    Forall (fun c => blank w c = true) l2 /\ Forall (fun c => blank w c = false) word /\
    match rest with [] => True | c :: _ => blank w c = true end.
Proof.
  unfold second_word.
  destruct (UrlTheorems.skip_while_split (blank w) line) as (l1 & E1 & F1 & _).
  remember (skip_while (blank w) line) as r1 eqn:HR1. clear HR1.
  destruct (span (fun c => negb (blank w c)) r1) as [first r2] eqn:S1.
  destruct (UrlTheorems.span_split _ _ _ _ S1) as (E2 & _). cbn [snd].
  assert (A1 := span_fst_all (fun c => negb (blank w c)) r1). rewrite S1 in A1. cbn [fst] in A1.
  destruct (UrlTheorems.skip_while_split (blank w) r2) as (l2 & E3 & F2 & _).
  remember (skip_while (blank w) r2) as r3 eqn:HR3. clear HR3.
  destruct (span (fun c => negb (blank w c)) r3) as [x rest] eqn:S2.
  destruct (UrlTheorems.span_split _ _ _ _ S2) as (E4 & B). cbn [fst].
  assert (A2 := span_fst_all (fun c => negb (blank w c)) r3). rewrite S2 in A2. cbn [fst] in A2.
  intros H. assert (x = word /\ x <> []) as [-> NE].
  { destruct x; [discriminate|]. injection H as <-. split; [reflexivity|discriminate]. }
  exists l1, first, l2, rest. subst r3 r2 r1. repeat split; auto.
  - eapply Forall_impl; [|exact A1]. cbn beta. intros c C. destruct (blank w c); [discriminate|reflexivity].
  - eapply Forall_impl; [|exact A2]. cbn beta. intros c C. destruct (blank w c); [discriminate|reflexivity].
  - destruct rest; [exact I|]. destruct (blank w z); [reflexivity|discriminate].
Qed.
