(* Theorems about the Range, Content-Range and Content-Length headers
   (properties C18, C19 and a part of C21).  The grammar is in HeaderSpec. *)
From Coq Require Import ZArith List Bool Ascii String Lia.
From Verif Require Import HeaderModel HeaderSpec HeaderProofs.
Import ListNotations.
Open Scope Z_scope.

(* C18: a header not ending with a newline (a header taken from a HTTP message
   never does) is accepted exactly when it is in the grammar, and gives the
   object for its form.  Python without limit on the digits of int(). *)
Theorem range_accepts_exactly_the_grammar :
  forall h r, ~ ends_with_newline h ->
  (range_parse None h = inl r <-> exists f, range_form h f /\ r = range_of f).
Proof.
  intros h r N. rewrite range_parse_spec. split.
  - intros (h' & f & [->| ->] & F & ->); [eauto|].
    exfalso. apply N. exists h'. reflexivity.
  - intros (f & F & ->). exists h, f. auto.
Qed.
Print Assumptions range_accepts_exactly_the_grammar.

(* Any string at all: the only addition is one newline at the end. *)
Theorem range_accepts_exactly :
  forall h r,
  range_parse None h = inl r <->
  exists h' f, (h = h' \/ h = h' ++ [ascii_of_N 10]) /\ range_form h' f
               /\ r = range_of f.
Proof. exact range_parse_spec. Qed.
Print Assumptions range_accepts_exactly.

(* Everything else is rejected with status 416 and never fails otherwise. *)
Theorem range_rejects_with_416 :
  forall h, (forall r, range_parse None h <> inl r) ->
  range_parse None h = inr (HttpError 416).
Proof.
  intros h N. destruct (range_parse None h) as [r|e] eqn:E.
  - exfalso. apply (N r). reflexivity.
  - apply range_parse_error in E. subst e. reflexivity.
Qed.
Print Assumptions range_rejects_with_416.

(* The same with the limit of new Python versions, for headers not longer than
   the limit. *)
Theorem range_digit_limit :
  forall m h, Z.of_nat (List.length h) <= m ->
  range_parse (Some m) h = range_parse None h.
Proof. exact range_parse_lim. Qed.
Print Assumptions range_digit_limit.

(* C18: the accepted range selects the bytes of RFC 7233, except for a suffix
   of length 0. *)
Theorem range_selects_rfc_bytes_partial :
  forall h f, range_form h f -> f <> Suffix 0 ->
  forall len i, object_selects (range_of f) len i <-> selects f len i.
Proof.
  intros h f F N len i. unfold object_selects, selects.
  destruct F as [a n Ha | a b n m Ha Hb L | b n Hb]; cbn [range_of r_first r_last].
  - apply decimal_nonneg in Ha. rewrite (proj2 (Z.ltb_ge n 0)) by lia. tauto.
  - tauto.
  - apply decimal_nonneg in Hb.
    assert (n <> 0) by (intros ->; tauto).
    rewrite (proj2 (Z.ltb_lt (- n) 0)) by lia. lia.
Qed.
Print Assumptions range_selects_rfc_bytes_partial.

(* Finding: bytes=-0 asks for no byte at all and must be refused as not
   satisfiable, but the parser returns the object for the whole image. *)
Theorem suffix_zero_selects_everything_refuted :
  exists h f r len i,
    range_form h f /\ range_parse None h = inl r /\
    object_selects r len i /\ ~ selects f len i.
Proof.
  exists (lit "bytes=-0"), (Suffix 0), (Range 0 None), 10, 3.
  split.
  { apply (form_suffix (lit "0")). apply dec_one. split; [lia|reflexivity]. }
  split; [reflexivity|].
  unfold object_selects, selects; cbn. lia.
Qed.
Print Assumptions suffix_zero_selects_everything_refuted.

(* Finding: with the default limit of Python 3.11 a long number makes the
   parser raise ValueError instead of the 416 error (the request line limit
   does not cover header lines, which may have 65536 bytes). *)
Theorem long_range_raises_value_error_refuted :
  exists h f, range_form h f /\ Z.of_nat (List.length h) < 65536 /\
    range_parse (Some 4300) h = inr ValueError.
Proof.
  pose (a := repeat "1"%char (Z.to_nat 4301)).
  exists (lit "bytes=" ++ a ++ lit "-"), (From (value a)).
  split.
  { apply form_from. apply decimal_spec. split; [discriminate|].
    split; [|reflexivity].
    apply Forall_forall. intros c H. apply repeat_spec in H. subst; reflexivity. }
  split; vm_compute; reflexivity.
Qed.
Print Assumptions long_range_raises_value_error_refuted.

(* C19: accepted exactly in the grammar, and the numbers are those written. *)
Theorem content_range_accepts_exactly_the_grammar :
  forall h first last complete, ~ ends_with_newline h ->
  (content_range_parse None h = inl (ContentRange first last complete) <->
   content_range_form h first last complete).
Proof.
  intros h f l c N. rewrite content_range_parse_spec. split.
  - intros (h' & [->| ->] & F); [auto|]. exfalso. apply N. exists h'. reflexivity.
  - eauto.
Qed.
Print Assumptions content_range_accepts_exactly_the_grammar.

Theorem content_range_accepts_exactly :
  forall h first last complete,
  content_range_parse None h = inl (ContentRange first last complete) <->
  exists h', (h = h' \/ h = h' ++ [ascii_of_N 10]) /\
             content_range_form h' first last complete.
Proof. exact content_range_parse_spec. Qed.
Print Assumptions content_range_accepts_exactly.

Theorem content_range_rejects_with_400 :
  forall h, (forall r, content_range_parse None h <> inl r) ->
  content_range_parse None h = inr (HttpError 400).
Proof.
  intros h N. destruct (content_range_parse None h) as [r|e] eqn:E.
  - exfalso. apply (N r). reflexivity.
  - apply content_range_parse_error in E. subst e. reflexivity.
Qed.
Print Assumptions content_range_rejects_with_400.

Theorem content_range_digit_limit :
  forall m h, Z.of_nat (List.length h) <= m ->
  content_range_parse (Some m) h = content_range_parse None h.
Proof. exact content_range_parse_lim. Qed.
Print Assumptions content_range_digit_limit.

Theorem long_content_range_raises_value_error_refuted :
  exists h, Z.of_nat (List.length h) < 65536 /\
    content_range_parse (Some 4300) h = inr ValueError.
Proof.
  exists (lit "bytes " ++ repeat "1"%char (Z.to_nat 4301) ++ lit "-*/*").
  split; vm_compute; reflexivity.
Qed.
Print Assumptions long_content_range_raises_value_error_refuted.

(* Content-Length: a decimal number gives its value; nothing gives a negative
   length; errors are 400 for every string and every digit limit. *)
Theorem content_length_of_number :
  forall lim s n, decimal s n ->
  (forall m, lim = Some m -> Z.of_nat (List.length s) <= m) ->
  content_length lim (Some s) = inl (Some n).
Proof. exact content_length_decimal. Qed.
Print Assumptions content_length_of_number.

Theorem content_length_never_negative :
  forall lim v n, content_length lim v = inl (Some n) -> 0 <= n.
Proof. exact content_length_nonneg. Qed.
Print Assumptions content_length_never_negative.

Theorem content_length_rejects_with_400 :
  forall lim v e, content_length lim v = inr e -> e = HttpError 400.
Proof. exact content_length_error. Qed.
Print Assumptions content_length_rejects_with_400.

(* Finding: RFC 7230 allows only digits in Content-Length; int() also takes a
   sign and underscores, so another HTTP implementation on the way may see
   another end of the body. *)
Theorem content_length_accepts_only_digits_refuted :
  exists s n, content_length None (Some s) = inl (Some n) /\
    forall m, ~ decimal s m.
Proof.
  exists (lit "+1_0"), 10. split; [reflexivity|].
  intros m H. apply decimal_digits in H. inversion H; discriminate.
Qed.
Print Assumptions content_length_accepts_only_digits_refuted.

(* --- cases meeting the hypotheses --- *)

Example range_ex :
  range_parse (Some 4300) (lit "bytes=07-1234") = inl (Range 7 (Some 1234))
  /\ range_parse None (lit "bytes=512-") = inl (Range 512 None)
  /\ range_parse None (lit "bytes=-99") = inl (Range (-99) None)
  /\ range_parse None (lit "bytes=5-4") = inr (HttpError 416)
  /\ range_parse None (lit "bytes=-") = inr (HttpError 416)
  /\ range_parse None (lit "bytes=0-1,4-5") = inr (HttpError 416)
  /\ range_parse None (lit "Bytes=0-1") = inr (HttpError 416)
  /\ range_form (lit "bytes=512-") (From 512)
  /\ ~ ends_with_newline (lit "bytes=512-").
Proof.
  repeat split; try reflexivity.
  - apply (form_from (lit "512")). apply decimal_spec.
    repeat split; [discriminate|repeat constructor].
  - intros [r E]. apply (f_equal (@rev _)) in E.
    rewrite rev_app_distr in E. cbn in E. discriminate.
Qed.

Example content_range_ex :
  content_range_parse (Some 4300) (lit "bytes 0-511/1024")
    = inl (ContentRange 0 (Some 511) (Some 1024))
  /\ content_range_parse None (lit "bytes 5-*/*") = inl (ContentRange 5 None None)
  /\ content_range_parse None (lit "bytes 5-*/3") = inl (ContentRange 5 None (Some 3))
  /\ content_range_parse None (lit "bytes */1024") = inr (HttpError 400)
  /\ content_range_parse None (lit "bytes 0-511/511") = inr (HttpError 400)
  /\ content_range_parse None (lit "bytes 9-8/511") = inr (HttpError 400).
Proof. repeat split; reflexivity. Qed.

Example content_length_ex :
  content_length (Some 4300) (Some (lit "4096")) = inl (Some 4096)
  /\ content_length None (Some (lit "-1")) = inr (HttpError 400)
  /\ content_length None (Some (lit "1__0")) = inr (HttpError 400)
  /\ content_length None (Some (lit "")) = inr (HttpError 400)
  /\ content_length None None = inl None.
Proof. repeat split; reflexivity. Qed.
