(* Disk ids of the command line. *)
From Coq Require Import ZArith List Bool String Lia.
From Verif Require Import UrlModel UuidModel UuidSpec UuidProofs.
Import ListNotations.
Open Scope Z_scope.

(* What goes to the engine is always a UUID in the usual form. *)
Theorem uuid_canonical w id s : UUID w id = Some s -> canonical s.
Proof.
  unfold UUID, validate_uuid. destruct (uuid_of w id) as [n|]; [|discriminate].
  intros H. injection H as <-. exists (hex_text 32 n).
  split; [apply hex_text_length|]. split; [apply hex_text_lower|apply uuid_str_hyphenated].
Qed.

(* However a UUID is written, it is the one with the same digits. *)
Theorem uuid_as_written w d id : List.length d = 32%nat -> Forall hex d -> written d id ->
  exists s e, UUID w id = Some s /\ same_digits d e /\ hyphenated e s.
Proof.
  intros L F W. destruct (uuid_text w d id (written_number w d id L F W) L F) as (s & U & H).
  exists s, (map low d). split; [exact U|]. split; [apply same_low; exact F|exact H].
Qed.

(* Of the texts with only digits and hyphens those with 32 digits are
   accepted, and no others: a digit too many or missing is noticed. *)
Theorem uuid_by_digits_partial w d id : with_hyphens d id ->
  (List.length d = 32%nat -> exists s e, UUID w id = Some s /\ same_digits d e /\ hyphenated e s) /\
  (List.length d <> 32%nat -> UUID w id = None).
Proof.
  intros W. assert (F := hyphens_hex _ _ W). assert (U := uuid_hyphens w d id W).
  rewrite (number_hex w d F) in U. split; intros L.
  - rewrite L in U. cbn in U. destruct (uuid_text w d id U L F) as (s & E & H).
    exists s, (map low d). split; [exact E|]. split; [apply same_low; exact F|exact H].
  - unfold UUID, validate_uuid. rewrite U. apply Nat.eqb_neq in L. rewrite L. reflexivity.
Qed.

(* A text with any other character is refused. *)
Theorem uuid_characters w id s c : UUID w id = Some s -> In c id -> usable w c.
Proof.
  unfold UUID, validate_uuid. destruct (uuid_of w id) as [n|] eqn:U; [|discriminate]. intros _.
  exact (uuid_chars w id n U c).
Qed.

(* The id that is reported can be given again. *)
Theorem uuid_again w w' id s : UUID w id = Some s -> UUID w' s = Some s.
Proof.
  intros U. destruct (uuid_canonical _ _ _ U) as (d & L & F & H).
  assert (X : Forall hex d).
  { eapply Forall_impl; [|exact F]. intros c B. destruct B; [exists (c - 48); left; lia|exists (c - 87); right; left; lia]. }
  destruct (uuid_text w' d s (written_number w' d s L X (Usual d s H)) L X) as (t & E & T).
  assert (M : map low d = d).
  { rewrite <- (map_id d) at 2. apply map_ext_in. intros c I. apply low_id. rewrite Forall_forall in F. auto. }
  rewrite M in T. rewrite E. f_equal. exact (hyphenated_fun _ _ _ T H).
Qed.

(* Two texts name the same disk exactly if their digits have the same values. *)
Theorem uuid_distinct w d1 d2 id1 id2 :
  List.length d1 = 32%nat -> List.length d2 = 32%nat -> Forall hex d1 -> Forall hex d2 ->
  written d1 id1 -> written d2 id2 ->
  (UUID w id1 = UUID w id2 <-> exists e, same_digits d1 e /\ same_digits d2 e).
Proof.
  intros L1 L2 F1 F2 W1 W2.
  destruct (uuid_text w d1 id1 (written_number w d1 id1 L1 F1 W1) L1 F1) as (s1 & U1 & H1).
  destruct (uuid_text w d2 id2 (written_number w d2 id2 L2 F2 W2) L2 F2) as (s2 & U2 & H2).
  rewrite U1, U2. split.
  - intros E. injection E as ->. exists (map low d1). split; [apply same_low; exact F1|].
    rewrite (hyphenated_inj _ _ _ H1 H2). apply same_low. exact F2.
  - intros (e & A & B). apply same_is_low in A, B. subst e. rewrite B in H1. f_equal. exact (hyphenated_fun _ _ _ H1 H2).
Qed.

(* The full claim, that what is accepted is a way to write the UUID, is false:
   int() takes a prefix 0x, and the UUID has other digits then. *)
Theorem uuid_only_refuted w : exists id s,
  UUID w id = Some s /\ (forall d, List.length d = 32%nat -> Forall hex d -> ~ written d id) /\
  ~ (exists d, List.length d = 32%nat /\ with_hyphens d id).
Proof.
  exists (lit "0x123456781234567812345678123456"), (lit "00123456-7812-3456-7812-345678123456").
  split; [vm_compute; reflexivity|].
  assert (X : In 120 (lit "0x123456781234567812345678123456")) by (cbn; auto).
  assert (NX : ~ hex 120) by (intros [v H]; unfold digit_is in H; lia).
  assert (P : forall d, ~ with_hyphens d (lit "0x123456781234567812345678123456")).
  { intros d W. destruct (hyphens_chars _ _ W 120 X) as [E|E]; [discriminate|auto]. }
  split.
  - intros d _ F W. remember (lit "0x123456781234567812345678123456") as id eqn:E.
    destruct W as [|s H|s H|s H].
    + rewrite Forall_forall in F. apply NX, F. exact X.
    + apply (P d). apply hyphenated_with; auto.
    + discriminate E.
    + discriminate E.
  - intros (d & _ & W). exact (P d W).
Qed.

(* Nor is it refused to write a UUID with one underscore instead of a digit:
   a typing error names another disk. *)
Theorem uuid_typing_error_refuted w : exists id id' s,
  UUID w id = Some s /\ UUID w id' = Some s /\ id <> id' /\
  (forall c, In c id -> c = 45 \/ hex c) /\ In 95 id'.
Proof.
  exists (lit "00123456-7812-3456-7812-345678123456"), (lit "0_123456-7812-3456-7812-345678123456"),
    (lit "00123456-7812-3456-7812-345678123456").
  split; [vm_compute; reflexivity|]. split; [vm_compute; reflexivity|]. split; [discriminate|]. split.
  - intros c I. apply (hyphens_chars (lit "00123456781234567812345678123456") _) with (c := c) in I; auto.
    assert (K : forallb (fun c => match hex_val c with Some _ => true | None => false end)
                  (lit "00123456781234567812345678123456") = true) by reflexivity.
    apply hyphenated_with.
    + apply Forall_forall. intros x J. rewrite forallb_forall in K. specialize (K x J).
      destruct (hex_val x) as [v|] eqn:V; [|discriminate]. exists v. apply hex_val_is. exact V.
    + exact (Hyphenated (lit "00123456") (lit "7812") (lit "3456") (lit "7812") (lit "345678123456")
               eq_refl eq_refl eq_refl eq_refl eq_refl).
  - cbn. auto.
Qed.

(* ---- cases ---- *)

Example uuid_case w :
  let d := lit "EA2B1C0D-0000-4000-8000-0123456789aB" in
  let s := lit "ea2b1c0d-0000-4000-8000-0123456789ab" in
  UUID w d = Some s /\ UUID w (lit "{EA2B1C0D-0000-4000-8000-0123456789aB}") = Some s /\
  UUID w (lit "urn:uuid:EA2B1C0D-0000-4000-8000-0123456789aB") = Some s /\
  UUID w (lit "EA2B1C0D000040008000-0123456789aB") = Some s /\
  UUID w (lit "EA2B1C0D-0000-4000-8000-0123456789a") = None /\
  UUID w (lit "EA2B1C0D-0000-4000-8000-0123456789ag") = None /\
  UUID w (lit "_A2B1C0D-0000-4000-8000-0123456789ab") = None.
Proof. repeat (split; [vm_compute; reflexivity|]). vm_compute. reflexivity. Qed.

(* The hypotheses of uuid_as_written, uuid_distinct and uuid_by_digits_partial. *)
Lemma hex_list d : forallb (fun c => match hex_val c with Some _ => true | None => false end) d = true -> Forall hex d.
Proof.
  intros K. apply Forall_forall. intros x J. rewrite forallb_forall in K. specialize (K x J).
  destruct (hex_val x) as [v|] eqn:V; [|discriminate]. exists v. apply hex_val_is. exact V.
Qed.

Example written_case :
  let d := lit "EA2B1C0D0000400080000123456789aB" in
  let d' := lit "EA2B1C0D0000400080000123456789aC" in
  List.length d = 32%nat /\ Forall hex d /\ Forall hex d' /\ d <> d' /\
  written d (lit "{EA2B1C0D-0000-4000-8000-0123456789aB}") /\
  written d (lit "urn:uuid:EA2B1C0D-0000-4000-8000-0123456789aB") /\ written d' d' /\
  with_hyphens (lit "EA2B") (lit "-E-A2B-").
Proof.
  split; [reflexivity|]. split; [apply hex_list; reflexivity|]. split; [apply hex_list; reflexivity|].
  split; [discriminate|].
  assert (H : hyphenated (lit "EA2B1C0D0000400080000123456789aB") (lit "EA2B1C0D-0000-4000-8000-0123456789aB")).
  { exact (Hyphenated (lit "EA2B1C0D") (lit "0000") (lit "4000") (lit "8000") (lit "0123456789aB")
               eq_refl eq_refl eq_refl eq_refl eq_refl). }
  split; [exact (Braces _ _ H)|]. split; [exact (Urn _ _ H)|]. split; [constructor|].
  assert (K : forall c, hex_val c <> None -> hex c).
  { intros c N. destruct (hex_val c) as [v|] eqn:V; [|congruence]. exists v. apply hex_val_is. exact V. }
  repeat (constructor; try (apply K; discriminate)).
Qed.

(* Digits of another script, white space: what Python knows of them is [w]. *)
Example unicode_case :
  let w := Unicode (fun c => if (1632 <=? c) && (c <=? 1641) then Some (c - 1632) else None) (fun c => c =? 160) in
  UUID w ([1633; 1634] ++ lit "123456781234567812345678123456") = Some (lit "12123456-7812-3456-7812-345678123456") /\
  UUID w ([160; 1634] ++ lit "123456781234567812345678123456") = Some (lit "02123456-7812-3456-7812-345678123456") /\
  UUID w ([163; 1634] ++ lit "123456781234567812345678123456") = None.
Proof. repeat (split; [vm_compute; reflexivity|]). vm_compute. reflexivity. Qed.

Print Assumptions uuid_canonical.
Print Assumptions uuid_as_written.
Print Assumptions uuid_by_digits_partial.
Print Assumptions uuid_characters.
Print Assumptions uuid_again.
Print Assumptions uuid_distinct.
Print Assumptions uuid_only_refuted.
Print Assumptions uuid_typing_error_refuted.
