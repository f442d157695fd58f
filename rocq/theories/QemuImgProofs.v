(* Lemmas for QemuImgTheorems.v. *)
From Coq Require Import ZArith List Bool String Ascii Lia.
From Verif Require Import JsonModel JsonSpec JsonProofs JsonTheorems QemuImgModel QemuImgSpec.
Import ListNotations.
Open Scope Z_scope.

Lemma chars_inj a b : chars_of a = chars_of b -> a = b.
Proof.
  unfold chars_of. intros E. rewrite <- (string_of_list_ascii_of_string a), <- (string_of_list_ascii_of_string b).
  f_equal. revert E. generalize (list_ascii_of_string a) (list_ascii_of_string b).
  induction l as [|x l IH]; intros [|y m] E; cbn in E; try discriminate; auto. injection E as E1 E2. f_equal; auto.
  apply Nat2Z.inj in E1. rewrite <- (ascii_nat_embedding x), <- (ascii_nat_embedding y). now rewrite E1.
Qed.

Definition good (t : table) : Prop :=
  NoDup (map fst t) /\ forall a k, In (a, k) t -> is_option (chars_of a).

Lemma good_arity t a k k' : good t -> In (a, k) t -> In (a, k') t -> k = k'.
Proof.
  intros (N & _). induction t as [|(b, x) t IH]; [intros []|]. cbn [map fst] in N. inversion N as [|? ? N1 N2]; subst.
  intros [E|I] [F|J].
  - congruence.
  - injection E as -> ->. destruct N1. apply (in_map fst) in J. exact J.
  - injection F as -> ->. destruct N1. apply (in_map fst) in I. exact I.
  - auto.
Qed.

Lemma reads_unique t : good t -> forall args o f, reads t args o f -> forall o' f', reads t args o' f' -> o' = o /\ f' = f.
Proof.
  intros G args o f H. induction H as [|a args o f I H IH|a v args o f I H IH|a args o f O H IH]; intros o' f' R.
  - inversion R. auto.
  - inversion R as [|b args' o1 f1 J R1 E1|b v args' o1 f1 J R1 E1|b args' o1 f1 N R1]; subst.
    + destruct (IH _ _ R1) as [-> ->]. split; congruence.
    + apply chars_inj in E1. subst b. pose proof (good_arity _ _ _ _ G I J). discriminate.
    + destruct N. eapply G; eauto.
  - inversion R as [|b args' o1 f1 J R1 E1|b w args' o1 f1 J R1 E1|b args' o1 f1 N R1]; subst.
    + apply chars_inj in E1. subst b. pose proof (good_arity _ _ _ _ G I J). discriminate.
    + destruct (IH _ _ R1) as [-> ->]. split; congruence.
    + destruct N. eapply G; eauto.
  - inversion R as [|b args' o1 f1 J R1 E1|b w args' o1 f1 J R1 E1|b args' o1 f1 N R1]; subst.
    + destruct O. eapply G; eauto.
    + destruct O. eapply G; eauto.
    + destruct (IH _ _ R1) as [-> ->]. auto.
Qed.

Ltac good_table :=
  split; [repeat constructor; cbn; intuition discriminate|];
  let I := fresh in intros ? ? I;
  repeat (destruct I as [I|I]; [injection I as <- <-; cbn; do 2 eexists; reflexivity|]); destruct I.
Lemma good_create : good CREATE. Proof. good_table. Qed.
Lemma good_convert : good CONVERT. Proof. good_table. Qed.
Lemma good_rebase : good REBASE. Proof. good_table. Qed.
Lemma good_info : good INFO. Proof. good_table. Qed.
Lemma good_measure : good MEASURE. Proof. good_table. Qed.
Lemma good_compare : good COMPARE. Proof. good_table. Qed.
Lemma good_bitmap : good BITMAP. Proof. good_table. Qed.

Lemma nonempty_spec s v : nonempty s = Some v <-> given s v.
Proof.
  unfold nonempty, given. destruct s as [[|c r]|]; split; try discriminate.
  - intros [[= <-] N]. congruence.
  - intros [= <-]. split; [auto|discriminate].
  - intros [[= <-] _]. auto.
  - intros [E _]. discriminate.
Qed.
Lemma nonempty_none s : nonempty s = None <-> forall v, ~ given s v.
Proof.
  split.
  - intros E v G. apply nonempty_spec in G. congruence.
  - destruct (nonempty s) as [v|] eqn:E; auto. intros N. destruct (N v). now apply nonempty_spec.
Qed.

Lemma digits_no_option t n : JsonSpec.decimal t n -> ~ is_option t.
Proof.
  intros D (c & r & E). destruct (decimal_head t n D) as (x & y & F & H). subst t. injection F as <- <-. lia.
Qed.

Lemma str_int_text n : 0 <= n -> ~ is_option (str_int n) /\ integral (str_int n) n.
Proof.
  intros H. unfold str_int, int_text. replace (n <? 0) with false by lia.
  pose proof (dec_ok n H) as D. split; [|exact D]. eapply digits_no_option. apply D.
Qed.

Lemma getmember_none tar name : getmember tar name = None <-> forall x, In x tar -> m_name x <> name.
Proof.
  induction tar as [|m tar IH]; cbn [getmember]; [split; [intros _ x []|auto]|].
  destruct (getmember tar name) as [y|] eqn:E.
  - split; [discriminate|]. intros H. assert (X : Some y = None); [|discriminate X]. apply IH. intros x I. apply H. right; auto.
  - destruct (text_eqb (m_name m) name) eqn:T.
    + apply text_eqb_spec in T. split; [discriminate|]. intros H. destruct (H m (or_introl eq_refl) T).
    + split; [|auto]. intros _ x [<-|I].
      * intros X. rewrite (proj2 (text_eqb_spec _ _) X) in T. discriminate.
      * now apply IH.
Qed.

Lemma getmember_last tar name m : getmember tar name = Some m <-> last_member tar name m.
Proof.
  induction tar as [|y tar IH]; cbn [getmember].
  - split; [discriminate|]. intros (a & b & E & _). destruct a; discriminate.
  - destruct (getmember tar name) as [z|] eqn:G.
    + rewrite IH. split.
      * intros (a & b & E & H). exists (y :: a), b. split; [cbn; congruence|exact H].
      * intros (a & b & E & N & H). destruct a as [|y' a]; cbn in E.
        -- injection E as E1 E2. subst b y.
           assert (X : getmember tar name = None) by (now apply getmember_none). congruence.
        -- injection E as E1 E2. exists a, b. auto.
    + destruct (text_eqb (m_name y) name) eqn:T.
      * apply text_eqb_spec in T. split.
        -- intros [= <-]. exists [], tar. split; [reflexivity|]. split; [exact T|]. now apply getmember_none.
        -- intros (a & b & E & N & H). destruct a as [|y' a]; cbn in E; [congruence|].
           injection E as E1 E2. exfalso. apply (proj1 (getmember_none tar name) G m); [|exact N].
           rewrite E2. apply in_or_app. right; left; auto.
      * split; [discriminate|]. intros (a & b & E & N & H). destruct a as [|y' a]; cbn in E.
        -- injection E as E1 E2. subst y. rewrite (proj2 (text_eqb_spec _ _) N) in T. discriminate.
        -- injection E as E1 E2. exfalso. apply (proj1 (getmember_none tar name) G m); [|exact N].
           rewrite E2. apply in_or_app. right; left; auto.
Qed.

Lemma understood_intro name t args o files (options : string -> option text -> Prop) : good t -> reads t args o files ->
  NoDup (map fst o) -> (forall a v, In (a, v) o <-> exists s, a = chars_of s /\ options s v) ->
  understood name t (chars_of "qemu-img" :: chars_of name :: args) options files.
Proof.
  intros G R N I. exists args, o. split; [reflexivity|]. split; [exact R|]. split; [|split; [exact N|exact I]].
  intros o' f'. apply reads_unique; auto.
Qed.

(* A member never looks like an option. *)
Lemma uri_no_option filename offset size : ~ is_option (json_uri filename offset size).
Proof. intros (c & r & E). discriminate E. Qed.

Lemma uri_stands filename offset size : code_points filename -> unpaired filename ->
  stands_for (json_uri filename offset size) filename (Some (offset, size)).
Proof.
  intros C U. pose proof (member_uri filename offset size (dumps (member_nodes filename offset size)) C U eq_refl)
    as [(v & J) M].
  destruct (M v J) as (A & B & D & E & F & G).
  change (json_uri filename offset size) with (chars_of "json:" ++ dumps (member_nodes filename offset size)).
  eapply stands_part; eauto.
Qed.

Lemma json_output_spec run cmd v : prints_objects run -> json_output run cmd = inl v ->
  returncode (run cmd) = 0 /\ exists d, v = VObj d /\ NoDup (map fst d) /\ json_text (VObj d) (stdout (run cmd)).
Proof.
  intros P. unfold json_output, check. destruct (Z.eqb_spec (returncode (run cmd)) 0) as [E|E]; [|discriminate].
  destruct (P cmd E) as (d & N & J). rewrite (reads_any_json _ _ J). intros [= <-]. split; [exact E|]. exists d. auto.
Qed.

Lemma json_output_fails run cmd e : prints_objects run -> json_output run cmd = inr e ->
  e = CalledProcessError (returncode (run cmd)) /\ returncode (run cmd) <> 0.
Proof.
  intros P. unfold json_output, check. destruct (Z.eqb_spec (returncode (run cmd)) 0) as [E|E].
  - destruct (P cmd E) as (d & N & J). rewrite (reads_any_json _ _ J). discriminate.
  - intros [= <-]. auto.
Qed.

Lemma place_added d offset size : NoDup (map fst d) ->
  with_place (Some (offset, size)) d
    (VObj (assign (assign d (chars_of "member-offset") (VInt offset)) (chars_of "member-size") (VInt size))).
Proof.
  intros N. destruct (assign_in d (chars_of "member-offset") (VInt offset) N) as (N1 & _ & I1).
  destruct (assign_in _ (chars_of "member-size") (VInt size) N1) as (N2 & _ & I2).
  eexists. split; [reflexivity|]. split; [exact N2|]. intros k x. rewrite I2, I1.
  assert (D : chars_of "member-offset" <> chars_of "member-size") by discriminate.
  split.
  - intros [H|(K & [H|H])]; tauto.
  - intros [(-> & ->)|[H|H]]; tauto.
Qed.

(* Asking, for info and measure. *)
Lemma ask_spec run tars filename name (cmd : text -> list text) v : prints_objects run ->
  code_points filename -> unpaired filename ->
  match nonempty name with
  | Some m => ask_member tars filename m (fun path => json_output run (cmd path))
  | None => json_output run (cmd filename)
  end = inl v ->
  exists arg part d, part_of tars filename name part /\
    (arg = filename /\ part = None \/
     exists p, part = Some p /\ stands_for arg filename part /\ ~ is_option arg) /\
    returncode (run (cmd arg)) = 0 /\ json_text (VObj d) (stdout (run (cmd arg))) /\ with_place part d v.
Proof.
  intros P C U H. destruct (nonempty name) as [m|] eqn:E.
  - apply nonempty_spec in E as [-> M]. unfold ask_member, find_member in H.
    destruct (tars filename) as [tar|] eqn:T; [|discriminate].
    destruct (getmember tar m) as [x|] eqn:G; [|discriminate].
    destruct (json_output run (cmd (json_uri filename (m_offset x) (m_size x)))) as [w|] eqn:J; [|discriminate].
    apply json_output_spec in J as (R & d & -> & N & J); [|exact P].
    cbn [setitem] in H. injection H as <-.
    exists (json_uri filename (m_offset x) (m_size x)), (Some (m_offset x, m_size x)), d.
    split; [econstructor; eauto; now apply getmember_last|].
    split; [right; eexists; split; [reflexivity|]; split; [now apply uri_stands|apply uri_no_option]|].
    split; [exact R|]. split; [exact J|]. now apply place_added.
  - apply json_output_spec in H as (R & d & -> & N & J); [|exact P].
    exists filename, None, d.
    split. { destruct name as [[|c r]|]; [constructor|discriminate E|constructor]. }
    split; [left; auto|]. split; [exact R|]. split; [exact J|].
    exists d. auto.
Qed.

Lemma get_spec d key x : NoDup (map fst d) -> (get d key = Some x <-> In (key, x) d).
Proof.
  induction d as [|(k, y) d IH]; cbn [get map fst]; intros N.
  - split; [discriminate|intros []].
  - inversion N as [|? ? N1 N2]; subst. destruct (text_eqb k key) eqn:E.
    + apply text_eqb_spec in E. subst k. split; [intros [= ->]; left; auto|].
      intros [F|F]; [congruence|]. destruct N1. apply (in_map fst) in F. exact F.
    + rewrite IH by exact N2. split; [right; auto|]. intros [F|F]; auto.
      injection F as -> ->. rewrite (proj2 (text_eqb_spec key key) eq_refl) in E. discriminate.
Qed.

Lemma given_dec s : (exists b, nonempty s = Some b /\ given s b) \/ (nonempty s = None /\ forall v, ~ given s v).
Proof.
  destruct (nonempty s) as [b|] eqn:E.
  - left. exists b. split; auto. now apply nonempty_spec.
  - right. split; auto. now apply nonempty_none.
Qed.
Lemma given_fun s a b : given s a -> given s b -> a = b.
Proof. intros [A _] [B _]. congruence. Qed.
