(* Lemmas about the handshake. *)
From Coq Require Import ZArith List Bool String Lia.
From Coq.Init Require Import Byte.
From Verif Require Import BytesLib NbdModel NbdSpec NbdProofs HandshakeModel HandshakeSpec.
Import ListNotations.
Open Scope Z_scope.

Arguments pack : simpl never.
Arguments be : simpl never.
Arguments Z.pow : simpl never.

(* ---- bytes ---- *)

Lemma bytes_eqb_spec a b : reflect (a = b) (bytes_eqb a b).
Proof.
  revert b. induction a as [|x a IH]; intros [|y b]; cbn [bytes_eqb]; try (constructor; congruence).
  destruct (Byte.eqb x y) eqn:E; cbn [andb].
  - apply Byte.byte_dec_bl in E. subst y. destruct (IH b); constructor; congruence.
  - constructor. intros H. injection H as -> ->. rewrite (Byte.byte_dec_lb eq_refl) in E. discriminate.
Qed.

(* a received field is the number *)
Lemma u_sub o n d : 0 <= o -> 0 <= n -> o + n <= zlen d -> u n (field o n d) (sub o n d).
Proof.
  intros O N L. split.
  - rewrite zlen_sub; lia.
  - unfold field. rewrite unbe_value. auto.
Qed.

Lemma u_all n d : zlen d = n -> u n (unbe d) d.
Proof. intros <-. split; auto. rewrite unbe_value. auto. Qed.

Lemma recv_inv v n s d s' : 0 <= n -> recv v n s = (inl d, s') ->
  zlen d = n /\ s_in s = d ++ s_in s' /\ exists i, s' = set_in s (s_in s') i.
Proof.
  intros N E. destruct (Z_le_gt_dec n (zlen (s_in s))) as [L|L].
  - destruct (recv_spec v n s) as [i R]; [lia|]. rewrite R in E. injection E as <- <-.
    split; [rewrite zlen_take; lia|]. cbn [s_in set_in]. split; [rewrite take_drop; auto|]. eauto.
  - destruct (recv_short v n s) as [i R]; [lia|]. rewrite R in E. discriminate.
Qed.

Lemma recv_err v n s e s' : 0 <= n -> recv v n s = (inr e, s') ->
  e = ProtocolError /\ s_in s' = [] /\ s_out s' = s_out s.
Proof.
  intros N E. destruct (Z_le_gt_dec n (zlen (s_in s))) as [L|L].
  - destruct (recv_spec v n s) as [i R]; [lia|]. rewrite R in E. discriminate.
  - destruct (recv_short v n s) as [i R]; [lia|]. rewrite R in E. injection E as <- <-. auto.
Qed.

Lemma send_inv v d s s' : send v d s = (inl tt, s') -> s' = set_out s (s_out s ++ d) (S (s_tick s)).
Proof. unfold send. destruct (v_send v (s_tick s)); congruence. Qed.

Lemma pack_inv n x l : pack n x = inl l -> u (Z.of_nat n) x l.
Proof.
  unfold pack. destruct (0 <=? x) eqn:A; [|discriminate]. destruct (x <? 256 ^ Z.of_nat n) eqn:B; [|discriminate].
  cbn [andb]. intros E. injection E as <-. apply u_be. lia.
Qed.

Lemma pack_err n x e : pack n x = inr e -> e = StructError.
Proof. unfold pack. destruct (_ && _); congruence. Qed.

Lemma lift_inv {A} (x : A + exc) y s s' : lift x s = (inl y, s') -> x = inl y /\ s' = s.
Proof. unfold lift. intros E. split; congruence. Qed.

Lemma sub_first {A} n (l : list A) : sub 0 n l = take n l.
Proof. unfold sub. rewrite drop_nonpos by lia. auto. Qed.
Lemma sub_cut {A} (l : list A) o n m p k : 0 <= o -> 0 <= n -> 0 <= m -> p = o + n -> k = n + m ->
  sub o n l ++ sub p m l = sub o k l.
Proof. intros. subst. rewrite <- sub_split; auto. Qed.

(* state of the socket changed only *)
Definition io (s : st) (i o : list byte) (t : nat) : st :=
  St i o t (s_counter s) (s_buf s) (s_structured s) (s_errors s) (s_reply s).
Lemma io_in s i o t : s_in (io s i o t) = i. Proof. reflexivity. Qed.
Lemma io_out s i o t : s_out (io s i o t) = o. Proof. reflexivity. Qed.
Lemma io_set_in s r i : set_in s r i = io s r (s_out s) i. Proof. reflexivity. Qed.
Lemma io_set_out s o i : set_out s o i = io s (s_in s) o i. Proof. reflexivity. Qed.
Lemma io_io s i o t i' o' t' : io (io s i o t) i' o' t' = io s i' o' t'. Proof. reflexivity. Qed.
Lemma io_self s : s = io s (s_in s) (s_out s) (s_tick s). Proof. destruct s; reflexivity. Qed.

Ltac binv E := unfold bind at 1 in E;
  match type of E with
  | match ?m with _ => _ end = _ => let r := fresh "r" in let s1 := fresh "s" in let X := fresh "X" in
      destruct m as [[r|r] s1] eqn:X; [|discriminate]
  end.

(* ---- options sent ---- *)

Lemma send_option_inv v opt data s s' : send_option v opt data s = (inl tt, s') ->
  exists l t, option_bytes opt data l /\ s' = io s (s_in s) (s_out s ++ l) t.
Proof.
  unfold send_option. intros E. binv E. binv E. binv E.
  apply lift_inv in X as [X ->]. apply lift_inv in X0 as [X0 ->]. apply lift_inv in X1 as [X1 ->].
  apply pack_inv in X, X0, X1. binv E. destruct r2. apply send_inv in X2. subst s0.
  assert (B : option_bytes opt data (r ++ r0 ++ r1 ++ data)) by (exists r, r0, r1; auto).
  destruct data as [|b data].
  - injection E as <-. eexists _, _. split; [exact B|]. rewrite app_nil_r. reflexivity.
  - apply send_inv in E. subst s'. eexists _, _. split; [exact B|].
    unfold set_out, io. cbn [s_in s_out s_tick s_counter s_buf s_structured s_errors s_reply].
    rewrite <- !app_assoc. reflexivity.
Qed.

Lemma send_option_ok v opt data s : can_send v -> 0 <= opt < 2 ^ 32 -> zlen data < 2 ^ 32 ->
  exists s', send_option v opt data s = (inl tt, s').
Proof.
  intros V O D. unfold send_option, bind, lift.
  destruct (pack_spec 8 IHAVEOPT) as (a & -> & A); [cbv; intuition discriminate|].
  destruct (pack_spec 4 opt) as (b & -> & B); [lia|].
  destruct (pack_spec 4 (zlen data)) as (c & -> & C); [pose proof (zlen_nonneg data); lia|].
  rewrite send_ok by auto. destruct data; [eexists; reflexivity|]. rewrite send_ok by auto. eexists; reflexivity.
Qed.

Lemma send_option_err v opt data s e s' : send_option v opt data s = (inr e, s') ->
  (e = StructError /\ s' = s) \/ (e = OSError /\ ~ can_send v).
Proof.
  unfold send_option, bind, lift.
  destruct (pack 8 IHAVEOPT) eqn:P1; [|apply pack_err in P1; subst; cbn beta iota; intros E; injection E as <- <-; auto].
  destruct (pack 4 opt) eqn:P2; [|apply pack_err in P2; subst; cbn beta iota; intros E; injection E as <- <-; auto].
  destruct (pack 4 (zlen data)) eqn:P3; [|apply pack_err in P3; subst; cbn beta iota; intros E; injection E as <- <-; auto].
  unfold send. destruct (v_send v (s_tick s)) eqn:N.
  - intros E. injection E as <- <-. right. split; auto. intros C. rewrite (C _) in N. discriminate N.
  - destruct data; [discriminate|]. clear N. cbn beta iota. destruct (v_send v _) eqn:N2; [|discriminate].
    intros E. injection E as <- <-. right. split; auto. intros C. rewrite (C _) in N2. discriminate N2.
Qed.

(* ---- replies to options ---- *)

Lemma recv_option_reply_err v opt s e s' : recv_option_reply v opt s = (inr e, s') ->
  e = ProtocolError /\ s_out s' = s_out s /\ exists p, s_in s = p ++ s_in s'.
Proof.
  unfold recv_option_reply, bind. destruct (recv v 20 s) as [[d|e'] s1] eqn:R.
  - apply recv_inv in R as (L & I & i & S); [|lia]. destruct (_ =? OPTION_REPLY_MAGIC); cbn [negb].
    + destruct (_ =? opt); cbn [negb]; [discriminate|]. intros E. injection E as <- <-. split; auto.
      split; [rewrite S; auto|eauto].
    + intros E. injection E as <- <-. split; auto. split; [rewrite S; auto|eauto].
  - intros E. injection E as <- <-. apply recv_err in R as (-> & I & O); [|lia]. split; auto. split; auto.
    exists (s_in s). rewrite I, app_nil_r. auto.
Qed.

Lemma recv_option_reply_inv v opt s ty len s' : recv_option_reply v opt s = (inl (ty, len), s') ->
  exists hd i, s_in s = hd ++ s_in s' /\ s' = io s (s_in s') (s_out s) i /\ zlen hd = 20
  /\ 0 <= len < 2 ^ 32
  /\ forall data, zlen data = len -> option_reply_bytes opt ty data (hd ++ data).
Proof.
  unfold recv_option_reply. intros E. binv E. apply recv_inv in X as (L & I & i & S); [|lia].
  destruct (field 0 8 r =? OPTION_REPLY_MAGIC) eqn:M; [|discriminate]. cbn [negb] in E.
  destruct (field 8 4 r =? opt) eqn:O; [|discriminate]. cbn [negb] in E.
  injection E as <- <- <-. apply Z.eqb_eq in M, O.
  pose proof (u_sub 0 8 r ltac:(lia) ltac:(lia) ltac:(lia)) as U1.
  pose proof (u_sub 8 4 r ltac:(lia) ltac:(lia) ltac:(lia)) as U2.
  pose proof (u_sub 12 4 r ltac:(lia) ltac:(lia) ltac:(lia)) as U3.
  pose proof (u_sub 16 4 r ltac:(lia) ltac:(lia) ltac:(lia)) as U4.
  exists r, i. split; auto. split; [rewrite S at 1; apply io_set_in|]. split; auto.
  split; [apply u_range in U4; lia|].
  intros data D. exists (sub 0 8 r), (sub 8 4 r), (sub 12 4 r), (sub 16 4 r).
  split.
  - rewrite !app_assoc. f_equal. rewrite <- !app_assoc.
    rewrite (sub_cut r 12 4 4 16 8), (sub_cut r 8 4 8 12 12), (sub_cut r 0 8 12 8 20) by lia.
    rewrite sub_first, take_all by lia. reflexivity.
  - rewrite M in U1. rewrite O in U2. rewrite <- D in U4. auto.
Qed.

Lemma recv_option_reply_ok v opt ty data l s r : option_reply_bytes opt ty data l -> s_in s = l ++ r ->
  exists i, recv_option_reply v opt s = (inl (ty, zlen data), io s (data ++ r) (s_out s) i).
Proof.
  intros (a & b & c & d & -> & A & B & C & D) I. unfold recv_option_reply, bind.
  destruct (recv_app v 20 s (a ++ b ++ c ++ d) (data ++ r)) as [i ->].
  { rewrite !zlen_app. destruct A as [-> _], B as [-> _], C as [-> _], D as [-> _]. lia. }
  { rewrite I, <- !app_assoc. auto. }
  rewrite (field_first a (b ++ c ++ d) 8 _ A).
  rewrite (field_mid a b (c ++ d) 8 4 opt) by (auto; apply A).
  replace (a ++ b ++ c ++ d) with ((a ++ b) ++ c ++ d) by (rewrite <- !app_assoc; auto).
  rewrite (field_mid (a ++ b) c d 12 4 ty) by (auto; rewrite zlen_app; destruct A as [-> _], B as [-> _]; auto).
  replace ((a ++ b) ++ c ++ d) with ((a ++ b ++ c) ++ d) by (rewrite <- !app_assoc; auto).
  rewrite (field_end (a ++ b ++ c) d 16 4 (zlen data))
    by (auto; rewrite !zlen_app; destruct A as [-> _], B as [-> _], C as [-> _]; auto).
  change (OPTION_REPLY_MAGIC) with 0x3e889045565a9. rewrite !Z.eqb_refl. cbn [negb]. exists i. reflexivity.
Qed.

(* One successful round of reading a reply: its header, then its data. *)
Lemma is_error_false r : r = 1 \/ r = 3 \/ r = 4 -> is_error r = false.
Proof. intros [E|[E|E]]; rewrite E; reflexivity. Qed.
Lemma is_error_unsup : is_error (2 ^ 31 + 1) = true.
Proof. reflexivity. Qed.

Lemma handle_option_error_spec {A} v reply data s r : s_in s = data ++ r ->
  exists i, @handle_option_error v A reply (zlen data) s = (inr (OptionError reply), io s r (s_out s) i).
Proof.
  intros I. unfold handle_option_error, bind. destruct (zlen data =? 0) eqn:Z.
  - apply Z.eqb_eq in Z. destruct data as [|b data]; [|rewrite zlen_cons in Z; pose proof (zlen_nonneg data); lia].
    exists (s_tick s). cbn [ret raise]. rewrite (io_self s) at 1. rewrite I. reflexivity.
  - destruct (recv_app v (zlen data) s data r eq_refl I) as [i ->]. exists i. reflexivity.
Qed.

(* an error reply: its message is consumed *)
Lemma handle_option_error_inv {A} v reply len s r s' : 0 <= len ->
  @handle_option_error v A reply len s = (r, s') ->
  (exists data i, zlen data = len /\ s_in s = data ++ s_in s' /\ s' = io s (s_in s') (s_out s) i
                  /\ r = inr (OptionError reply))
  \/ (r = inr ProtocolError /\ s_in s' = [] /\ s_out s' = s_out s).
Proof.
  intros L. unfold handle_option_error, bind. destruct (len =? 0) eqn:Z.
  - cbn [ret raise]. intros E. injection E as <- <-. left. exists [], (s_tick s).
    split; [apply Z.eqb_eq in Z; auto|]. split; auto. split; auto. apply io_self.
  - destruct (recv v len s) as [[d|e] s1] eqn:R.
    + cbn [raise]. intros E. injection E as <- <-. apply recv_inv in R as (R1 & R2 & i & R3); auto. left.
      exists d, i. do 3 (split; auto).
    + intros E. injection E as <- <-. apply recv_err in R as (-> & R2 & R3); auto.
Qed.

(* ---- structured replies ---- *)

Lemma structured_inv v s b s' : negotiate_structured_reply_option v s = (inl b, s') ->
  exists o l i, option_bytes 8 [] o /\ structured_bytes b l
  /\ s_in s = l ++ s_in s' /\ s' = io s (s_in s') (s_out s ++ o) i.
Proof.
  unfold negotiate_structured_reply_option, except_unsupported, negotiate_option. unfold bind at 1 2.
  destruct (send_option v OPT_STRUCTURED_REPLY [] s) as [[[]|e] s1] eqn:S.
  2:{ apply send_option_err in S as [[-> _]|[-> _]]; discriminate. }
  apply send_option_inv in S as (o & t & O & ->).
  unfold bind at 1. destruct (recv_option_reply _ _ _) as [[[ty len]|e] s2] eqn:R.
  2:{ apply recv_option_reply_err in R as [-> _]. discriminate. }
  apply recv_option_reply_inv in R as (hd & i & I & S2 & H & L & B). rewrite io_in in I. rewrite S2, io_io, io_out in *.
  cbn [fst snd]. destruct (is_error ty) eqn:IE.
  - destruct (handle_option_error v ty len _) as [q s3] eqn:HE.
    apply handle_option_error_inv in HE as [(data & j & D & I2 & S3 & ->)|(-> & _)]; [| |lia].
    + cbn [fst snd]. destruct (ty =? REP_ERR_UNSUP) eqn:U; [|discriminate]. apply Z.eqb_eq in U. subst ty.
      unfold ret. intros E. injection E as <- <-. exists o, (hd ++ data), j. split; auto. split.
      { eapply s_unsupported. apply B; auto. }
      rewrite io_in in I2. split; [rewrite I, I2, <- app_assoc; auto|]. rewrite S3 at 1. reflexivity.
    + discriminate.
  - destruct (ty =? REP_ACK) eqn:TA; cbn [negb]; [|discriminate].
    destruct (len =? 0) eqn:L0; cbn [negb]; [|discriminate]. unfold ret.
    intros E. injection E as <- <-. apply Z.eqb_eq in TA, L0. subst ty. exists o, hd, i. split; auto. split.
    { apply s_ack. specialize (B [] (eq_sym L0)). rewrite app_nil_r in B. auto. }
    rewrite io_in. auto.
Qed.

Lemma structured_ok v s b l r : can_send v -> structured_bytes b l -> s_in s = l ++ r ->
  exists s', negotiate_structured_reply_option v s = (inl b, s') /\ s_in s' = r.
Proof.
  intros V SB I. unfold negotiate_structured_reply_option, except_unsupported, negotiate_option.
  unfold bind at 1 2. destruct (send_option_ok v OPT_STRUCTURED_REPLY [] s V) as [s1 S]; [cbv; intuition discriminate|reflexivity|].
  rewrite S. apply send_option_inv in S as (o & t & O & ->). unfold bind at 1. destruct SB as [l B|msg l B].
  - destruct (recv_option_reply_ok v OPT_STRUCTURED_REPLY 1 [] l (io s (s_in s) (s_out s ++ o) t) r B I) as [i ->].
    cbn [fst snd]. rewrite is_error_false by auto. change (zlen []) with 0. eexists. split; reflexivity.
  - destruct (recv_option_reply_ok v OPT_STRUCTURED_REPLY _ msg l (io s (s_in s) (s_out s ++ o) t) r B I) as [i ->].
    cbn [fst snd]. rewrite is_error_unsup.
    match goal with |- context [handle_option_error v ?a ?b ?t] =>
      destruct (@handle_option_error_spec unit v a msg t r eq_refl) as [j ->] end.
    cbn [fst snd]. eexists. split; reflexivity.
Qed.

(* ---- contexts ---- *)

(* What is left is never more than what was there. *)
Section Iter.
Context {A : Type}.
Variable v : env.
Variable utf8 : list byte -> bool.
Variable body : A -> list byte -> Z -> M A.
Variable f : A -> list byte -> Z -> option A.
Hypothesis body_f : forall a n i s, body a n i s =
  match f a n i with Some a' => (inl a', s) | None => (inr ProtocolError, s) end.

Fixpoint feed (a : A) (l : ctxs) : option A :=
  match l with
  | [] => Some a
  | (n, i) :: l => match f a n i with Some a' => feed a' l | None => None end
  end.

Lemma iter_inv opt fuel a a' s s' : iter_meta_context_replies v utf8 fuel opt body a s = (inl a', s') ->
  exists l cs i, contexts_bytes utf8 opt cs l /\ feed a cs = Some a'
  /\ s_in s = l ++ s_in s' /\ s' = io s (s_in s') (s_out s) i.
Proof.
  revert a s. induction fuel as [|fuel IH]; intros a s E; [discriminate|]. cbn [iter_meta_context_replies] in E.
  binv E. destruct r as [ty len]. apply recv_option_reply_inv in X as (hd & i & I & S2 & H & L & B). cbn [fst snd] in E.
  destruct (is_error ty) eqn:IE.
  - unfold except_unsupported in E. destruct (handle_option_error v ty len s0) as [q s3] eqn:HE.
    apply handle_option_error_inv in HE as [(data & j & D & I2 & S3 & ->)|(-> & _)]; [| |lia].
    + destruct (ty =? REP_ERR_UNSUP) eqn:U; [|discriminate]. apply Z.eqb_eq in U. subst ty.
      injection E as <- <-. exists (hd ++ data), [], j. split; [eapply c_unsupported; apply B; auto|]. split; auto.
      split; [rewrite I, I2, <- app_assoc; auto|]. rewrite S3 at 1. rewrite S2. reflexivity.
    + discriminate.
  - destruct (ty =? REP_ACK) eqn:TA.
    + destruct (len =? 0) eqn:L0; cbn [negb] in E; [|discriminate]. injection E as <- <-.
      apply Z.eqb_eq in TA, L0. subst ty. exists hd, [], i. split.
      { apply c_ack. specialize (B [] (eq_sym L0)). rewrite app_nil_r in B. auto. }
      auto.
    + destruct (ty =? REP_META_CONTEXT) eqn:TM; cbn [negb] in E; [|discriminate]. apply Z.eqb_eq in TM. subst ty.
      binv E. destruct r as [n id]. cbn [fst snd] in E. unfold recv_meta_context_reply in X.
      destruct (len <? 4) eqn:L4; [discriminate|]. apply Z.ltb_ge in L4. binv X.
      destruct (utf8 (drop 4 r)) eqn:UT; [|discriminate]. injection X as <- <- <-.
      apply recv_inv in X0 as (RL & RI & j & RS); [|lia].
      unfold bind in E. rewrite body_f in E. destruct (f a (drop 4 r) (field 0 4 r)) as [a1|] eqn:F; [|discriminate].
      apply IH in E as (l & cs & k & C & FE & I3 & S3).
      exists ((hd ++ r) ++ l), ((drop 4 r, field 0 4 r) :: cs), k. split.
      { eapply (c_context utf8 opt (drop 4 r) (field 0 4 r) (take 4 r)); auto.
        - pose proof (u_sub 0 4 r ltac:(lia) ltac:(lia) ltac:(lia)) as U. rewrite sub_first in U. auto.
        - rewrite take_drop. apply B. auto. }
      split; [cbn [feed]; rewrite F; auto|]. split; [rewrite I, RI, I3, <- !app_assoc; auto|].
      rewrite S3 at 1. rewrite RS. rewrite S2. reflexivity.
Qed.

Lemma iter_ok opt cs l a a' r : contexts_bytes utf8 opt cs l -> feed a cs = Some a' ->
  forall fuel s, (List.length cs < fuel)%nat -> s_in s = l ++ r ->
  exists s', iter_meta_context_replies v utf8 fuel opt body a s = (inl a', s') /\ s_in s' = r.
Proof.
  intros C. revert a. induction C as [l B|msg l B|n id ab l cs m U UT B C IH]; intros a F fuel s N I;
    (destruct fuel as [|fuel]; [cbn in N; lia|]); cbn [iter_meta_context_replies]; unfold bind at 1.
  - injection F as <-. destruct (recv_option_reply_ok v _ _ _ _ s r B I) as [i ->]. cbn [fst snd].
    rewrite is_error_false by auto. change (zlen []) with 0. eexists. split; reflexivity.
  - injection F as <-. destruct (recv_option_reply_ok v _ _ _ _ s r B I) as [i ->]. cbn [fst snd].
    rewrite is_error_unsup. unfold except_unsupported.
    match goal with |- context [handle_option_error v ?a ?b ?t] =>
      destruct (@handle_option_error_spec A v a msg t r eq_refl) as [j ->] end.
    eexists. split; reflexivity.
  - cbn [feed] in F. destruct (f a n id) as [a1|] eqn:FA; [|discriminate]. rewrite <- app_assoc in I.
    destruct (recv_option_reply_ok v _ _ _ _ s _ B I) as [i ->]. cbn [fst snd].
    rewrite is_error_false by auto. change (4 =? REP_ACK) with false. change (4 =? REP_META_CONTEXT) with true. cbn [negb].
    unfold bind at 1. unfold recv_meta_context_reply.
    assert (zlen ab = 4) as Z4 by apply U.
    rewrite zlen_app, Z4. replace (4 + zlen n <? 4) with false by (pose proof (zlen_nonneg n); lia).
    unfold bind at 1.
    match goal with |- context [recv v ?x ?t] =>
      destruct (recv_app v x t (ab ++ n) (m ++ r)) as [j ->]; [rewrite zlen_app; lia|reflexivity|] end.
    rewrite drop_app, drop_all by lia. rewrite Z4. change (4 - 4) with 0. rewrite drop_nonpos by lia. cbn [app].
    rewrite UT. rewrite (field_first ab n 4 id U). cbn [fst snd ret]. unfold bind at 1. rewrite body_f, FA.
    apply IH; auto. cbn [List.length] in N. lia.
Qed.
End Iter.

Lemma contexts_len utf8 opt cs l : contexts_bytes utf8 opt cs l -> (List.length cs <= List.length l)%nat.
Proof.
  induction 1 as [| |n id ab l cs m U UT B C IH]; cbn [List.length]; try lia.
  rewrite app_length. destruct B as (a & b & c & d & -> & A & _). destruct A as [A _].
  rewrite !app_length. destruct a; [discriminate|]. cbn [List.length]. lia.
Qed.

(* ---- data of options ---- *)

Lemma format_queries_inv qs l : format_queries qs = inl l -> strings_bytes qs l.
Proof.
  revert l. induction qs as [|q qs IH]; intros l E; cbn [format_queries] in E.
  - injection E as <-. constructor.
  - destruct (pack 4 (zlen q)) as [a|] eqn:P; [|discriminate]. destruct (format_queries qs) as [b|]; [|discriminate].
    injection E as <-. apply pack_inv in P. rewrite app_assoc. constructor; [exists a; auto|auto].
Qed.

Lemma format_meta_inv name qs l : format_meta_context_data name qs = inl l -> meta_data name qs l.
Proof.
  unfold format_meta_context_data. destruct (pack 4 (zlen name)) as [a|] eqn:P1; [|discriminate].
  destruct (pack 4 (zlen qs)) as [b|] eqn:P2; [|discriminate].
  destruct (format_queries qs) as [c|] eqn:P3; [|discriminate]. intros E. injection E as <-.
  apply pack_inv in P1, P2. apply format_queries_inv in P3. exists (a ++ name), b, c. rewrite <- app_assoc.
  repeat (split; auto). exists a; auto.
Qed.

Definition size_of (qs : list (list byte)) : Z := fold_right (fun q n => 4 + zlen q + n) 0 qs.
Lemma size_of_nonneg qs : 0 <= size_of qs.
Proof. induction qs; unfold size_of; cbn [fold_right]; [lia|]. fold (size_of qs). pose proof (zlen_nonneg a). lia. Qed.
Lemma size_of_len qs : zlen qs <= size_of qs.
Proof. induction qs; unfold size_of; cbn [fold_right]; [cbn; lia|]. rewrite zlen_cons. fold (size_of qs). pose proof (zlen_nonneg a). lia. Qed.

Lemma format_queries_ok qs : size_of qs < 2 ^ 32 ->
  exists l, format_queries qs = inl l /\ zlen l = size_of qs.
Proof.
  induction qs as [|q qs IH]; intros H; cbn [format_queries].
  - exists []. auto.
  - unfold size_of in *. cbn [fold_right] in *. fold (size_of qs) in *. pose proof (size_of_nonneg qs). pose proof (zlen_nonneg q).
    destruct IH as (l & -> & L); [lia|]. destruct (pack_spec 4 (zlen q)) as (a & -> & U); [lia|].
    eexists. split; [reflexivity|]. rewrite !zlen_app, L. destruct U as [-> _]. lia.
Qed.

Lemma format_meta_ok name qs : zlen name + size_of qs + 8 < 2 ^ 32 ->
  exists l, format_meta_context_data name qs = inl l /\ zlen l < 2 ^ 32.
Proof.
  intros H. unfold format_meta_context_data. pose proof (size_of_nonneg qs). pose proof (size_of_len qs).
  pose proof (zlen_nonneg name). pose proof (zlen_nonneg qs).
  destruct (pack_spec 4 (zlen name)) as (a & -> & U); [lia|].
  destruct (pack_spec 4 (zlen qs)) as (b & -> & W); [lia|].
  destruct (format_queries_ok qs) as (c & -> & L); [lia|].
  eexists. split; [reflexivity|]. rewrite !zlen_app, L. destruct U as [-> _], W as [-> _]. lia.
Qed.

Lemma format_go_inv name l : format_go_option_data name = inl l -> go_data name l.
Proof.
  unfold format_go_option_data. destruct (pack 4 (zlen name)) as [a|] eqn:P1; [|discriminate].
  destruct (pack 2 0) as [b|] eqn:P2; [|discriminate]. intros E. injection E as <-.
  apply pack_inv in P1, P2. exists (a ++ name), b. rewrite <- app_assoc. repeat (split; auto). exists a; auto.
Qed.

Lemma format_go_ok name : zlen name + 6 < 2 ^ 32 ->
  exists l, format_go_option_data name = inl l /\ zlen l < 2 ^ 32.
Proof.
  intros H. unfold format_go_option_data. pose proof (zlen_nonneg name).
  destruct (pack_spec 4 (zlen name)) as (a & -> & U); [lia|].
  destruct (pack_spec 2 0) as (b & -> & W); [lia|].
  eexists. split; [reflexivity|]. rewrite !zlen_app. destruct U as [-> _], W as [-> _]. lia.
Qed.

(* ---- the dirty bitmap ---- *)

Definition only (l : ctxs) : option (list byte) := match l with [(n, _)] => Some n | _ => None end.

Lemma feed_list cs a : feed (fun l n i => Some (l ++ [(n, i)])) a cs = Some (a ++ cs).
Proof.
  revert a. induction cs as [|[n i] cs IH]; intros a; cbn [feed]; [rewrite app_nil_r; auto|].
  rewrite IH, <- app_assoc. auto.
Qed.

Lemma query_inv v utf8 name s b s' : query_dirty_bitmap v utf8 name s = (inl b, s') ->
  exists d o l cs i, meta_data name [list_byte_of_string "qemu:dirty-bitmap:"] d /\ option_bytes 9 d o
  /\ contexts_bytes utf8 9 cs l /\ b = only cs
  /\ s_in s = l ++ s_in s' /\ s' = io s (s_in s') (s_out s ++ o) i.
Proof.
  unfold query_dirty_bitmap. intros E. binv E. apply lift_inv in X as [X ->]. apply format_meta_inv in X.
  binv E. destruct r0. apply send_option_inv in X0 as (o & t & O & ->).
  unfold bind at 1 in E. cbn [get] in E. binv E.
  apply iter_inv with (f := fun l n i => Some (l ++ [(n, i)])) in X0; [|reflexivity].
  destruct X0 as (l & cs & i & C & F & I & S). rewrite feed_list in F. injection F as <-. cbn [app] in E.
  rewrite io_in in I. rewrite io_io, io_out in S.
  exists r, o, l, cs, i. split; auto. split; auto. split; auto.
  assert (b = only cs /\ s' = s0) as [-> ->].
  { destruct cs as [|[n id] [|]]; injection E as <- <-; auto. }
  auto.
Qed.

Lemma query_ok v utf8 name s cs l r : can_send v -> zlen name + 30 < 2 ^ 32 ->
  contexts_bytes utf8 9 cs l -> s_in s = l ++ r ->
  exists s', query_dirty_bitmap v utf8 name s = (inl (only cs), s') /\ s_in s' = r.
Proof.
  intros V N C I. unfold query_dirty_bitmap.
  destruct (format_meta_ok name [utf8_bytes QEMU_DIRTY_BITMAP]) as (d & D & LD); [cbn; lia|].
  unfold bind at 1. unfold lift. rewrite D. unfold bind at 1.
  destruct (send_option_ok v OPT_LIST_META_CONTEXT d s V) as [s1 S]; [cbv; intuition discriminate|auto|].
  rewrite S. apply send_option_inv in S as (o & t & O & ->). unfold bind at 1. cbn [get]. unfold bind at 1.
  destruct (iter_ok v utf8 (fun l n i => ret (l ++ [(n, i)])) (fun l n i => Some (l ++ [(n, i)])) (fun _ _ _ _ => eq_refl)
              9 cs l [] cs r C (feed_list cs []) (rounds (io s (s_in s) (s_out s ++ o) t))
              (io s (s_in s) (s_out s ++ o) t)) as (s2 & E & I2).
  { unfold rounds. rewrite io_in, I, app_length. pose proof (contexts_len _ _ _ _ C). lia. }
  { auto. }
  change OPT_LIST_META_CONTEXT with 9. rewrite E. exists s2. split; auto.
  destruct cs as [|[n id] [|]]; reflexivity.
Qed.

(* ---- selecting contexts ---- *)

Lemma wanted_spec b n : existsb (bytes_eqb n) (wanted_contexts b) = true <->
  n = list_byte_of_string "base:allocation" \/ n = list_byte_of_string "qemu:allocation-depth"
  \/ (b = Some n /\ n <> []).
Proof.
  unfold wanted_contexts, utf8_bytes, BASE_ALLOCATION, QEMU_ALLOCATION_DEPTH.
  rewrite existsb_exists. split.
  - intros (x & IN & E). destruct (bytes_eqb_spec n x) as [->|]; [|discriminate].
    apply in_app_or in IN as [IN|IN].
    + destruct IN as [<-|[<-|[]]]; auto.
    + destruct b as [[|y l]|]; try contradiction. destruct IN as [<-|[]]. right; right. split; auto. discriminate.
  - intros H. exists n. split; [|destruct (bytes_eqb_spec n n); auto].
    apply in_or_app. destruct H as [->|[->|[-> H]]].
    + left; left; auto.
    + left; right; left; auto.
    + right. destruct n; [congruence|left; auto].
Qed.

Definition select (b : option (list byte)) (a : ctxs * option (list byte)) (n : list byte) (i : Z)
  : option (ctxs * option (list byte)) :=
  if existsb (bytes_eqb n) (wanted_contexts b)
  then Some ((n, i) :: fst a, match b with Some x => if bytes_eqb n x then Some x else snd a | None => snd a end)
  else None.

Definition chosen (b : option (list byte)) (cs : ctxs) (d : option (list byte)) : option (list byte) :=
  match b with
  | Some x => if existsb (fun p => bytes_eqb (fst p) x) cs then Some x else d
  | None => d
  end.

Lemma feed_select b cs a : Forall (fun p => existsb (bytes_eqb (fst p)) (wanted_contexts b) = true) cs ->
  feed (select b) a cs = Some (rev cs ++ fst a, chosen b cs (snd a)).
Proof.
  revert a. induction cs as [|[n i] cs IH]; intros a F; cbn [feed].
  - destruct a as [l d]. cbn. destruct b; auto.
  - inversion F as [|x y F1 F2]; subst. cbn [fst] in F1. unfold select at 1. rewrite F1.
    rewrite IH by auto. cbn [fst snd rev]. rewrite <- app_assoc. cbn [app]. do 2 f_equal.
    unfold chosen. destruct b as [x|]; auto. cbn [existsb fst]. destruct (bytes_eqb n x); cbn [orb]; auto.
    destruct (existsb _ cs); auto.
Qed.

Lemma feed_select_inv b cs a a' : feed (select b) a cs = Some a' ->
  Forall (fun p => existsb (bytes_eqb (fst p)) (wanted_contexts b) = true) cs
  /\ a' = (rev cs ++ fst a, chosen b cs (snd a)).
Proof.
  intros E. assert (Forall (fun p => existsb (bytes_eqb (fst p)) (wanted_contexts b) = true) cs) as F.
  { revert a E. induction cs as [|[n i] cs IH]; intros a E; auto. cbn [feed] in E. unfold select at 1 in E.
    destruct (existsb (bytes_eqb n) (wanted_contexts b)) eqn:X; [|discriminate]. constructor; eauto. }
  split; auto. rewrite feed_select in E by auto. congruence.
Qed.

Lemma set_inv v utf8 name b s x s' : set_meta_context v utf8 name b s = (inl x, s') ->
  exists d o l cs i, meta_data name (wanted_contexts b) d /\ option_bytes 10 d o
  /\ contexts_bytes utf8 10 cs l
  /\ Forall (fun p => existsb (bytes_eqb (fst p)) (wanted_contexts b) = true) cs
  /\ x = (rev cs, chosen b cs None)
  /\ s_in s = l ++ s_in s' /\ s' = io s (s_in s') (s_out s ++ o) i.
Proof.
  unfold set_meta_context. intros E. binv E. apply lift_inv in X as [X ->]. apply format_meta_inv in X.
  binv E. destruct r0. apply send_option_inv in X0 as (o & t & O & ->).
  unfold bind at 1 in E. cbn [get] in E.
  apply iter_inv with (f := select b) in E.
  2:{ intros a n i st. unfold select. destruct (existsb _ _); reflexivity. }
  destruct E as (l & cs & i & C & F & I & S). apply feed_select_inv in F as [F ->]. cbn [fst snd]. rewrite app_nil_r.
  rewrite io_in in I. rewrite io_io, io_out in S.
  exists r, o, l, cs, i. do 5 (split; [auto|]). auto.
Qed.

Lemma set_ok v utf8 name b s cs l r : can_send v -> zlen name + size_of (wanted_contexts b) + 8 < 2 ^ 32 ->
  contexts_bytes utf8 10 cs l -> Forall (fun p => existsb (bytes_eqb (fst p)) (wanted_contexts b) = true) cs ->
  s_in s = l ++ r ->
  exists s', set_meta_context v utf8 name b s = (inl (rev cs, chosen b cs None), s') /\ s_in s' = r.
Proof.
  intros V N C F I. unfold set_meta_context.
  destruct (format_meta_ok name (wanted_contexts b) N) as (d & D & LD).
  unfold bind at 1. unfold lift. rewrite D. unfold bind at 1.
  destruct (send_option_ok v OPT_SET_META_CONTEXT d s V) as [s1 S]; [cbv; intuition discriminate|auto|].
  rewrite S. apply send_option_inv in S as (o & t & O & ->). unfold bind at 1. cbn [get].
  match goal with |- context [iter_meta_context_replies v utf8 ?n ?p ?bd ?a ?t] =>
    destruct (iter_ok v utf8 bd (select b) ltac:(intros a0 n0 i0 st0; unfold select; destruct (existsb _ _); reflexivity)
              10 cs l a (rev cs, chosen b cs None) r C ltac:(rewrite feed_select by auto; cbn [fst snd]; rewrite app_nil_r; auto)
              n t) as (s2 & E & I2) end.
  { unfold rounds. rewrite io_in, I, app_length. pose proof (contexts_len _ _ _ _ C). lia. }
  { auto. }
  eauto.
Qed.

(* ---- GO ---- *)

Definition export_step (e : option (Z * Z)) (i : info) := match i with Export s f => Some (s, f) | _ => e end.
Definition blocks_step (b : Z * Z * Z) (i : info) := match i with BlockSize x y z => (x, y, z) | _ => b end.
Definition export_after e infos := fold_left export_step infos e.
Definition blocks_after b infos := fold_left blocks_step infos b.

Lemma go_inv v fuel e b s x s' : go_replies v fuel e b s = (inl x, s') ->
  exists l infos i, infos_bytes infos l /\ x = (export_after e infos, blocks_after b infos)
  /\ export_after e infos <> None
  /\ s_in s = l ++ s_in s' /\ s' = io s (s_in s') (s_out s) i.
Proof.
  revert e b s. induction fuel as [|fuel IH]; intros e b s E; [discriminate|]. cbn [go_replies] in E.
  binv E. destruct r as [ty len]. apply recv_option_reply_inv in X as (hd & i & I & S2 & H & L & B). cbn [fst snd] in E.
  destruct (is_error ty) eqn:IE.
  { apply handle_option_error_inv in E as [(data & j & D & I2 & S3 & ?)|(? & _)]; [discriminate|discriminate|lia]. }
  destruct (ty =? REP_ACK) eqn:TA.
  - destruct (len =? 0) eqn:L0; cbn [negb] in E; [|discriminate]. destruct e as [e0|]; [|discriminate].
    injection E as <- <-. apply Z.eqb_eq in TA, L0. subst ty. exists hd, [], i. split.
    { apply g_ack. specialize (B [] (eq_sym L0)). rewrite app_nil_r in B. auto. }
    split; auto. split; [discriminate|auto].
  - destruct (ty =? REP_INFO) eqn:TI; cbn [negb] in E; [|discriminate]. apply Z.eqb_eq in TI. subst ty.
    destruct (len <? 2) eqn:L2; [discriminate|]. apply Z.ltb_ge in L2. binv E.
    apply recv_inv in X as (RL & RI & j & RS); [|lia]. pose proof (u_all 2 r RL) as UR.
    destruct (unbe r =? INFO_EXPORT) eqn:IX; [|destruct (unbe r =? INFO_BLOCK_SIZE) eqn:IB].
    + destruct (len - 2 =? 10) eqn:L10; cbn [negb] in E; [|discriminate]. apply Z.eqb_eq in IX, L10. binv E.
      apply recv_inv in X as (RL2 & RI2 & j2 & RS2); [|lia].
      apply IH in E as (l & infos & k & G & -> & NE & I3 & S3).
      exists ((hd ++ r ++ r0) ++ l), (Export (field 0 8 r0) (field 8 2 r0) :: infos), k. split.
      { eapply (g_info _ (r ++ r0)); [| |exact G].
        - replace r0 with (sub 0 8 r0 ++ sub 8 2 r0) at 3
            by (rewrite (sub_cut r0 0 8 2 8 10), sub_first, take_all by lia; auto).
          constructor; [rewrite IX in UR; exact UR|apply u_sub; lia|apply u_sub; lia].
        - apply B. rewrite zlen_app. lia. }
      split; [reflexivity|]. split; [exact NE|]. split; [rewrite I, RI, RI2, I3, <- !app_assoc; auto|].
      rewrite S3 at 1. rewrite RS2, RS, S2. reflexivity.
    + destruct (len - 2 =? 12) eqn:L12; cbn [negb] in E; [|discriminate]. apply Z.eqb_eq in IB, L12. binv E.
      apply recv_inv in X as (RL2 & RI2 & j2 & RS2); [|lia].
      apply IH in E as (l & infos & k & G & -> & NE & I3 & S3).
      exists ((hd ++ r ++ r0) ++ l), (BlockSize (field 0 4 r0) (field 4 4 r0) (field 8 4 r0) :: infos), k. split.
      { eapply (g_info _ (r ++ r0)); [| |exact G].
        - replace r0 with (sub 0 4 r0 ++ sub 4 4 r0 ++ sub 8 4 r0) at 4
            by (rewrite (sub_cut r0 4 4 4 8 8), (sub_cut r0 0 4 8 4 12), sub_first, take_all by lia; auto).
          constructor; [rewrite IB in UR; exact UR|apply u_sub; lia|apply u_sub; lia|apply u_sub; lia].
        - apply B. rewrite zlen_app. lia. }
      split; [reflexivity|]. split; [exact NE|]. split; [rewrite I, RI, RI2, I3, <- !app_assoc; auto|].
      rewrite S3 at 1. rewrite RS2, RS, S2. reflexivity.
    + binv E. apply recv_inv in X as (RL2 & RI2 & j2 & RS2); [|lia].
      apply IH in E as (l & infos & k & G & -> & NE & I3 & S3).
      exists ((hd ++ r ++ r0) ++ l), (OtherInfo (unbe r) r0 :: infos), k. split.
      { eapply (g_info _ (r ++ r0)); [| |exact G].
        - apply Z.eqb_neq in IX, IB. constructor; auto.
        - apply B. rewrite zlen_app. lia. }
      split; [reflexivity|]. split; [exact NE|]. split; [rewrite I, RI, RI2, I3, <- !app_assoc; auto|].
      rewrite S3 at 1. rewrite RS2, RS, S2. reflexivity.
Qed.

Lemma go_ok v infos l : infos_bytes infos l ->
  forall fuel e b s r, export_after e infos <> None -> (List.length infos < fuel)%nat -> s_in s = l ++ r ->
  exists s', go_replies v fuel e b s = (inl (export_after e infos, blocks_after b infos), s') /\ s_in s' = r.
Proof.
  induction 1 as [l B|i d l infos m ID B G IH]; intros fuel e b s r NE N I;
    (destruct fuel as [|fuel]; [cbn in N; lia|]); cbn [go_replies]; unfold bind at 1.
  - destruct (recv_option_reply_ok v OPT_GO _ _ _ s r B I) as [j ->]. cbn [fst snd].
    rewrite is_error_false by auto. change (zlen []) with 0. cbn [export_after blocks_after fold_left] in *.
    destruct e; [|congruence]. eexists. split; reflexivity.
  - rewrite <- app_assoc in I. destruct (recv_option_reply_ok v OPT_GO _ _ _ s _ B I) as [j ->]. cbn [fst snd].
    rewrite is_error_false by auto. change (3 =? REP_ACK) with false. change (3 =? REP_INFO) with true. cbn [negb].
    cbn [List.length] in N.
    destruct ID as [sz fl a0 b0 c0 U1 U2 U3|x y z a0 b0 c0 d0 U1 U2 U3 U4|t dd a0 T0 T3 U1].
    + pose proof (proj1 U1) as Z1. pose proof (proj1 U2) as Z2. pose proof (proj1 U3) as Z3.
      rewrite !zlen_app. rewrite Z1, Z2, Z3. change (2 + (8 + 2) <? 2) with false. cbn iota.
      unfold bind at 1.
      match goal with |- context [recv v 2 ?t] =>
        destruct (recv_app v 2 t a0 ((b0 ++ c0) ++ m ++ r)) as [k ->]; [auto|cbn [io s_in]; rewrite <- !app_assoc; auto|] end.
      rewrite (unbe_u 2 0 a0 U1). change (0 =? INFO_EXPORT) with true. cbn iota.
      change (negb (2 + (8 + 2) - 2 =? 10)) with false. cbn iota. unfold bind at 1.
      match goal with |- context [recv v 10 ?t] =>
        destruct (recv_app v 10 t (b0 ++ c0) (m ++ r)) as [k2 ->]; [rewrite zlen_app; lia|auto|] end.
      rewrite (field_first b0 c0 8 sz U2), (field_end b0 c0 8 2 fl Z2 U3).
      apply IH; auto. lia.
    + pose proof (proj1 U1) as Z1. pose proof (proj1 U2) as Z2. pose proof (proj1 U3) as Z3. pose proof (proj1 U4) as Z4.
      rewrite !zlen_app. rewrite Z1, Z2, Z3, Z4. change (2 + (4 + (4 + 4)) <? 2) with false. cbn iota.
      unfold bind at 1.
      match goal with |- context [recv v 2 ?t] =>
        destruct (recv_app v 2 t a0 ((b0 ++ c0 ++ d0) ++ m ++ r)) as [k ->]; [auto|cbn [io s_in]; rewrite <- !app_assoc; auto|] end.
      rewrite (unbe_u 2 3 a0 U1). change (3 =? INFO_EXPORT) with false. change (3 =? INFO_BLOCK_SIZE) with true. cbn iota.
      change (negb (2 + (4 + (4 + 4)) - 2 =? 12)) with false. cbn iota. unfold bind at 1.
      match goal with |- context [recv v 12 ?t] =>
        destruct (recv_app v 12 t (b0 ++ c0 ++ d0) (m ++ r)) as [k2 ->]; [rewrite !zlen_app; lia|auto|] end.
      rewrite (field_first b0 (c0 ++ d0) 4 x U2), (field_mid b0 c0 d0 4 4 y Z2 U3).
      rewrite (app_assoc b0 c0 d0), (field_end (b0 ++ c0) d0 8 4 z) by (auto; rewrite zlen_app; lia).
      apply IH; auto. lia.
    + pose proof (proj1 U1) as Z1. pose proof (zlen_nonneg dd). rewrite !zlen_app, Z1.
      replace (2 + zlen dd <? 2) with false by lia. unfold bind at 1.
      match goal with |- context [recv v 2 ?t] =>
        destruct (recv_app v 2 t a0 (dd ++ m ++ r)) as [k ->]; [auto|cbn [io s_in]; rewrite <- !app_assoc; auto|] end.
      rewrite (unbe_u 2 t a0 U1). replace (t =? INFO_EXPORT) with false by (symmetry; apply Z.eqb_neq; auto).
      replace (t =? INFO_BLOCK_SIZE) with false by (symmetry; apply Z.eqb_neq; auto). unfold bind at 1.
      match goal with |- context [recv v ?n ?t] =>
        destruct (recv_app v n t dd (m ++ r)) as [k2 ->]; [lia|auto|] end.
      apply IH; auto. lia.
Qed.

Lemma infos_len infos l : infos_bytes infos l -> (List.length infos <= List.length l)%nat.
Proof.
  induction 1 as [|i d l infos m ID B G IH]; cbn [List.length]; try lia.
  rewrite app_length. destruct B as (a & b & c & e & -> & A & _). destruct A as [A _].
  rewrite !app_length. destruct a; [discriminate|]. cbn [List.length]. lia.
Qed.

Definition default_blocks := (1, 4096, 33554432).

Lemma negotiate_go_inv v name s x s' : negotiate_go_option v name s = (inl x, s') ->
  exists d o l infos i, go_data name d /\ option_bytes 7 d o /\ infos_bytes infos l
  /\ x = (export_after None infos, blocks_after default_blocks infos) /\ export_after None infos <> None
  /\ s_in s = l ++ s_in s' /\ s' = io s (s_in s') (s_out s ++ o) i.
Proof.
  unfold negotiate_go_option. intros E. binv E. apply lift_inv in X as [X ->]. apply format_go_inv in X.
  binv E. destruct r0. apply send_option_inv in X0 as (o & t & O & ->).
  unfold bind at 1 in E. cbn [get] in E. apply go_inv in E as (l & infos & i & G & -> & NE & I & S).
  rewrite io_in in I. rewrite io_io, io_out in S.
  exists r, o, l, infos, i. do 5 (split; [auto|]). auto.
Qed.

Lemma negotiate_go_ok v name s infos l r : can_send v -> zlen name + 6 < 2 ^ 32 ->
  infos_bytes infos l -> export_after None infos <> None -> s_in s = l ++ r ->
  exists s', negotiate_go_option v name s = (inl (export_after None infos, blocks_after default_blocks infos), s')
  /\ s_in s' = r.
Proof.
  intros V N G NE I. unfold negotiate_go_option. destruct (format_go_ok name N) as (d & D & LD).
  unfold bind at 1. unfold lift. rewrite D. unfold bind at 1.
  destruct (send_option_ok v OPT_GO d s V) as [s1 S]; [cbv; intuition discriminate|auto|].
  rewrite S. apply send_option_inv in S as (o & t & O & ->). unfold bind at 1. cbn [get].
  apply (go_ok v infos l G _ None default_blocks); auto.
  unfold rounds. rewrite io_in, I, app_length. pose proof (infos_len _ _ G). lia.
Qed.

(* ---- the whole handshake ---- *)

Definition outcome_of (dirty : bool) (a : answers) : handshaken :=
  Handshaken (a_structured a) (rev (a_set a)) (chosen (bitmap dirty a) (a_set a) None)
    (export_after None (a_infos a)) (blocks_after default_blocks (a_infos a)).

Lemma wanted_queries dirty a : wanted_contexts (bitmap dirty a) = queries dirty a.
Proof.
  unfold wanted_contexts, queries, utf8_bytes. f_equal. destruct (bitmap dirty a) as [[|x l]|]; auto.
Qed.
Lemma wanted_asked dirty a n : existsb (bytes_eqb n) (wanted_contexts (bitmap dirty a)) = true <-> asked dirty a n.
Proof. apply wanted_spec. Qed.
Lemma bitmap_only a : bitmap true a = only (a_listed a).
Proof. unfold bitmap, only. destruct (a_listed a) as [|[n i] [|]]; auto. Qed.

Lemma export_after_some e infos : export_after e infos <> None <->
  e <> None \/ exists s f, In (Export s f) infos.
Proof.
  unfold export_after. revert e. induction infos as [|i infos IH]; intros e; cbn [fold_left].
  - split; auto. intros [H|(? & ? & [])]; auto.
  - rewrite IH. destruct i; cbn [export_step]; split.
    + intros _. right. eexists _, _. left. reflexivity.
    + intros _. left. discriminate.
    + intros [H|(s & f & H)]; auto. right. exists s, f. right. auto.
    + intros [H|(s & f & [H|H])]; auto; [discriminate|]. right. eauto.
    + intros [H|(s & f & H)]; auto. right. exists s, f. right. auto.
    + intros [H|(s & f & [H|H])]; auto; [discriminate|]. right. eauto.
Qed.

Lemma land_odd x : (Z.land x 1 =? 0) = negb (Z.odd x).
Proof. change 1 with (2 ^ 0). rewrite land_pow2 by lia. rewrite Z.bit0_odd. auto. Qed.

Lemma handshake_inv v utf8 name dirty s h s' :
  newstyle_handshake v utf8 name dirty s = (inl h, s') ->
  exists a l o i, server_bytes utf8 dirty a l /\ client_bytes name dirty a o /\ h = outcome_of dirty a
  /\ s_in s = l ++ s_in s' /\ s' = io s (s_in s') (s_out s ++ o) i.
Proof.
  unfold newstyle_handshake. intros E. binv E. apply recv_inv in X as (L & I & i & S); [|lia].
  destruct (field 0 8 r =? NBDMAGIC) eqn:M1; [|discriminate]. cbn [negb] in E.
  destruct (field 8 8 r =? IHAVEOPT) eqn:M2; [|discriminate]. cbn [negb] in E.
  change FLAG_FIXED_NEWSTYLE with 1 in E. rewrite land_odd in E.
  destruct (Z.odd (field 16 2 r)) eqn:OD; [|discriminate]. cbn [negb] in E. apply Z.eqb_eq in M1, M2.
  assert (HB : hello_bytes r).
  { exists (sub 0 8 r), (sub 8 8 r), (sub 16 2 r), (field 16 2 r). split.
    - rewrite (sub_cut r 8 8 2 16 10), (sub_cut r 0 8 10 8 18), sub_first, take_all by lia. auto.
    - pose proof (u_sub 0 8 r ltac:(lia) ltac:(lia) ltac:(lia)) as U1. rewrite M1 in U1.
      pose proof (u_sub 8 8 r ltac:(lia) ltac:(lia) ltac:(lia)) as U2. rewrite M2 in U2.
      pose proof (u_sub 16 2 r ltac:(lia) ltac:(lia) ltac:(lia)) as U3. auto. }
  binv E. apply lift_inv in X as [X ->]. apply pack_inv in X.
  binv E. destruct r1. apply send_inv in X0. rewrite io_set_out in X0. rewrite S, io_set_in, io_io in X0. cbn [s_out io] in X0.
  binv E. apply structured_inv in X1 as (o1 & l1 & t1 & O1 & B1 & I1 & S1). subst s1. rewrite io_io, io_out in S1. cbn [s_in io] in I1.
  rename r1 into st. binv E. rename r1 into meta.
  binv E. rename r1 into go. injection E as <- <-.
  apply negotiate_go_inv in X1 as (d2 & o2 & l2 & infos & t2 & GD & O2 & B2 & -> & NE & I2 & S2). cbn [fst snd].
  rewrite export_after_some in NE. assert (NE' : exists size flags, In (Export size flags) infos).
  { destruct NE as [NE|NE]; [congruence|auto]. }
  clear NE. destruct st.
  - assert (MM : exists d o l cs t x y lst, x ++ y = l
       /\ (if dirty then contexts_bytes utf8 9 lst x else x = [] /\ lst = [])
       /\ contexts_bytes utf8 10 cs y
       /\ Forall (fun p => asked dirty (Answers true lst cs infos) (fst p)) cs
       /\ meta = (rev cs, chosen (bitmap dirty (Answers true lst cs infos)) cs None)
       /\ (exists p q, o = p ++ q
           /\ (if dirty then exists d, meta_data name [list_byte_of_string "qemu:dirty-bitmap:"] d /\ option_bytes 9 d p else p = [])
           /\ meta_data name (queries dirty (Answers true lst cs infos)) d /\ option_bytes 10 d q)
       /\ s_in s2 = l ++ s_in s1 /\ s1 = io s2 (s_in s1) (s_out s2 ++ o) t).
    { destruct dirty.
      - binv X0. apply query_inv in X1 as (d3 & o3 & l3 & lst & t3 & D3 & O3 & B3 & -> & I3 & S3).
        apply set_inv in X0 as (d4 & o4 & l4 & cs & t4 & D4 & O4 & B4 & F4 & -> & I4 & S4).
        exists d4, (o3 ++ o4), (l3 ++ l4), cs, t4, l3, l4, lst. split; auto. split; auto. split; auto.
        change (only lst) with (only (a_listed (Answers true lst cs infos))) in *. rewrite <- bitmap_only in *.
        split. { eapply Forall_impl; [|exact F4]. intros p. cbn beta. rewrite wanted_asked. auto. }
        split; auto. split.
        { exists o3, o4. split; auto. split; [eauto|]. split; auto. rewrite <- wanted_queries. auto. }
        split; [rewrite I3, I4, <- app_assoc; auto|]. rewrite S4 at 1. rewrite S3. rewrite app_assoc. reflexivity.
      - unfold bind at 1 in X0. cbn [ret] in X0.
        apply set_inv in X0 as (d4 & o4 & l4 & cs & t4 & D4 & O4 & B4 & F4 & -> & I4 & S4).
        exists d4, o4, l4, cs, t4, [], l4, []. split; auto. split; auto. split; auto.
        change None with (bitmap false (Answers true [] cs infos)) in F4, D4 |- * at 1.
        split. { eapply Forall_impl; [|exact F4]. intros p. cbn beta. rewrite wanted_asked. auto. }
        split; auto. split.
        { exists [], o4. do 2 (split; [auto|]). split; [rewrite <- wanted_queries; auto|auto]. }
        auto. }
    destruct MM as (d & o & l & cs & t & x & y & lst & <- & LX & LY & LF & -> & (p & q & -> & P & Q1 & Q2) & I3 & S3).
    exists (Answers true lst cs infos), (r ++ l1 ++ (x ++ y) ++ l2), (r0 ++ o1 ++ (p ++ q) ++ o2), t2.
    split. { exists r, l1, (x ++ y), l2. cbn [a_structured a_infos a_listed a_set].
             do 3 (split; [auto|]). split; [exists x, y; auto|auto]. }
    split. { exists r0, o1, (p ++ q), o2. cbn [a_structured a_infos a_listed a_set].
             do 3 (split; [auto|]). split; [exists p, q; split; auto; split; eauto|eauto]. }
    split; auto. split; [rewrite I, I1, I3, I2, <- !app_assoc; auto|].
    rewrite S2 at 1. rewrite S3, S1. rewrite !io_io, !io_out, <- !app_assoc. reflexivity.
  - injection X0 as <- <-.
    exists (Answers false [] [] infos), (r ++ l1 ++ [] ++ l2), (r0 ++ o1 ++ [] ++ o2), t2.
    split. { exists r, l1, [], l2. cbn [a_structured a_infos a_listed a_set].
             do 3 (split; [auto|]). auto. }
    split. { exists r0, o1, [], o2. cbn [a_structured a_infos a_listed a_set].
             do 3 (split; [auto|]). split; eauto. }
    split. { unfold outcome_of. cbn [a_structured a_infos a_listed a_set rev]. f_equal. destruct dirty; auto. }
    split; [rewrite I, I1, I2, <- !app_assoc; auto|].
    rewrite S2 at 1. rewrite S1. rewrite !io_io, !io_out, <- !app_assoc. reflexivity.
Qed.

Lemma size_sendable name dirty a : sendable name dirty a <-> zlen name + size_of (queries dirty a) + 26 < 2 ^ 32.
Proof.
  unfold sendable, size_of. generalize (queries dirty a). intros qs.
  assert (forall n, fold_right (fun q n => 4 + zlen q + n) n qs = fold_right (fun q n => 4 + zlen q + n) 0 qs + n) as H.
  { induction qs; intros n; cbn [fold_right]; [lia|]. rewrite IHqs. lia. }
  rewrite (H 26). lia.
Qed.

Lemma handshake_ok v utf8 name dirty a l s r : can_send v -> sendable name dirty a ->
  server_bytes utf8 dirty a l -> s_in s = l ++ r ->
  exists o i, newstyle_handshake v utf8 name dirty s = (inl (outcome_of dirty a), io s r (s_out s ++ o) i)
  /\ client_bytes name dirty a o.
Proof.
  intros V N (hb & sb & cb & gb & -> & H & SB & C & G & EX) I. apply size_sendable in N.
  pose proof (size_of_nonneg (queries dirty a)) as NN. pose proof (zlen_nonneg name) as NL.
  assert (NQ : 26 <= size_of (queries dirty a)).
  { unfold queries. unfold size_of. cbn [app fold_right]. fold (size_of (match bitmap dirty a with Some n => if list_eq_dec Byte.byte_eq_dec n [] then [] else [n] | None => [] end)).
    match goal with |- context [size_of ?q] => pose proof (size_of_nonneg q) as X; remember (size_of q) as z end.
    change (zlen (list_byte_of_string "base:allocation")) with 15. change (zlen (list_byte_of_string "qemu:allocation-depth")) with 21. lia. }
  rewrite <- !app_assoc in I.
  unfold newstyle_handshake. unfold bind at 1. destruct H as (x & y & z & fl & -> & U1 & U2 & U3 & OD).
  pose proof (proj1 U1) as Z1. pose proof (proj1 U2) as Z2. pose proof (proj1 U3) as Z3.
  destruct (recv_app v 18 s (x ++ y ++ z) (sb ++ cb ++ gb ++ r)) as [i ->].
  { rewrite !zlen_app. lia. }
  { rewrite I, <- !app_assoc. auto. }
  rewrite (field_first x (y ++ z) 8 _ U1), (field_mid x y z 8 8 _ Z1 U2).
  rewrite (app_assoc x y z), (field_end (x ++ y) z 16 2 fl) by (auto; rewrite zlen_app; lia).
  change (0x4e42444d41474943 =? NBDMAGIC) with true. change (0x49484156454F5054 =? IHAVEOPT) with true. cbn [negb].
  change FLAG_FIXED_NEWSTYLE with 1. rewrite land_odd, OD. cbn [negb].
  unfold bind at 1. unfold lift at 1. destruct (pack_spec 4 FLAG_C_FIXED_NEWSTYLE) as (f & -> & UF); [cbv; intuition discriminate|].
  unfold bind at 1. rewrite send_ok by auto. rewrite io_set_in, io_set_out, io_io. cbn [io s_in s_out s_tick]. unfold bind at 1.
  match goal with |- context [negotiate_structured_reply_option v ?t] =>
    destruct (structured_ok v t (a_structured a) sb (cb ++ gb ++ r) V SB eq_refl) as (s1 & E1 & I1) end.
  rewrite E1. apply structured_inv in E1 as (o1 & _ & t1 & O1 & _ & _ & S1). rewrite I1, io_io, io_out in S1.
  assert (NE : export_after None (a_infos a) <> None) by (apply export_after_some; auto).
  destruct (a_structured a) eqn:ST.
  - destruct C as (p & q & -> & P & Q & F). rewrite <- app_assoc in I1.
    assert (F' : Forall (fun p => existsb (bytes_eqb (fst p)) (wanted_contexts (bitmap dirty a)) = true) (a_set a)).
    { eapply Forall_impl; [|exact F]. intros w. cbn beta. rewrite wanted_asked. auto. }
    assert (MM : exists o2 o3 t2 d, (do b <- (if dirty then query_dirty_bitmap v utf8 name else ret None) ;
                             set_meta_context v utf8 name b) s1
                 = (inl (rev (a_set a), chosen (bitmap dirty a) (a_set a) None), io s1 (gb ++ r) (s_out s1 ++ o2 ++ o3) t2)
         /\ (if dirty then exists d, meta_data name [list_byte_of_string "qemu:dirty-bitmap:"] d /\ option_bytes 9 d o2
             else o2 = [])
         /\ meta_data name (queries dirty a) d /\ option_bytes 10 d o3).
    { unfold bind. destruct dirty.
      - destruct (query_ok v utf8 name s1 (a_listed a) p (q ++ gb ++ r)) as (s2 & E2 & I2); auto; [lia|].
        rewrite E2. rewrite <- bitmap_only.
        apply query_inv in E2 as (d2 & o2 & _ & _ & t2 & D2 & O2 & _ & _ & _ & S2). rewrite I2 in S2.
        destruct (set_ok v utf8 name (bitmap true a) s2 (a_set a) q (gb ++ r)) as (s3 & E3 & I3); auto.
        { rewrite wanted_queries. lia. }
        rewrite E3. apply set_inv in E3 as (d3 & o3 & _ & _ & t3 & D3 & O3 & _ & _ & _ & _ & S3). rewrite I3 in S3.
        exists o2, o3, t3, d3. split; [rewrite S3, S2, !io_io, !io_out, <- !app_assoc; reflexivity|]. split; [eauto|].
        rewrite wanted_queries in D3. auto.
      - destruct P as [-> P]. cbn [ret app] in *.
        destruct (set_ok v utf8 name (bitmap false a) s1 (a_set a) q (gb ++ r)) as (s3 & E3 & I3); auto.
        { rewrite wanted_queries. lia. }
        change (bitmap false a) with (@None (list byte)) in *. rewrite E3.
        apply set_inv in E3 as (d3 & o3 & _ & _ & t3 & D3 & O3 & _ & _ & _ & _ & S3). rewrite I3 in S3.
        exists [], o3, t3, d3. split; [rewrite S3; reflexivity|]. auto. }
    destruct MM as (o2 & o3 & t2 & d3 & MM & Q2 & D3 & O3). unfold bind at 1. rewrite MM. unfold bind at 1.
    destruct (negotiate_go_ok v name (io s1 (gb ++ r) (s_out s1 ++ o2 ++ o3) t2) (a_infos a) gb r) as (s3 & E4 & I4); auto; [lia|].
    rewrite E4. apply negotiate_go_inv in E4 as (d4 & o4 & _ & _ & t4 & D4 & O4 & _ & _ & _ & _ & S4). rewrite I4 in S4.
    exists (f ++ o1 ++ (o2 ++ o3) ++ o4), t4. split.
    + cbn [ret fst snd]. unfold outcome_of. rewrite ST, S4, S1. rewrite !io_io, !io_out, <- !app_assoc. reflexivity.
    + exists f, o1, (o2 ++ o3), o4. rewrite ST. split; auto. split; auto. split; auto. split; [|eauto].
      exists o2, o3. split; auto. split; eauto.
  - destruct C as (-> & LL & LS). cbn [app] in I1, S1. unfold bind at 1. cbn [ret]. unfold bind at 1.
    destruct (negotiate_go_ok v name s1 (a_infos a) gb r) as (s3 & E4 & I4); auto; [lia|].
    rewrite E4. apply negotiate_go_inv in E4 as (d4 & o4 & _ & _ & t4 & D4 & O4 & _ & _ & _ & _ & S4). rewrite I4 in S4.
    exists (f ++ o1 ++ [] ++ o4), t4. split.
    + cbn [ret fst snd]. unfold outcome_of. rewrite ST, LS, S4, S1. rewrite !io_io, !io_out, <- !app_assoc.
      do 2 f_equal. f_equal. unfold bitmap. rewrite LL. destruct dirty; auto.
    + exists f, o1, [], o4. rewrite ST. split; auto. split; auto. split; auto. split; eauto.
Qed.

(* ---- what the client knows ---- *)

Lemma snoc_cases {A} (q : list A) : q = [] \/ exists q' x, q = q' ++ [x].
Proof. destruct q using rev_ind; eauto. Qed.
Lemma last_such_snoc {A} (P : A -> Prop) l x y :
  last_such P (l ++ [x]) y <-> (P x /\ y = x) \/ (~ P x /\ last_such P l y).
Proof.
  split.
  - intros (p & q & E & PY & F). destruct (snoc_cases q) as [->|(q' & z & ->)].
    + apply app_inj_tail in E as [-> ->]. auto.
    + replace (p ++ y :: q' ++ [z]) with ((p ++ y :: q') ++ [z]) in E by (rewrite <- app_assoc; auto).
      apply app_inj_tail in E as [-> ->]. apply Forall_app in F as [F1 F2]. right.
      split; [inversion F2; auto|]. exists p, q'. auto.
  - intros [[PX ->]|[PX (p & q & -> & PY & F)]].
    + exists l, []. auto.
    + exists p, (q ++ [x]). split; [rewrite <- app_assoc; auto|]. split; auto. apply Forall_app. auto.
Qed.
Lemma last_such_nil {A} (P : A -> Prop) y : ~ last_such P [] y.
Proof. intros (p & q & E & _). destruct p; discriminate. Qed.

Lemma name_of_id_last cs id n :
  name_of_id (rev cs) id = Some n <-> last_such (fun p => snd p = id) cs (n, id).
Proof.
  induction cs as [|[m j] cs IH] using rev_ind.
  - split; [discriminate|]. intros H. apply last_such_nil in H as [].
  - rewrite rev_app_distr, last_such_snoc. cbn [rev app name_of_id snd].
    destruct (Z.eqb_spec j id) as [->|NE].
    + split; [intros H; injection H as ->; auto|]. intros [[_ H]|[H _]]; congruence.
    + rewrite IH. split; auto. intros [[H _]|[_ H]]; [congruence|auto].
Qed.
Lemma id_of_name_last cs id n :
  id_of_name (rev cs) n = Some id <-> last_such (fun p => fst p = n) cs (n, id).
Proof.
  induction cs as [|[m j] cs IH] using rev_ind.
  - split; [discriminate|]. intros H. apply last_such_nil in H as [].
  - rewrite rev_app_distr, last_such_snoc. cbn [rev app id_of_name fst].
    destruct (bytes_eqb_spec m n) as [->|NE].
    + split; [intros H; injection H as ->; auto|]. intros [[_ H]|[H _]]; congruence.
    + rewrite IH. split; auto. intros [[H _]|[_ H]]; [congruence|auto].
Qed.

Lemma chosen_spec b cs n : chosen b cs None = Some n <-> b = Some n /\ exists id, In (n, id) cs.
Proof.
  unfold chosen. destruct b as [x|]; [|split; [discriminate|intros [? _]; discriminate]].
  destruct (existsb (fun p => bytes_eqb (fst p) x) cs) eqn:E.
  - apply existsb_exists in E as ([m id] & IN & E). cbn [fst] in E. destruct (bytes_eqb_spec m x) as [->|]; [|discriminate].
    split; [intros H; injection H as <-; eauto|]. intros [H _]; auto.
  - split; [discriminate|]. intros [H (id & IN)]. injection H as ->.
    assert (existsb (fun p => bytes_eqb (fst p) n) cs = true) as X.
    { apply existsb_exists. exists (n, id). split; auto. cbn [fst]. destruct (bytes_eqb_spec n n); auto. }
    congruence.
Qed.

Lemma export_after_last infos s f : export_after None infos = Some (s, f) ->
  last_such (fun i => exists s f, i = Export s f) infos (Export s f).
Proof.
  induction infos as [|i infos IH] using rev_ind; [discriminate|].
  unfold export_after in *. rewrite fold_left_app. cbn [fold_left]. intros E. apply last_such_snoc.
  destruct i; cbn [export_step] in E.
  - injection E as -> ->. left. eauto.
  - right. split; auto. intros (? & ? & ?). discriminate.
  - right. split; auto. intros (? & ? & ?). discriminate.
Qed.

Lemma blocks_after_last infos d x y z : blocks_after d infos = (x, y, z) ->
  last_such (fun i => exists x y z, i = BlockSize x y z) infos (BlockSize x y z)
  \/ ((x, y, z) = d /\ forall x y z, ~ In (BlockSize x y z) infos).
Proof.
  induction infos as [|i infos IH] using rev_ind.
  - intros <-. right. auto.
  - unfold blocks_after in *. rewrite fold_left_app. cbn [fold_left]. intros E. rewrite last_such_snoc.
    destruct i; cbn [blocks_step] in E.
    + apply IH in E as [E|[E F]].
      * left. right. split; auto. intros (? & ? & ? & ?). discriminate.
      * right. split; auto. intros a b c IN. apply in_app_or in IN as [IN|[IN|[]]]; [eapply F; eauto|discriminate].
    + injection E as -> -> ->. left. left. eauto 6.
    + apply IH in E as [E|[E F]].
      * left. right. split; auto. intros (? & ? & ? & ?). discriminate.
      * right. split; auto. intros a b c IN. apply in_app_or in IN as [IN|[IN|[]]]; [eapply F; eauto|discriminate].
Qed.

Lemma outcome_knows dirty a : (exists size flags, In (Export size flags) (a_infos a)) -> knows dirty a (outcome_of dirty a).
Proof.
  intros EX. unfold knows, outcome_of. cbn [h_structured h_names h_dirty h_export h_blocks].
  split; auto. split; [intros; apply name_of_id_last|]. split; [intros; apply id_of_name_last|].
  split; [intros; apply chosen_spec|]. split.
  - assert (export_after None (a_infos a) <> None) as NE by (apply export_after_some; auto).
    destruct (export_after None (a_infos a)) as [[s f]|] eqn:E; [|congruence]. exists s, f. split; auto.
    apply export_after_last; auto.
  - destruct (blocks_after default_blocks (a_infos a)) as [[x y] z] eqn:B. apply blocks_after_last; auto.
Qed.

(* ---- handshakes that fail ---- *)

Definition fails_well (s s' : st) (e : exc) : Prop :=
  match e with
  | ProtocolError | ValueError | StructError => True
  | OptionError c => exists p l opt msg, s_in s = p ++ l ++ s_in s' /\ option_reply_bytes opt c msg l
                                         /\ 2 ^ 31 < c <= 2 ^ 31 + 9
  | _ => False
  end.
Definition tame_at {A} (m : M A) (s : st) : Prop := forall r s', m s = (r, s') ->
  (exists p, s_in s = p ++ s_in s') /\ (exists o, s_out s' = s_out s ++ o /\ options_bytes o)
  /\ match r with inl _ => True | inr e => fails_well s s' e end.

Lemma options_app a b : options_bytes a -> options_bytes b -> options_bytes (a ++ b).
Proof.
  induction 1 as [|opt d l m O H IH]; auto. intros B. rewrite <- app_assoc. econstructor; eauto.
Qed.

Lemma fails_well_before s0 s s' e p : s_in s0 = p ++ s_in s -> fails_well s s' e -> fails_well s0 s' e.
Proof.
  intros I F. destruct e; auto. destruct F as (q & l & opt & msg & I2 & O & C).
  exists (p ++ q), l, opt, msg. rewrite I, I2, <- app_assoc. auto.
Qed.

Lemma tame_bind {A B} (m : M A) (f : A -> M B) s : tame_at m s ->
  (forall x s', m s = (inl x, s') -> tame_at (f x) s') -> tame_at (bind m f) s.
Proof.
  intros T F r s' E. unfold bind in E. destruct (m s) as [[x|e] s1] eqn:M.
  - destruct (T _ _ M) as ((p & I) & (o & O & OB) & _).
    destruct (F x s1 eq_refl r s' E) as ((q & I2) & (o2 & O2 & OB2) & W).
    split; [exists (p ++ q); rewrite I, I2, <- app_assoc; auto|].
    split; [exists (o ++ o2); rewrite O2, O, <- app_assoc; split; auto; apply options_app; auto|].
    destruct r; auto. eapply fails_well_before; eauto.
  - injection E as <- <-. destruct (T _ _ M) as (I & O & W). auto.
Qed.

Lemma tame_pure {A} (m : M A) s r : m s = (r, s) ->
  match r with inl _ => True | inr e => fails_well s s e end -> tame_at m s.
Proof.
  intros E W r' s' E'. rewrite E in E'. injection E' as <- <-. split; [exists []; auto|]. split; auto.
  exists []. rewrite app_nil_r. split; auto. constructor.
Qed.

Lemma tame_recv v n s : 0 <= n -> tame_at (recv v n) s.
Proof.
  intros N r s' E. destruct r as [d|e].
  - apply recv_inv in E as (L & I & i & S); auto. split; eauto. split; auto. exists []. rewrite app_nil_r.
    split; [rewrite S; auto|constructor].
  - apply recv_err in E as (-> & I & O); auto. split; [exists (s_in s); rewrite I, app_nil_r; auto|].
    split; [exists []; rewrite app_nil_r; split; auto; constructor|exact Logic.I].
Qed.

Lemma tame_send_option v opt d s : can_send v -> tame_at (send_option v opt d) s.
Proof.
  intros V r s' E. destruct r as [[]|e].
  - apply send_option_inv in E as (l & t & O & ->). split; [exists []; auto|]. split; auto.
    exists (l ++ []). rewrite app_nil_r. split; auto. rewrite <- (app_nil_r l). econstructor; [eauto|constructor].
  - apply send_option_err in E as [[-> ->]|[-> C]]; [|contradiction]. split; [exists []; auto|].
    split; [exists []; rewrite app_nil_r; split; auto; constructor|exact Logic.I].
Qed.

Lemma tame_recv_reply v opt s : tame_at (recv_option_reply v opt) s.
Proof.
  intros r s' E. destruct r as [[ty len]|e].
  - apply recv_option_reply_inv in E as (hd & i & I & S & _). split; eauto. split; auto. exists [].
    rewrite app_nil_r. split; [rewrite S; auto|constructor].
  - apply recv_option_reply_err in E as (-> & O & P). split; auto.
    split; [exists []; rewrite app_nil_r; split; auto; constructor|exact Logic.I].
Qed.

(* a reply and its error message *)
Lemma tame_error {A} v opt s ty len s1 : recv_option_reply v opt s = (inl (ty, len), s1) -> is_error ty = true ->
  forall r s', @handle_option_error v A ty len s1 = (r, s') ->
  (exists p, s_in s = p ++ s_in s') /\ s_out s' = s_out s
  /\ ((r = inr (OptionError ty) /\ fails_well s s' (OptionError ty)) \/ r = inr ProtocolError).
Proof.
  intros R IE r s' E. apply recv_option_reply_inv in R as (hd & i & I & S & H & L & B).
  apply handle_option_error_inv in E as [(data & j & D & I2 & S3 & ->)|(-> & I2 & O2)]; [| |lia].
  - split; [exists (hd ++ data); rewrite I, I2, <- app_assoc; auto|].
    split; [rewrite S3, S; auto|]. left. split; auto. exists [], (hd ++ data), opt, data.
    split; [rewrite I, I2, <- app_assoc; auto|]. split; [apply B; auto|].
    unfold is_error, REP_ERR_UNSUP, REP_ERR_TOO_BIG, ERR_BASE in IE. lia.
  - split; [exists (s_in s); rewrite I2, app_nil_r; auto|]. split; [rewrite O2, S; auto|]. auto.
Qed.

Lemma reply_shrinks v opt s x s1 : recv_option_reply v opt s = (inl x, s1) ->
  (List.length (s_in s1) < List.length (s_in s))%nat.
Proof.
  destruct x as [ty len]. intros R. apply recv_option_reply_inv in R as (hd & i & I & S & H & _).
  rewrite I, app_length. destruct hd; [discriminate|]. cbn [List.length]. lia.
Qed.

(* A computation that starts with a reply; an error reply, then other cases. *)
Lemma tame_reply {A} v opt (err : Z -> Z -> M A) (f : Z * Z -> M A) s :
  (forall ty len s1, recv_option_reply v opt s = (inl (ty, len), s1) -> is_error ty = true ->
     forall r s', err ty len s1 = (r, s') ->
     (exists p, s_in s = p ++ s_in s') /\ s_out s' = s_out s
     /\ match r with inl _ => True | inr e => fails_well s s' e end) ->
  (forall x s1, recv_option_reply v opt s = (inl x, s1) -> is_error (fst x) = false -> tame_at (f x) s1) ->
  tame_at (do x <- recv_option_reply v opt ; if is_error (fst x) then err (fst x) (snd x) else f x) s.
Proof.
  intros HE HF r s' E. unfold bind in E. destruct (recv_option_reply v opt s) as [[[ty len]|e] s1] eqn:R.
  - cbn [fst snd] in E. destruct (is_error ty) eqn:IE.
    + destruct (HE _ _ _ eq_refl IE _ _ E) as (P & O & W). split; auto. split; auto.
      exists []. rewrite app_nil_r. split; auto. constructor.
    + assert (T : tame_at (bind (recv_option_reply v opt) f) s).
      { apply tame_bind; [apply tame_recv_reply|]. intros x s2 X. rewrite R in X. injection X as <- <-. apply HF; auto. }
      apply T. unfold bind. rewrite R. auto.
  - injection E as <- <-. exact (tame_recv_reply v opt s _ _ R).
Qed.

Lemma tame_structured v s : can_send v -> tame_at (negotiate_structured_reply_option v) s.
Proof.
  intros V r s' E.
  assert (T : tame_at (do_ negotiate_option v OPT_STRUCTURED_REPLY ; ret true) s).
  { apply tame_bind; [|intros; apply (tame_pure _ _ (inl true)); auto; reflexivity].
    unfold negotiate_option. apply tame_bind; [apply tame_send_option; auto|]. intros [] s1 _.
    apply (tame_reply v _ (fun a b => handle_option_error v a b)).
    - intros ty len s2 R IE q s3 HE. destruct (tame_error _ _ _ _ _ _ R IE _ _ HE) as (P & O & [[-> W]| ->]); repeat split; auto.
    - intros [ty len] s2 R IE. cbn [fst snd]. destruct (ty =? REP_ACK); cbn [negb];
        [destruct (len =? 0); cbn [negb]|]; eapply tame_pure; try reflexivity; exact I. }
  unfold negotiate_structured_reply_option, except_unsupported in E.
  destruct ((do_ negotiate_option v OPT_STRUCTURED_REPLY ; ret true) s) as [q s1] eqn:M.
  destruct (T _ _ M) as (I & O & W).
  destruct q as [x|e]; [injection E as <- <-; auto|].
  destruct e; try (injection E as <- <-; auto; fail).
  destruct (reply =? REP_ERR_UNSUP); injection E as <- <-; auto.
Qed.

Lemma tame_iter {A} v utf8 opt (body : A -> list byte -> Z -> M A) :
  (forall a n i s, tame_at (body a n i) s /\ s_in (snd (body a n i s)) = s_in s) ->
  forall fuel a s, (List.length (s_in s) < fuel)%nat ->
  tame_at (iter_meta_context_replies v utf8 fuel opt body a) s.
Proof.
  intros HB. induction fuel as [|fuel IH]; intros a s N; [lia|]. cbn [iter_meta_context_replies].
  apply (tame_reply v opt (fun x y => except_unsupported (handle_option_error v x y) (ret a))).
  - intros ty len s1 R IE r s' E. unfold except_unsupported in E.
    destruct (handle_option_error v ty len s1) as [q s3] eqn:HE.
    destruct (tame_error _ _ _ _ _ _ R IE _ _ HE) as (P & O & [[-> W]| ->]).
    + destruct (ty =? REP_ERR_UNSUP); injection E as <- <-; auto.
    + injection E as <- <-. repeat split; auto.
  - intros [ty len] s1 R IE. cbn [fst snd].
    destruct (ty =? REP_ACK); [destruct (len =? 0); cbn [negb]; eapply tame_pure; try reflexivity; exact I|].
    destruct (ty =? REP_META_CONTEXT); cbn [negb]; [|eapply tame_pure; try reflexivity; exact I].
    pose proof (reply_shrinks _ _ _ _ _ R) as SH.
    assert (0 <= len) by (apply recv_option_reply_inv in R as (? & ? & ? & ? & ? & ? & ?); lia).
    assert (TR : tame_at (recv_meta_context_reply v utf8 len) s1).
    { unfold recv_meta_context_reply. destruct (len <? 4); [eapply tame_pure; try reflexivity; exact I|].
      apply tame_bind; [apply tame_recv; auto|]. intros d s2 _. destruct (utf8 (drop 4 d)); eapply tame_pure; try reflexivity; exact I. }
    apply tame_bind; auto. intros x s2 X. destruct (TR _ _ X) as ((p & I2) & _ & _).
    apply tame_bind; [apply HB|]. intros a' s3 Y. apply IH.
    pose proof (proj2 (HB a (fst x) (snd x) s2)) as Q. rewrite Y in Q. cbn [snd] in Q. rewrite Q.
    rewrite I2, app_length in SH. lia.
Qed.

Lemma tame_lift {A} (x : A + exc) s : (forall e, x = inr e -> e = StructError) -> tame_at (lift x) s.
Proof.
  intros H. eapply tame_pure; [reflexivity|]. destruct x; auto. rewrite (H e eq_refl). exact I.
Qed.
Lemma format_meta_err name qs e : format_meta_context_data name qs = inr e -> e = StructError.
Proof.
  unfold format_meta_context_data. destruct (pack 4 (zlen name)), (pack 4 (zlen qs)), (format_queries qs); congruence.
Qed.
Lemma format_go_err name e : format_go_option_data name = inr e -> e = StructError.
Proof. unfold format_go_option_data. destruct (pack 4 (zlen name)), (pack 2 0); congruence. Qed.

Lemma tame_query v utf8 name s : can_send v -> tame_at (query_dirty_bitmap v utf8 name) s.
Proof.
  intros V. unfold query_dirty_bitmap. apply tame_bind; [apply tame_lift; apply format_meta_err|].
  intros d s1 _. apply tame_bind; [apply tame_send_option; auto|]. intros [] s2 _.
  apply tame_bind; [apply (tame_pure _ _ (inl s2)); [reflexivity|exact I]|]. intros s3 s4 E. injection E as <- <-.
  apply tame_bind; [|intros l s5 _; destruct l as [|[n i] [|]]; eapply tame_pure; try reflexivity; exact I].
  apply tame_iter; [|unfold rounds; lia]. intros a n i s3. split; auto.
  eapply tame_pure; [reflexivity|exact I].
Qed.

Lemma tame_set v utf8 name b s : can_send v -> tame_at (set_meta_context v utf8 name b) s.
Proof.
  intros V. unfold set_meta_context. apply tame_bind; [apply tame_lift; apply format_meta_err|].
  intros d s1 _. apply tame_bind; [apply tame_send_option; auto|]. intros [] s2 _.
  apply tame_bind; [apply (tame_pure _ _ (inl s2)); [reflexivity|exact I]|]. intros s3 s4 E. injection E as <- <-.
  apply tame_iter; [|unfold rounds; lia]. intros a n i s3.
  destruct (existsb _ _); (split; [eapply tame_pure; [reflexivity|exact I]|auto]).
Qed.

Lemma tame_go v fuel e b s : (List.length (s_in s) < fuel)%nat -> tame_at (go_replies v fuel e b) s.
Proof.
  revert e b s. induction fuel as [|fuel IH]; intros e b s N; [lia|]. cbn [go_replies].
  apply (tame_reply v OPT_GO (fun x y => handle_option_error v x y)).
  - intros ty len s1 R IE r s' E.
    destruct (tame_error _ _ _ _ _ _ R IE _ _ E) as (P & O & [[-> W]| ->]); repeat split; auto.
  - intros [ty len] s1 R IE. cbn [fst snd]. pose proof (reply_shrinks _ _ _ _ _ R) as SH.
    destruct (ty =? REP_ACK).
    { destruct (len =? 0); cbn [negb]; [destruct e|]; eapply tame_pure; try reflexivity; exact I. }
    destruct (ty =? REP_INFO); cbn [negb]; [|eapply tame_pure; try reflexivity; exact I].
    destruct (len <? 2) eqn:L2; [eapply tame_pure; try reflexivity; exact I|].
    apply tame_bind; [apply tame_recv; lia|]. intros d s2 E2. apply recv_inv in E2 as (_ & I2 & _); [|lia].
    assert (LE : forall n q s3, 0 <= n -> recv v n s2 = (inl q, s3) -> (List.length (s_in s3) < fuel)%nat).
    { intros n q s3 NN R3. apply recv_inv in R3 as (_ & I3 & _); auto. rewrite I2, I3, !app_length in SH. lia. }
    destruct (unbe d =? INFO_EXPORT); [|destruct (unbe d =? INFO_BLOCK_SIZE)].
    + destruct (len - 2 =? 10); cbn [negb]; [|eapply tame_pure; try reflexivity; exact I].
      apply tame_bind; [apply tame_recv; lia|]. intros d2 s3 E3. apply IH. eapply LE; [|eauto]. lia.
    + destruct (len - 2 =? 12); cbn [negb]; [|eapply tame_pure; try reflexivity; exact I].
      apply tame_bind; [apply tame_recv; lia|]. intros d2 s3 E3. apply IH. eapply LE; [|eauto]. lia.
    + apply tame_bind; [apply tame_recv; lia|]. intros d2 s3 E3. apply IH. eapply LE; [|eauto]. lia.
Qed.

Lemma tame_negotiate_go v name s : can_send v -> tame_at (negotiate_go_option v name) s.
Proof.
  intros V. unfold negotiate_go_option. apply tame_bind; [apply tame_lift; apply format_go_err|].
  intros d s1 _. apply tame_bind; [apply tame_send_option; auto|]. intros [] s2 _.
  apply tame_bind; [apply (tame_pure _ _ (inl s2)); [reflexivity|exact I]|]. intros s3 s4 E. injection E as <- <-.
  apply tame_go. unfold rounds. lia.
Qed.

(* The bytes sent by a handshake: nothing, or the flags and complete options. *)
Lemma handshake_fails v utf8 name dirty s e s' : can_send v ->
  newstyle_handshake v utf8 name dirty s = (inr e, s') ->
  (exists p, s_in s = p ++ s_in s') /\ fails_well s s' e
  /\ exists o, s_out s' = s_out s ++ o
     /\ ((o = [] /\ e = ProtocolError) \/ exists f q, o = f ++ q /\ u 4 1 f /\ options_bytes q).
Proof.
  intros V E. unfold newstyle_handshake in E. unfold bind at 1 in E.
  destruct (recv v 18 s) as [[d|e0] s1] eqn:R.
  2:{ injection E as <- <-. apply recv_err in R as (-> & I & O); [|lia].
      split; [exists (s_in s); rewrite I, app_nil_r; auto|]. split; [exact Logic.I|]. exists []. rewrite app_nil_r. auto. }
  apply recv_inv in R as (L & I & i & S); [|lia].
  assert (BAD : (inr e : handshaken + exc, s') = (inr ProtocolError, s1) ->
     (exists p, s_in s = p ++ s_in s') /\ fails_well s s' e
     /\ exists o, s_out s' = s_out s ++ o
     /\ ((o = [] /\ e = ProtocolError) \/ exists f q, o = f ++ q /\ u 4 1 f /\ options_bytes q)).
  { intros X. injection X as -> ->. split; eauto. split; [exact Logic.I|]. exists []. rewrite app_nil_r.
    split; auto. rewrite S. auto. }
  destruct (field 0 8 d =? NBDMAGIC); cbn [negb] in E; [|apply BAD; auto].
  destruct (field 8 8 d =? IHAVEOPT); cbn [negb] in E; [|apply BAD; auto].
  destruct (Z.land (field 16 2 d) FLAG_FIXED_NEWSTYLE =? 0); [apply BAD; auto|].
  unfold bind at 1 in E. unfold lift at 1 in E.
  destruct (pack_spec 4 FLAG_C_FIXED_NEWSTYLE) as (f & P & U); [cbv; intuition discriminate|]. rewrite P in E.
  unfold bind at 1 in E. rewrite send_ok in E by auto. rewrite io_set_out in E.
  match type of E with ?m ?t = _ => assert (T : tame_at m t) end.
  { apply tame_bind; [apply tame_structured; auto|]. intros st s2 _.
    apply tame_bind.
    { destruct st; [|eapply tame_pure; try reflexivity; exact Logic.I]. apply tame_bind.
      - destruct dirty; [apply tame_query; auto|eapply tame_pure; try reflexivity; exact Logic.I].
      - intros b s3 _. apply tame_set; auto. }
    intros meta s3 _. apply tame_bind; [apply tame_negotiate_go; auto|]. intros go s4 _.
    eapply tame_pure; try reflexivity; exact Logic.I. }
  destruct (T _ _ E) as ((p & I2) & (o & O & OB) & W). cbn [s_in io] in I2. cbn [s_out io] in O.
  split; [exists (d ++ p); rewrite I, I2, <- app_assoc; auto|]. split.
  { eapply fails_well_before; [|exact W]. exact I. }
  exists (f ++ o). split; [rewrite O, S; cbn [s_out set_in]; rewrite <- app_assoc; auto|]. right. exists f, o. auto.
Qed.
