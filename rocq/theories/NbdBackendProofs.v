(* Lemmas for NbdBackendTheorems.v. *)
From Coq Require Import ZArith List Bool String Lia.
From Coq.Init Require Import Byte.
From Verif Require Import BytesLib NbdModel NbdSpec NbdProofs NbdTheorems NbdBackendModel NbdBackendSpec.
Import ListNotations.
Open Scope Z_scope.

(* The operation of the client for a call, and the request sent. *)
Definition op_of (k : client) (b : backend) (c : call) : option op :=
  if b_closed b then None else
  match c with
  | BReadinto buf =>
      let n := Z.min (zlen buf) (k_size k - b_position b) in
      if readable b then if n <=? 0 then None else Some (ORead (b_position b) (take n buf)) else None
  | BWrite d => if writable b then Some (OWrite (b_position b) d) else None
  | BZero n => if writable b then Some (OZero (b_position b) n (b_sparse b)) else None
  | BFlush => Some OFlush
  | _ => None
  end.
Definition fitsb (o : op) : bool :=
  match o with
  | ORead a b => expressible a (zlen b)
  | OWrite a b => expressible a (zlen b)
  | OZero a b _ => expressible a b
  | OFlush => true
  | OExtents a b => expressible a b
  end.
Lemma fitsb_fits o : fitsb o = true <-> fits o.
Proof.
  destruct o; cbn [fitsb fits]; unfold expressible; rewrite ?andb_true_iff, ?Z.leb_le, ?Z.ltb_lt.
  - pose proof (zlen_nonneg buf). intuition.
  - pose proof (zlen_nonneg data). intuition.
  - intuition.
  - intuition.
  - intuition.
Qed.
Definition req_of (k : client) (b : backend) (c : call) : option (Z * Z * Z * Z * list byte) :=
  match op_of k b c with
  | Some o => if fitsb o then demanded k o else None
  | None => match c with BClose => if b_closed b then None else Some (0, 2, 0, 0, []) | _ => None end
  end.

(* A request is sent as demanded, and the counter grows. *)
Lemma op_sends v k o s fl ty off len data :
  can_send v -> fits o -> 0 <= s_counter s < 2 ^ 64 -> demanded k o = Some (fl, ty, off, len, data) ->
  exists b, request_bytes fl ty (s_counter s) off len b
    /\ s_out (snd (do_op v k o s)) = s_out s ++ b ++ data
    /\ s_counter (snd (do_op v k o s)) = s_counter s + 1.
Proof.
  intros V F C D.
  destruct (commands_sent v k [o] s) as (d & A & E); auto.
  { lia. } { cbn. unfold zlen. cbn. lia. }
  cbn [run_ops fold_left] in A, E. unfold run_ops in A, E. cbn [fold_left] in A, E.
  inversion A as [| |h o' l h' fl' ty' off' len' data' b d' D' R A' H1 H2 H3 H4]; subst; [congruence|].
  rewrite D in D'. injection D' as <- <- <- <- <-. inversion A'; subst.
  exists b. rewrite app_nil_r in E. rewrite E. auto.
Qed.

(* What is left to do after the operation succeeded. *)
Definition success (k : client) (c : call) (b : backend) (s' : st) : (Z * list byte) * backend :=
  match c with
  | BReadinto buf =>
      let n := Z.min (zlen buf) (k_size k - b_position b) in
      ((n, match s_buf s' with Some x => x | None => [] end ++ drop n buf), moved b n (b_dirty b))
  | BWrite d => ((zlen d, []), moved b (zlen d) true)
  | BZero n => ((n, []), moved b n true)
  | _ => ((0, []), moved b 0 false)
  end.
Lemma bcall_op v k c b s o : op_of k b c = Some o ->
  bcall v k c b s =
    match do_op v k o s with
    | (inl _, s') => (inl (fst (success k c b s')), snd (success k c b s'), s')
    | (inr e, s') => (inr (ClientError e), b, s')
    end.
Proof.
  unfold op_of. destruct (b_closed b) eqn:CL; [discriminate|]. destruct c; try discriminate; cbn [bcall]; rewrite ?CL.
  - destruct (readable b); [|discriminate]. cbn [negb].
    destruct (_ <=? 0); [discriminate|]. intros E. injection E as <-. cbn [do_op success fst snd].
    destruct (readinto _ _ _ _ _) as [[?|?] ?]; reflexivity.
  - destruct (writable b); [|discriminate]. cbn [negb]. intros E. injection E as <-. cbn [do_op success fst snd].
    destruct (write _ _ _ _ _) as [[?|?] ?]; reflexivity.
  - destruct (writable b); [|discriminate]. cbn [negb]. intros E. injection E as <-. cbn [do_op success fst snd].
    destruct (zero _ _ _ _ _) as [[?|?] ?]; reflexivity.
  - intros E. injection E as <-. cbn [do_op success fst snd].
    destruct (flush _ _ _) as [[?|?] ?]; reflexivity.
Qed.
Lemma bcall_state v k c b s o : op_of k b c = Some o -> snd (bcall v k c b s) = snd (do_op v k o s).
Proof.
  intros E. rewrite (bcall_op v k c b s o E). destruct (do_op v k o s) as [[?|?] ?]; reflexivity.
Qed.
(* Not fitting: only the counter changes. *)
Lemma to_bytes_unfit fl ty h off len : ~ (0 <= off < 2 ^ 64 /\ 0 <= len < 2 ^ 32) ->
  to_bytes fl ty h off len = inr StructError.
Proof.
  intros N. unfold to_bytes, pack. change (256 ^ Z.of_nat 8) with (2 ^ 64).
  change (256 ^ Z.of_nat 4) with (2 ^ 32).
  destruct ((0 <=? REQUEST_MAGIC) && _); auto. destruct (_ && _); auto. destruct (_ && _); auto.
  destruct (_ && _); auto. destruct ((0 <=? off) && (off <? 2 ^ 64)) eqn:E1; auto.
  destruct ((0 <=? len) && (len <? 2 ^ 32)) eqn:E2; auto. lia.
Qed.
Ltac fin := cbn; repeat split; eauto; try lia.
Lemma op_unfit v k o s : ~ fits o ->
  (exists e, fst (do_op v k o s) = inr e)
  /\ s_out (snd (do_op v k o s)) = s_out s /\ s_in (snd (do_op v k o s)) = s_in s
  /\ s_counter s <= s_counter (snd (do_op v k o s)) <= s_counter s + 1.
Proof.
  intros F. destruct o; cbn [fits] in F; cbn [do_op].
  - unfold readinto, new_command, send_command, bind, lift. pose proof (zlen_nonneg buf).
    rewrite to_bytes_unfit by lia. fin.
  - unfold write, new_command, send_command, bind, lift. pose proof (zlen_nonneg data).
    rewrite to_bytes_unfit by lia. fin.
  - unfold zero, raise. destruct (_ =? 0); [fin|].
    unfold new_command, send_command, bind, lift. rewrite to_bytes_unfit by lia. fin.
  - tauto.
  - unfold extents, new_command, send_command, bind, lift. rewrite to_bytes_unfit by lia. fin.
Qed.

Ltac nochange := try (repeat split; auto; lia).
(* The request of a call, nothing else, is sent. *)
Lemma bcall_sends v k c b s :
  can_send v -> 0 <= s_counter s < 2 ^ 64 ->
  let s' := snd (bcall v k c b s) in
  match req_of k b c with
  | Some (fl, ty, off, len, data) =>
      (exists m, request_bytes fl ty (s_counter s) off len m
        /\ s_out s' = s_out s ++ m ++ data /\ s_counter s' = s_counter s + 1)
      /\ (if ty =? 1 then zlen data = len else data = [])
  | None => s_out s' = s_out s /\ s_counter s <= s_counter s' <= s_counter s + 1 /\ s_in s' = s_in s
  end.
Proof.
  intros V C. unfold req_of. destruct (op_of k b c) as [o|] eqn:O.
  - cbn zeta. rewrite (bcall_state v k c b s o O).
    destruct (fitsb o) eqn:F.
    + apply fitsb_fits in F. destruct (demanded k o) as [[[[[fl ty] off] len] data]|] eqn:D.
      * split; [apply op_sends; auto|].
        destruct o; cbn [demanded] in D.
        -- injection D as <- <- <- <- <-. reflexivity.
        -- injection D as <- <- <- <- <-. reflexivity.
        -- destruct (Z.testbit _ _); [|discriminate]. injection D as <- <- <- <- <-. reflexivity.
        -- destruct (Z.testbit _ _); [|discriminate]. injection D as <- <- <- <- <-. reflexivity.
        -- injection D as <- <- <- <- <-. reflexivity.
      * rewrite op_skip by auto. nochange.
    + assert (~ fits o) as NF. { intros X. apply fitsb_fits in X. congruence. }
      destruct (op_unfit v k o s NF) as (_ & A & B & E). auto.
  - unfold op_of in O. destruct c; cbn zeta; cbn [bcall] in *.
    + destruct (readable b); cbn [negb snd]; nochange. destruct (b_closed b); cbn [snd]; nochange.
      destruct (_ <=? 0); [|discriminate]. cbn [snd]. nochange.
    + destruct (writable b); cbn [negb snd]; nochange. destruct (b_closed b); cbn [snd]; nochange. discriminate.
    + destruct (writable b); cbn [negb snd]; nochange. destruct (b_closed b); cbn [snd]; nochange. discriminate.
    + destruct (b_closed b); cbn [snd]; nochange. discriminate.
    + cbn [snd]. nochange.
    + destruct how; cbn [snd]; nochange. destruct (b_closed b); cbn [snd]; nochange.
    + destruct (b_closed b); cbn [snd]; nochange.
    + destruct (b_closed b); cbn [snd]; nochange.
      split; [|reflexivity].
      destruct (to_bytes_spec 0 2 (s_counter s) 0 0) as (m & T & R); try lia.
      unfold client_close, new_command, send_command, bind, lift. rewrite T. rewrite send_ok by auto.
      exists m. rewrite app_nil_r. cbn. auto.
Qed.

(* So calls only add to what was sent. *)
Lemma bcalls_grow v k l b s :
  can_send v -> 0 <= s_counter s -> s_counter s + zlen l <= 2 ^ 64 ->
  exists d, s_out (snd (bcalls v k l b s)) = s_out s ++ d.
Proof.
  intros V. revert b s. induction l as [|c l IH]; intros b s C1 C2; cbn [bcalls].
  - exists []. cbn. rewrite app_nil_r. auto.
  - rewrite zlen_cons in C2. pose proof (zlen_nonneg l).
    pose proof (bcall_sends v k c b s V ltac:(lia)) as B. cbn zeta in B.
    destruct (bcall v k c b s) as [[r b'] s'] eqn:E. cbn [snd] in B.
    assert (s_counter s <= s_counter s' <= s_counter s + 1 /\ exists d, s_out s' = s_out s ++ d) as [X [d D]].
    { destruct (req_of k b c) as [[[[[fl ty] off] len] data]|].
      - destruct B as [(m & _ & B1 & B2) _]. split; [lia|]. eauto.
      - destruct B as (B1 & B2 & _). split; [lia|]. exists []. rewrite app_nil_r. auto. }
    destruct (IH b' s') as [d' D']; [lia|lia|].
    destruct (bcalls v k l b' s') as [[rs b''] s'']. cbn [snd] in *. exists (d ++ d').
    rewrite D', D, app_assoc. auto.
Qed.

(* The first request received is the first request sent. *)
Lemma app_same_length (x x1 y y1 : list byte) : zlen x = zlen x1 -> x ++ y = x1 ++ y1 -> x = x1 /\ y = y1.
Proof.
  unfold zlen. revert x1. induction x as [|c x IH]; intros [|c1 x1] Z0 Q; cbn in *; try lia; auto.
  injection Q as <- Q. destruct (IH x1) as [-> ->]; auto. lia.
Qed.
Lemma request_bytes_len f t h o n l : request_bytes f t h o n l -> zlen l = 28.
Proof.
  intros (a & b & c & d & e & g & -> & [A _] & [B _] & [C _] & [D _] & [E _] & [G _]).
  rewrite !zlen_app. lia.
Qed.
Lemma requests_first rs fl ty h off len m data out :
  requests rs (m ++ data ++ out) -> request_bytes fl ty h off len m ->
  (if ty =? 1 then zlen data = len else data = []) ->
  exists rs', rs = Request fl ty h off len data :: rs' /\ requests rs' out.
Proof.
  intros R B D. pose proof (request_bytes_len _ _ _ _ _ _ B) as LB.
  remember (m ++ data ++ out) as w eqn:W. symmetry in W.
  destruct R as [|f t h' o n d b l out' B' D' R'].
  - exfalso. apply (f_equal zlen) in W. rewrite !zlen_app, LB in W. pose proof (zlen_nonneg data). pose proof (zlen_nonneg out).
    rewrite (@zlen_nil byte) in W. lia.
  - pose proof (request_bytes_len _ _ _ _ _ _ B') as LB'.
    apply app_same_length in W as [-> E]; [|lia].
    destruct (request_decoding _ _ _ _ _ _ _ _ _ _ _ B B') as (-> & -> & -> & -> & ->).
    apply app_same_length in E as [-> ->]; [eauto|].
    destruct (t =? 1); [lia|]. subst. auto.
Qed.

(* ---- receiving ---- *)

(* A reply without data to an operation without data *)
Lemma op_done v k o s l r fl ty off len data :
  can_send v -> fits o -> 0 <= s_counter s < 2 ^ 64 -> demanded k o = Some (fl, ty, off, len, data) ->
  match o with OWrite _ _ | OZero _ _ _ | OFlush => True | _ => False end ->
  done_reply (k_structured k) (s_counter s) l -> s_in s = l ++ r ->
  exists s', do_op v k o s = (inl tt, s') /\ s_in s' = r.
Proof.
  intros V F C D O R I.
  destruct (op_start v k o s fl ty off len data) as (b & i & _ & _ & E); auto. rewrite E.
  destruct R as [R|[K R]].
  - destruct (recv_simple_ok v k (s_counter s) off (started k o s (b ++ data) i) r l []) as [j J]; auto.
    { destruct o; try contradiction; reflexivity. }
    { destruct o; try contradiction; reflexivity. }
    rewrite J. eexists. split; [reflexivity|]. reflexivity.
  - destruct (recv_reply_spec v k (s_counter s) off [CNone] l (started k o s (b ++ data) i) r) as [j J]; auto.
    { repeat constructor. }
    rewrite J. cbn [outcome]. eexists.
    assert (s_errors (apply_chunk k off CNone (set_structured (started k o s (b ++ data) i))) = []) as -> by reflexivity.
    split; [reflexivity|]. reflexivity.
Qed.
Lemma op_error v k o s l r fl ty off len data :
  can_send v -> fits o -> 0 <= s_counter s < 2 ^ 64 -> demanded k o = Some (fl, ty, off, len, data) ->
  match o with OWrite _ _ | OZero _ _ _ | OFlush => True | _ => False end ->
  error_reply (k_structured k) (s_counter s) l -> s_in s = l ++ r ->
  exists e s', do_op v k o s = (inr e, s') /\ s_in s' = r.
Proof.
  intros V F C D O [(code & CD & R)|(K & cs & R & X & FA)] I.
  - destruct (failed_request_consumes_simple_reply_partial v k s o l r code) as (s' & E1 & E2); auto; [congruence| |eauto].
    destruct o; auto; contradiction.
  - destruct (failed_request_consumes_reply_partial v k s o cs l r) as (e & s' & E1 & E2 & _); auto; [congruence| |eauto].
    eapply Forall_impl; [|exact FA]. cbn. intros c [Y|Y]; subst; cbn; auto.
Qed.

Lemma zlen_take' n (l : list byte) : 0 <= n <= zlen l -> zlen (take n l) = n.
Proof. intros. rewrite zlen_take. lia. Qed.

(* The state of the array for a state of the backend *)
Definition arr (img : list byte) (b : backend) : array := Array img (b_position b) (b_dirty b) (b_closed b).
Definition cfg (k : client) (b : backend) : config :=
  Config (readable b) (writable b) (Z.testbit (k_tflags k) 6) (Z.testbit (k_tflags k) 2).

(* A call asking the server. *)
Lemma bcall_asked v k c b s img fl ty off len data ok img1 l r :
  can_send v -> 0 <= s_counter s < 2 ^ 64 -> k_size k = zlen img ->
  req_of k b c = Some (fl, ty, off, len, data) ->
  answered (k_structured k) img (Request fl ty (s_counter s) off len data) ok img1 l ->
  s_in s = l ++ r ->
  exists res b' s', bcall v k c b s = (res, b', s') /\ s_in s' = r
    /\ acts (cfg k b) c (Some ok) (arr img b) (result_of res) (arr img1 b')
    /\ cfg k b' = cfg k b /\ zlen img1 = zlen img.
Proof.
  intros V C K R A I. unfold req_of in R. destruct (op_of k b c) as [o|] eqn:O.
  - destruct (fitsb o) eqn:FB; [|discriminate]. assert (fits o) as F by (apply fitsb_fits; auto).
    rewrite (bcall_op v k c b s o O). unfold op_of in O. destruct (b_closed b) eqn:CL; [discriminate|].
    destruct c; try discriminate.
    + destruct (readable b) eqn:RD; [|discriminate].
      destruct (_ <=? 0) eqn:N0; [discriminate|]. injection O as <-. cbn [demanded] in R.
      injection R as <- <- <- <- <-. cbn [fitsb] in FB.
      set (n := Z.min (zlen buf) (k_size k - b_position b)) in *.
      assert (zlen (take n buf) = n) as LT by (apply zlen_take'; unfold n in *; lia).
      rewrite LT in *.
      assert (EX : acts (cfg k b) (BReadinto buf) (Some true) (arr img b)
                 (Done n (sub (b_position b) n img ++ drop n buf)) (arr img (moved b n (b_dirty b)))).
      { unfold arr at 2, moved. cbn [b_position b_dirty b_closed].
        apply act_read; cbn [a_closed a_data a_pos arr]; auto; unfold n in *; lia. }
      inversion A; subst.
      * destruct (structured_read v k s img1 (b_position b) (take n buf) cs l r) as (s' & E1 & E2 & E3); auto; rewrite ?LT; auto.
        cbn [do_op]. rewrite E1. eexists _, _, _. split; [reflexivity|]. cbn [success fst snd]. fold n.
        split; auto. rewrite E2. cbn [result_of]. rewrite LT. auto.
      * destruct (simple_read v k s (b_position b) (take n buf) (sub (b_position b) n img1) l r) as (s' & E1 & E2 & E3); auto; rewrite ?LT; auto.
        { rewrite zlen_sub. unfold n in *. lia. }
        cbn [do_op]. rewrite E1. eexists _, _, _. split; [reflexivity|]. cbn [success fst snd]. fold n.
        split; auto. rewrite E2. cbn [result_of]. auto.
      * destruct (failed_request_consumes_reply_partial v k s (ORead (b_position b) (take n buf)) cs l r) as (e & s' & E1 & E2 & _); auto; [discriminate| |].
        { eapply Forall_impl; [|eassumption]. cbn. intros ch [Y|Y]; auto. right.
          destruct ch; cbn in *; try contradiction; auto; rewrite LT; intuition. }
        rewrite E1. eexists _, _, _. split; [reflexivity|]. split; auto. cbn [result_of].
        split; auto. eapply act_read_error; cbn [a_closed a_data a_pos arr]; auto; unfold n in *; try lia.
        rewrite <- K. auto.
      * destruct (failed_request_consumes_simple_reply_partial v k s (ORead (b_position b) (take n buf)) l r code) as (s' & E1 & E2); auto; [discriminate|].
        rewrite E1. eexists _, _, _. split; [reflexivity|]. split; auto. cbn [result_of].
        split; auto. eapply act_read_error; cbn [a_closed a_data a_pos arr]; auto; unfold n in *; try lia.
        rewrite <- K. auto.
      * lia.
    + destruct (writable b) eqn:WR; [|discriminate]. injection O as <-. pose proof R as DM. cbn [demanded] in R.
      injection R as <- <- <- <- <-. cbn [fitsb] in FB. pose proof (zlen_nonneg data0).
      inversion A; subst.
      * edestruct (op_done v k) as (s' & E1 & E2); eauto; [cbn; auto|].
        rewrite E1. eexists _, _, _. split; [reflexivity|]. split; auto. cbn [success fst snd result_of].
        split; [|split; [reflexivity|apply zlen_splice_in; lia]].
        unfold arr at 2, moved. cbn [b_position b_dirty b_closed]. apply act_write; auto.
      * edestruct (op_error v k) as (e & s' & E1 & E2); eauto; [cbn; auto|].
        rewrite E1. eexists _, _, _. split; [reflexivity|]. split; auto. cbn [result_of].
        split; [|split; [reflexivity|match goal with H : same_outside _ _ _ _ |- _ => apply H end]].
        apply act_write_error; auto.
    + destruct (writable b) eqn:WR; [|discriminate]. injection O as <-. pose proof R as DM. cbn [demanded] in R.
      destruct (Z.testbit (k_tflags k) 6) eqn:TB; [|discriminate].
      injection R as <- <- <- <- <-. cbn [fitsb] in FB. pose proof F as F'. cbn [fits] in F'.
      inversion A; subst.
      * edestruct (op_done v k) as (s' & E1 & E2); eauto; [cbn; auto|].
        rewrite E1. eexists _, _, _. split; [reflexivity|]. split; auto. cbn [success fst snd result_of].
        split; [|split; [reflexivity|apply zlen_splice_in; rewrite ?zlen_zeros; lia]].
        unfold arr at 2, moved. cbn [b_position b_dirty b_closed]. apply act_zero; auto.
      * edestruct (op_error v k) as (e & s' & E1 & E2); eauto; [cbn; auto|].
        rewrite E1. eexists _, _, _. split; [reflexivity|]. split; auto. cbn [result_of].
        split; [|split; [reflexivity|match goal with H : same_outside _ _ _ _ |- _ => apply H end]].
        apply act_zero_error; auto.
    + injection O as <-. pose proof R as DM. cbn [demanded] in R.
      destruct (Z.testbit (k_tflags k) 2) eqn:TB; [|discriminate].
      injection R as <- <- <- <- <-.
      inversion A; subst.
      * edestruct (op_done v k) as (s' & E1 & E2); eauto.
        rewrite E1. eexists _, _, _. split; [reflexivity|]. split; auto. cbn [success fst snd result_of].
        split; [|split; reflexivity].
        unfold arr at 2, moved. cbn [b_position b_dirty b_closed]. rewrite Z.add_0_r. apply act_flush; auto.
      * lia.
      * edestruct (op_error v k) as (e & s' & E1 & E2); eauto.
        rewrite E1. eexists _, _, _. split; [reflexivity|]. split; auto. cbn [result_of].
        split; [|split; reflexivity].
        apply act_flush_error; auto.
  - destruct c; try discriminate. destruct (b_closed b) eqn:CL; [discriminate|]. injection R as <- <- <- <- <-.
    inversion A; subst; [|lia].
    pose proof (bcall_sends v k BClose b s V C) as BS. cbn zeta in BS.
    cbn [bcall]. rewrite CL.
    destruct (to_bytes_spec 0 2 (s_counter s) 0 0) as (m & T & _); try lia.
    unfold client_close, new_command, send_command, bind, lift. rewrite T. rewrite send_ok by auto.
    eexists _, _, _. split; [reflexivity|]. cbn [s_in set_out result_of]. split; auto.
    split; [|split; reflexivity]. apply act_close; auto.
Qed.

(* A call not asking the server. *)
Lemma bcall_local v k c b s img :
  can_send v -> 0 <= s_counter s < 2 ^ 64 -> k_size k = zlen img -> req_of k b c = None ->
  exists res b' s', bcall v k c b s = (res, b', s')
    /\ acts (cfg k b) c None (arr img b) (result_of res) (arr img b')
    /\ cfg k b' = cfg k b.
Proof.
  intros V C K R. unfold req_of in R. destruct (op_of k b c) as [o|] eqn:O.
  - rewrite (bcall_op v k c b s o O). unfold op_of in O. destruct (b_closed b) eqn:CL; [discriminate|].
    assert (FL : fitsb o = false -> exists e s', do_op v k o s = (inr e, s')).
    { intros FB. destruct (op_unfit v k o s) as [[e E] _].
      - intros X. apply fitsb_fits in X. congruence.
      - destruct (do_op v k o s) as [x s']. cbn in E. subst. eauto. }
    destruct c; try discriminate.
    + destruct (readable b) eqn:RD; [|discriminate].
      destruct (_ <=? 0) eqn:N0; [discriminate|]. injection O as <-.
      destruct (fitsb _) eqn:FB; [cbn in R; discriminate|]. destruct (FL eq_refl) as (e & s' & ->).
      eexists _, _, _. split; [reflexivity|]. split; [|reflexivity]. cbn [result_of].
      apply act_read_refused. right. right. cbn [a_data a_pos arr]. split; [lia|].
      cbn [fitsb] in FB. rewrite zlen_take' in FB by lia. rewrite <- K. auto.
    + destruct (writable b) eqn:WR; [|discriminate]. injection O as <-.
      destruct (fitsb _) eqn:FB; [cbn in R; discriminate|]. destruct (FL eq_refl) as (e & s' & ->).
      eexists _, _, _. split; [reflexivity|]. split; [|reflexivity]. cbn [result_of].
      apply act_write_refused. auto.
    + destruct (writable b) eqn:WR; [|discriminate]. injection O as <-.
      destruct (fitsb _) eqn:FB.
      * cbn [demanded] in R. destruct (Z.testbit (k_tflags k) 6) eqn:TB; [discriminate|].
        cbn [do_op]. unfold zero. change FLAG_SEND_WRITE_ZEROES with (2 ^ 6). rewrite land_pow2, TB by lia. cbn [negb raise].
        eexists _, _, _. split; [reflexivity|]. split; [|reflexivity]. cbn [result_of]. apply act_zero_refused. auto.
      * destruct (FL eq_refl) as (e & s' & ->).
        eexists _, _, _. split; [reflexivity|]. split; [|reflexivity]. cbn [result_of].
        apply act_zero_refused. auto.
    + injection O as <-. cbn [fitsb demanded] in R. destruct (Z.testbit (k_tflags k) 2) eqn:TB; [discriminate|].
      cbn [do_op]. unfold flush. change FLAG_SEND_FLUSH with (2 ^ 2). rewrite land_pow2, TB by lia. cbn [negb ret].
      eexists _, _, _. split; [reflexivity|]. split; [|reflexivity]. cbn [result_of success fst snd].
      unfold arr at 2, moved. cbn [b_position b_dirty b_closed]. rewrite Z.add_0_r.
      apply act_flush_unsupported; auto.
  - unfold op_of in O. destruct c; cbn [bcall] in *.
    + destruct (readable b) eqn:RD; cbn [negb].
      2:{ eexists _, _, _. split; [reflexivity|]. split; [|reflexivity]. apply act_read_refused. auto. }
      destruct (b_closed b) eqn:CL.
      { eexists _, _, _. split; [reflexivity|]. split; [|reflexivity]. apply act_read_refused. auto. }
      destruct (_ <=? 0) eqn:N0; [|discriminate].
      eexists _, _, _. split; [reflexivity|]. split; [|reflexivity]. apply act_read_end; auto.
      cbn [a_data a_pos arr]. pose proof (zlen_nonneg buf). lia.
    + destruct (writable b) eqn:RD; cbn [negb].
      2:{ eexists _, _, _. split; [reflexivity|]. split; [|reflexivity]. apply act_write_refused. auto. }
      destruct (b_closed b) eqn:CL; [|discriminate].
      eexists _, _, _. split; [reflexivity|]. split; [|reflexivity]. apply act_write_refused. auto.
    + destruct (writable b) eqn:RD; cbn [negb].
      2:{ eexists _, _, _. split; [reflexivity|]. split; [|reflexivity]. apply act_zero_refused. auto. }
      destruct (b_closed b) eqn:CL; [|discriminate].
      eexists _, _, _. split; [reflexivity|]. split; [|reflexivity]. apply act_zero_refused. auto.
    + destruct (b_closed b) eqn:CL; [|discriminate].
      eexists _, _, _. split; [reflexivity|]. split; [|reflexivity]. apply act_flush_closed. auto.
    + eexists _, _, _. split; [reflexivity|]. split; [|reflexivity]. apply act_tell.
    + destruct how.
      * eexists _, _, _. split; [reflexivity|]. split; [|reflexivity]. apply act_seek. auto.
      * eexists _, _, _. split; [reflexivity|]. split; [|reflexivity]. apply act_seek. auto.
      * destruct (b_closed b) eqn:CL.
        -- eexists _, _, _. split; [reflexivity|]. split; [|reflexivity]. apply act_seek_closed. auto.
        -- eexists _, _, _. split; [reflexivity|]. split; [|reflexivity]. rewrite K. cbn [result_of].
           unfold arr at 2. cbn [b_position b_dirty b_closed]. rewrite <- CL.
           apply act_seek. auto.
      * eexists _, _, _. split; [reflexivity|]. split; [|reflexivity]. apply act_seek. auto.
    + destruct (b_closed b) eqn:CL.
      * eexists _, _, _. split; [reflexivity|]. split; [|reflexivity]. apply act_size_closed. auto.
      * eexists _, _, _. split; [reflexivity|]. split; [|reflexivity]. rewrite K. apply act_size. auto.
    + destruct (b_closed b) eqn:CL; [|discriminate].
      eexists _, _, _. split; [reflexivity|]. split; [|reflexivity]. apply act_close_again. auto.
Qed.
