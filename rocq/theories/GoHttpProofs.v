From Coq Require Import ZArith List Bool Ascii String Lia.
From Verif Require Import BytesLib HeaderModel HttpModel OpsModel OpsTheorems ImagesModel ImagesSpec ExtentsModel
  HttpBackendModel HttpBackendSpec HttpBackendProofs GoModel GoSpec GoHttpModel GoHttpSpec.
Import ListNotations.
Open Scope Z_scope.

Definition fits (x : image_extent) : Prop :=
  0 <= e_start (go_extent x) < 2 ^ 64 /\ 0 <= e_length (go_extent x) < 2 ^ 64.

Lemma decode_uint_ok old n : 0 <= n < 2 ^ 64 -> decode_uint old (Some (JInt n)) = (n, true).
Proof.
  intros H. unfold decode_uint. replace (0 <=? n) with true by lia. replace (n <? 2 ^ 64) with true by lia. reflexivity.
Qed.

Lemma decode_dict old x : fits x -> decode_extent old (to_dict x) = (Some (go_extent x), true).
Proof.
  intros [A B]. destruct x as [a b c d|a b c d]; cbn [go_extent e_start e_length] in *; unfold decode_extent, to_dict.
  all: match goal with |- context [lookup ?d (lits "start")] =>
    replace (lookup d (lits "start")) with (Some (JInt a)) by reflexivity;
    replace (lookup d (lits "length")) with (Some (JInt b)) by reflexivity end.
  1: match goal with |- context [lookup ?l (lits "zero")] => replace (lookup l (lits "zero")) with (Some (JBool c)) by reflexivity end.
  2: match goal with |- context [lookup ?l (lits "zero")] => replace (lookup l (lits "zero")) with (Some (JBool d)) by reflexivity end.
  all: rewrite !decode_uint_ok by auto; reflexivity.
Qed.

Lemma decode_dicts : forall l old, Forall fits l ->
  decode_slice old (map to_dict l) = (map Some (map go_extent l), true).
Proof.
  induction l as [|x l IH]; intros old F; auto. inversion F; subst. cbn [map decode_slice].
  rewrite decode_dict by auto. rewrite IH by auto. reflexivity.
Qed.

Section Calls.
Variables (id : str) (img : list byte) (envs : nat -> senv) (breaks : nat -> option Z).
Hypothesis U : forall i, usable id (zlen img) (envs i).
Hypothesis FI : forall i, fitting (zlen img) (envs i).
Hypothesis LI : zlen img < 2 ^ 63.
Notation srv := (imageio id envs).

Definition given (es : list extent) : Prop :=
  exists i l, se_ext (envs i) false img = Some l /\ es = map go_extent l.

Definition inv (s : gb iworld) : Prop :=
  iw_img (g_world s) = img /\ (g_size s = 0 \/ g_size s = zlen img) /\
  (g_extents s = [] \/ exists es, g_extents s = map Some es /\ given es).

Lemma getExtents_spec s ok s' : getExtents srv breaks s = (ok, s') -> inv s ->
  inv s' /\ (ok = true -> exists i l, se_ext (envs i) false img = Some l /\ g_extents s' = map Some (map go_extent l)).
Proof.
  intros E (I1 & I2 & I3). unfold getExtents, client_do in E.
  destruct (srv (g_world s) (MExtents (lits "zero"))) as [r w] eqn:S.
  apply (srv_extents id envs _ _ _ false) in S as (S1 & _ & S3).
  destruct r as [p|]. 2:{ injection E as <- <-. split; [|discriminate]. repeat split; cbn; auto. congruence. }
  destruct (Z.eqb_spec (p_status p) 200) as [PS|PS]; cbn [negb] in E.
  2:{ injection E as <- <-. split; [|discriminate]. repeat split; cbn; auto. congruence. }
  destruct (breaks (g_reqs s)). { injection E as <- <-. split; [|discriminate]. repeat split; cbn; auto. congruence. }
  destruct (S3 p eq_refl PS) as (l & L & J). rewrite J in E. cbn [unmarshal g_extents] in E. rewrite I1 in L.
  rewrite decode_dicts in E by (eapply FI; eauto). injection E as <- <-. split; [|eauto].
  split; [cbn; congruence|]. split; auto. right. exists (map go_extent l). split; auto. exists (iw_n (g_world s)), l. auto.
Qed.

Lemma last_end i l : se_ext (envs i) false img = Some l ->
  exists x r, rev (map Some (map go_extent l)) = Some x :: r /\ e_start x + e_length x = zlen img.
Proof.
  intros E. destruct (U i) as (_ & _ & _ & X). specialize (X img l eq_refl E). unfold extents_end in X.
  rewrite map_map, <- map_rev. destruct (rev l) as [|x r]; [discriminate|]. exists (go_extent x), (map (fun y => Some (go_extent y)) r).
  split; [reflexivity|]. destruct x; injection X as X; cbn; lia.
Qed.

Lemma u64_small n : 0 <= n < 2 ^ 64 -> u64 n = n.
Proof. intros. apply Z.mod_small. auto. Qed.

Lemma gsize_spec s r s' : gsize srv breaks s = (r, s') -> inv s ->
  inv s' /\ (r = GErr \/ r = GOk (zlen img)).
Proof.
  intros E I. pose proof (zlen_nonneg img). unfold gsize in E. destruct (Z.eqb_spec (g_size s) 0) as [Z0|Z0].
  - destruct (getExtents srv breaks s) as [ok s1] eqn:G. apply getExtents_spec in G as (I1 & G); auto.
    destruct ok; [|injection E as <- <-; auto]. destruct (G eq_refl) as (i & l & L & X).
    destruct (last_end i l L) as (x & r1 & R & T). rewrite X, R, T, u64_small in E by lia. injection E as <- <-.
    split; [|auto]. destruct I1 as (A & _ & B). split; [exact A|]. split; [right; reflexivity|cbn [g_extents]; rewrite <- X; exact B].
  - injection E as <- <-. split; auto. destruct I as (_ & [?| ->] & _); [lia|]. auto.
Qed.

Lemma gextents_spec s r s' : gextents srv breaks s = (r, s') -> inv s ->
  inv s' /\ (r = GErr \/ exists es, r = GOk (map Some es) /\ given es).
Proof.
  intros E I. unfold gextents in E. destruct (g_extents s) as [|x l] eqn:X.
  - destruct (getExtents srv breaks s) as [ok s1] eqn:G. apply getExtents_spec in G as (I1 & G); auto.
    destruct ok; injection E as <- <-; [|auto]. split; auto. right. destruct (G eq_refl) as (i & l & L & Y).
    rewrite Y. exists (map go_extent l). split; auto. exists i, l. auto.
  - injection E as <- <-. split; auto. right. destruct I as (_ & _ & [I|(es & I & G)]); [congruence|].
    rewrite X in I. rewrite I. eauto.
Qed.

Lemma gget_spec off length s r s' : gget srv breaks off length s = (r, s') -> inv s ->
  inv s' /\ forall p cut, r = Some (p, cut) ->
  0 <= off /\ 0 < length /\ off + length <= zlen img /\ exists k, is_range img off k (p_body p) /\ 0 <= k <= length.
Proof.
  intros E (I1 & I2 & I3). unfold gget, client_do in E.
  destruct (srv (g_world s) (MGet (Some (range_header off length)))) as [x w] eqn:S.
  change (range_header off length) with (range_text off (off + length - 1)) in S.
  apply (srv_get id (zlen img) envs U) in S as (S1 & _ & S3); [|congruence].
  assert (I' : forall n, inv (GB (g_size s) (g_extents s) n w)) by (repeat split; cbn; auto; congruence).
  destruct x as [p|]; [|injection E as <- <-; split; [auto|discriminate]].
  destruct (Z.eqb_spec (p_status p) 206) as [PS|PS]; cbn [negb] in E; [|injection E as <- <-; split; [auto|discriminate]].
  destruct (match p_length p with Some n => n | None => -1 end =? length); cbn [negb] in E; injection E as <- <-; (split; [auto|]); [|discriminate].
  intros p0 cut [= <- _]. destruct (S3 p eq_refl PS) as (A & B & k & K & R). rewrite I1 in R.
  split; [lia|]. split; [lia|]. split; [lia|]. exists k. split; auto. lia.
Qed.

Lemma range_take img0 off k n d : is_range img0 off k d -> 0 <= n <= k -> is_range img0 off n (take n d).
Proof.
  intros [A B] H. split; [rewrite zlen_take; lia|]. intros i Hi. destruct (B i ltac:(lia)) as [B1 B2]. split; [lia|].
  rewrite getb_take by lia. replace (i <? n) with true by lia. auto.
Qed.

Lemma gread_spec buf off s r s' : gread srv breaks buf off s = (r, s') -> inv s ->
  zlen buf < 2 ^ 63 -> - 2 ^ 63 <= off < 2 ^ 63 ->
  inv s' /\ exists n e buf', r = Some (n, e, buf') /\ reader_at img off buf n e buf'.
Proof.
  intros E I LB OFF. pose proof (zlen_nonneg img). pose proof (zlen_nonneg buf).
  assert (BAD : forall b, zlen b = zlen buf -> reader_at img off buf 0 (EErr 0) b).
  { intros b LB1. unfold reader_at. repeat split; try lia; try discriminate; auto. }
  unfold gread in E. destruct (gsize srv breaks s) as [sz s1] eqn:G. apply gsize_spec in G as (I1 & [->| ->]); auto.
  { injection E as <- <-. split; auto. eexists _, _, _. split; [reflexivity|]. auto. }
  assert (EO : off < 0 \/ zlen img < off -> reader_at img off buf 0 EEOF buf).
  { intros O. unfold reader_at. repeat split; try lia; try discriminate; auto. }
  rewrite Z.gtb_ltb in E. destruct (Z.ltb_spec (zlen img) (u64 off)) as [O|O].
  { injection E as <- <-. split; auto. eexists _, _, _. split; [reflexivity|]. apply EO.
    destruct (Z.ltb_spec off 0); auto. rewrite u64_small in O by lia. auto. }
  assert (0 <= off) as O0.
  { destruct (Z.ltb_spec off 0) as [N|]; auto. unfold u64 in O. rewrite <- (Z_mod_plus_full off 1), Z.mod_small in O by lia. lia. }
  rewrite (u64_small off) in * by lia. rewrite (u64_small (off + zlen buf)), (u64_small (zlen img - off)), Z.gtb_ltb in E by lia.
  assert (X : exists len eof, (if zlen img <? off + zlen buf then (zlen img - off, EEOF) else (zlen buf, ENil)) = (len, eof) /\
    0 <= len <= zlen buf /\
    (eof = ENil /\ len = zlen buf \/ eof = EEOF /\ len = zlen img - off /\ zlen img < off + zlen buf)).
  { destruct (Z.ltb_spec (zlen img) (off + zlen buf)); eexists _, _; (split; [reflexivity|]); (split; [lia|]); [right; repeat split; lia|auto]. }
  destruct X as (len & eof & X & L1 & C). rewrite X in E. clear X.
  destruct (gget srv breaks off len s1) as [y s2] eqn:G. apply gget_spec in G as (I2 & G); auto.
  destruct y as [[p cut]|]. 2:{ injection E as <- <-. split; auto. eexists _, _, _. split; [reflexivity|]. auto. }
  destruct (G p cut eq_refl) as (_ & G1 & G2 & k & R & K). clear G.
  assert (AR : arriving len p cut = take (match cut with None => len | Some c => Z.min c len end) (p_body p)).
  { unfold arriving. destruct cut; auto. apply take_take. }
  remember (match cut with None => len | Some c => Z.min c len end) as m eqn:M. rewrite AR in E.
  assert (LM : zlen (take m (p_body p)) <= len). { rewrite zlen_take. destruct cut; lia. }
  assert (ZB : zlen (take m (p_body p) ++ drop (zlen (take m (p_body p))) buf) = zlen buf).
  { rewrite zlen_app, zlen_drop. pose proof (zlen_nonneg (take m (p_body p))). lia. }
  destruct (Z.ltb_spec (zlen (take m (p_body p))) len) as [SH|SH]; injection E as <- <-; (split; [auto|]);
    eexists _, _, _; (split; [reflexivity|]); auto.
  pose proof R as [RL _]. rewrite zlen_take in SH, LM. assert (k = len /\ len <= m) as [-> LEM] by (destruct cut; lia).
  rewrite (take_all m (p_body p)) in * by lia.
  unfold reader_at. split; [auto|]. split; [lia|]. split; [destruct C as [[-> ->]|[-> _]]; [lia|discriminate]|].
  split. { intros _. split; auto. rewrite take_app, RL, Z.sub_diag, (take_nonpos 0), app_nil_r, take_all by lia. exact R. }
  split. { intros ->. destruct C as [[? _]|(_ & -> & C)]; [discriminate|]. split; [lia|]. auto. }
  split; [intros x ->; destruct C as [[? _]|[? _]]; discriminate|]. lia.
Qed.

Lemma grun_spec : forall cs s, inv s -> Forall go_call cs ->
  inv (snd (grun srv breaks cs s)) /\ Forall2 (good_call img given) cs (fst (grun srv breaks cs s)).
Proof.
  induction cs as [|c cs IH]; intros s I F; [split; [auto|constructor]|]. inversion F as [|? ? F1 F2]; subst. cbn [grun].
  destruct (grun_call srv breaks c s) as [r s1] eqn:R.
  assert (X : inv s1 /\ good_call img given c r).
  { destruct c as [| |buf off]; cbn [grun_call] in R.
    - destruct (gsize srv breaks s) as [x s2] eqn:G. injection R as <- <-. apply gsize_spec in G as (A & [->| ->]); auto; split; auto; reflexivity.
    - destruct (gextents srv breaks s) as [x s2] eqn:G. injection R as <- <-. apply gextents_spec in G as (A & [->|(es & -> & B)]); auto; (split; [auto|]); cbn; eauto.
    - destruct (gread srv breaks buf off s) as [x s2] eqn:G. injection R as <- <-. destruct F1 as [F1 F3].
      apply gread_spec in G as (A & n & e & b & -> & B); auto. }
  destruct X as [X1 X2]. specialize (IH s1 X1 F2). destruct (grun srv breaks cs s1) as [rs s2]. cbn [fst snd] in *.
  split; [apply IH|]. constructor; [auto|apply IH].
Qed.

End Calls.

(* ---- decoding ---- *)

Lemma decode_uint_means j : match decode_uint 0 j with
  | (n, true) => uint_member j n | (_, false) => forall m, ~ uint_member j m end.
Proof.
  destruct j as [[]|]; cbn [decode_uint uint_member]; try reflexivity; try (intros m []; fail).
  destruct ((0 <=? n) && (n <? 2 ^ 64)) eqn:E; [split; [auto|lia]|intros m H; lia].
Qed.

Lemma decode_bool_means j : match decode_bool false j with
  | (n, true) => bool_member j n | (_, false) => forall m, ~ bool_member j m end.
Proof.
  destruct j as [[]|]; cbn [decode_bool bool_member]; try reflexivity; intros m [].
Qed.

Lemma decode_extent_means j : match decode_extent None j with
  | (e, true) => means_extent j e | (_, false) => forall e, ~ means_extent j e end.
Proof.
  destruct j as [| | | | | |d]; cbn [decode_extent means_extent]; try (intros [e|] H; exact H); auto.
  cbn [e_start e_length e_zero].
  pose proof (decode_uint_means (lookup d (lits "start"))) as A.
  pose proof (decode_uint_means (lookup d (lits "length"))) as B.
  pose proof (decode_bool_means (lookup d (lits "zero"))) as C.
  destruct (decode_uint 0 (lookup d (lits "start"))) as [s []]; cbn [andb].
  2: { destruct (decode_uint 0 (lookup d (lits "length"))), (decode_bool false (lookup d (lits "zero"))).
       intros [e|] H; [|exact H]. exact (A _ (proj1 H)). }
  destruct (decode_uint 0 (lookup d (lits "length"))) as [n []]; cbn [andb].
  2: { destruct (decode_bool false (lookup d (lits "zero"))).
       intros [e|] H; [|exact H]. exact (B _ (proj1 (proj2 H))). }
  destruct (decode_bool false (lookup d (lits "zero"))) as [z []]; cbn [andb].
  2: { intros [e|] H; [|exact H]. exact (C _ (proj2 (proj2 H))). }
  cbn [e_start e_length e_zero]. auto.
Qed.

Lemma decode_slice_means js : match decode_slice [] js with
  | (l, true) => Forall2 means_extent js l | (_, false) => forall l, ~ Forall2 means_extent js l end.
Proof.
  induction js as [|j js IH]; cbn [decode_slice List.tl]; [constructor|].
  pose proof (decode_extent_means j) as A. destruct (decode_extent None j) as [x []].
  - destruct (decode_slice [] js) as [l []]; cbn [andb]; [constructor; auto|].
    intros l0 H. inversion H; subst. eapply IH; eauto.
  - destruct (decode_slice [] js) as [l ok]; cbn [andb]. intros l0 H. inversion H; subst. eapply A; eauto.
Qed.

Lemma unmarshal_means j : match unmarshal [] j with
  | (l, true) => means_extents j l | (_, false) => forall l, ~ means_extents j l end.
Proof.
  destruct j as [[]|]; cbn [unmarshal means_extents]; try (intros l0 H; exact H); auto.
  apply decode_slice_means.
Qed.
