(* Lemmas about FileModel. *)
From Coq Require Import ZArith List Bool Lia.
From Verif Require Import BytesLib FileModel FileSpec.
Import ListNotations.
Open Scope Z_scope.

Lemma pow2_pos n : pow2 n -> 0 < n.
Proof. intros (k & K & ->). apply Z.pow_pos_nonneg; lia. Qed.

Lemma aligned_mod c n : pow2 (c_bs c) -> aligned c n = (n mod c_bs c =? 0).
Proof.
  intros (k & K & E). unfold aligned. rewrite E.
  replace (2 ^ k - 1) with (Z.ones k) by (rewrite Z.ones_equiv; lia).
  rewrite Z.land_ones by auto. reflexivity.
Qed.

(* byte at [i] after [d] is stored at [pos] *)
Definition put (data : list byte) (pos : Z) (d : list byte) (i : Z) : byte :=
  if (pos <=? i) && (i <? pos + zlen d) then getb d (i - pos) else getb data i.

(* [data'] is [data] with [d] stored at [pos], maybe padded with zeros. *)
Definition stored (bs : Z) (data : list byte) (pos : Z) (d data' : list byte) : Prop :=
  (forall i, getb data' i = put data pos d i) /\
  Z.max (zlen data) (pos + zlen d) <= zlen data' /\
  zlen data' < Z.max (zlen data + 1) (pos + zlen d + bs) /\
  (zlen data' = Z.max (zlen data) (pos + zlen d) \/ zlen data' mod bs = 0).

(* nothing outside of [lo,hi) changed; a block device keeps its size *)
Definition framed (blk : bool) (lo hi : Z) (data data' : list byte) : Prop :=
  (forall i, ~ lo <= i < hi -> getb data' i = getb data i) /\
  zlen data <= zlen data' /\
  (blk = true -> zlen data' = zlen data).

(* calls made between two states *)
Definition logged (bs : Z) (s s' : fst_) : Prop :=
  exists l, f_log s' = f_log s ++ l /\ Forall (call_aligned bs) l.

Lemma logged_refl bs s : logged bs s s.
Proof. exists []. rewrite app_nil_r. auto. Qed.

Lemma logged_trans bs s1 s2 s3 : logged bs s1 s2 -> logged bs s2 s3 -> logged bs s1 s3.
Proof.
  intros (l1 & E1 & F1) (l2 & E2 & F2). exists (l1 ++ l2). split.
  - rewrite E2, E1, app_assoc. reflexivity.
  - apply Forall_app. auto.
Qed.

Lemma logged_one bs s s' k :
  f_log s' = f_log s ++ [k] -> call_aligned bs k -> logged bs s s'.
Proof. intros E H. exists [k]. split; auto. Qed.

Lemma logged_same bs s s' : f_log s' = f_log s -> logged bs s s'.
Proof. intros E. exists []. rewrite app_nil_r. auto. Qed.

Lemma py_prefix {A} n (l : list A) : 0 <= n -> py_slice 0 n l = take n l.
Proof.
  intros. rewrite py_slice_nonneg by lia. unfold sub. rewrite drop_nonpos by lia.
  f_equal. lia.
Qed.

Lemma splice_put l pos d i : 0 <= pos -> getb (splice l pos d) i = put l pos d i.
Proof. intros. rewrite getb_splice by auto. reflexivity. Qed.

Lemma zlen_splice' l pos d : 0 <= pos -> d <> [] ->
  zlen (splice l pos d) = Z.max (zlen l) (pos + zlen d).
Proof. intros P D. rewrite zlen_splice by auto. destruct d; tauto. Qed.

Lemma zlen_splice_ge l pos d : 0 <= pos ->
  zlen l <= zlen (splice l pos d) <= Z.max (zlen l) (pos + zlen d).
Proof.
  intros. rewrite zlen_splice by auto. destruct d; lia.
Qed.

Lemma take_0 {A} (l : list A) : take 0 l = [].
Proof. reflexivity. Qed.

(* the block written back by _write_unaligned *)
Section Block.
  Variables (data buf : list byte) (bs start : Z).
  Hypothesis BS : 0 < bs.
  Hypothesis ST : 0 <= start.
  Let off := start mod bs.
  Let base := start - off.
  Let count := Z.min (zlen buf) (bs - off).
  Let avail := Z.max 0 (Z.min bs (zlen data - base)).
  Let rd := sub base avail data ++ drop avail (zeros bs).
  Let blk := assign rd off (take count buf).

  Lemma blk_off : 0 <= off < bs.
  Proof. apply Z.mod_pos_bound. auto. Qed.

  Lemma blk_base : 0 <= base.
  Proof.
    subst base off. pose proof (Z.mod_le start bs). lia.
  Qed.

  Lemma rd_len : zlen rd = bs.
  Proof.
    pose proof blk_base. pose proof (zlen_nonneg data).
    subst rd. rewrite zlen_app, zlen_sub, zlen_drop, zlen_zeros. subst avail. lia.
  Qed.

  Lemma rd_get i : 0 <= i < bs -> getb rd i = getb data (base + i).
  Proof.
    intros I. pose proof blk_base. pose proof (zlen_nonneg data).
    subst rd. rewrite getb_app by lia. rewrite zlen_sub.
    destruct (i <? _) eqn:E.
    - rewrite getb_sub by lia. subst avail. replace (i <? _) with true; [auto|lia].
    - rewrite getb_drop by (subst avail; lia).
      rewrite getb_zeros. symmetry. apply getb_past. subst avail. lia.
  Qed.

  Lemma count_bounds : 0 <= count <= zlen buf /\ count <= bs - off.
  Proof. pose proof blk_off. pose proof (zlen_nonneg buf). subst count. lia. Qed.

  Lemma take_count_len : zlen (take count buf) = count.
  Proof. pose proof count_bounds. rewrite zlen_take. lia. Qed.

  Lemma blk_len : zlen blk = bs.
  Proof.
    pose proof rd_len. pose proof blk_off. pose proof count_bounds. pose proof take_count_len.
    subst blk. unfold assign. rewrite !zlen_app, zlen_take, zlen_drop. lia.
  Qed.

  Lemma blk_get i : 0 <= i < bs -> getb blk i = put data start (take count buf) (base + i).
  Proof.
    intros I. pose proof rd_len. pose proof blk_off. pose proof count_bounds.
    pose proof take_count_len as TC. subst blk. unfold assign, put. rewrite TC.
    rewrite getb_app by lia. rewrite zlen_take.
    replace (Z.max 0 (Z.min off (zlen rd))) with off by lia.
    destruct (i <? off) eqn:E1.
    - rewrite getb_take by lia. rewrite E1.
      replace (start <=? base + i) with false by (subst base; lia).
      cbn [andb]. apply rd_get. lia.
    - rewrite getb_app by lia. rewrite TC.
      replace (start <=? base + i) with true by (subst base; lia). cbn [andb].
      replace (base + i <? start + count) with (i - off <? count) by (subst base; lia).
      destruct (i - off <? count) eqn:E2.
      + f_equal. subst base. lia.
      + rewrite getb_drop by lia. rewrite rd_get by lia. f_equal. lia.
  Qed.

  (* writing back any prefix of the block *)
  Lemma blk_splice n i : 0 <= n <= bs ->
    getb (splice data base (take n blk)) i =
    if i <? base + n then put data start (take count buf) i else getb data i.
  Proof.
    intros N. pose proof blk_base. pose proof blk_off. pose proof blk_len.
    rewrite getb_splice by auto. rewrite zlen_take.
    destruct (base <=? i) eqn:E1; cbn [andb].
    - replace (Z.max 0 (Z.min n (zlen blk))) with n by lia.
      destruct (i <? base + n) eqn:E2; auto.
      rewrite getb_take by lia. replace (i - base <? n) with true by lia.
      rewrite blk_get by lia. f_equal. lia.
    - destruct (i <? base + n) eqn:E2; auto. unfold put.
      replace (start <=? i) with false by (subst base; lia). reflexivity.
  Qed.
End Block.

Lemma mod_sub_mod a b : 0 < b -> (a - a mod b) mod b = 0.
Proof.
  intros. pose proof (Z.div_mod a b ltac:(lia)).
  replace (a - a mod b) with ((a / b) * b) by lia. apply Z_mod_mult.
Qed.

Lemma mod_add_l a b : 0 < b -> a mod b = 0 -> (a + b) mod b = 0.
Proof. intros. rewrite <- Z.add_mod_idemp_l, H0 by lia. apply Z_mod_same_full. Qed.

Lemma mod0_mult a b : 0 < b -> a mod b = 0 -> exists k, a = b * k.
Proof. intros. apply Z.div_exact in H0; [|lia]. eauto. Qed.

Lemma block_room c data base : 0 < c_bs c -> sized c data -> c_block c = true ->
  base mod c_bs c = 0 -> 0 <= base -> base < zlen data -> base + c_bs c <= zlen data.
Proof.
  intros B S K M N L. apply S in K. apply mod0_mult in M as (x & ->); auto.
  apply mod0_mult in K as (y & E); auto. rewrite E in *. assert (x < y) by nia. nia.
Qed.

Lemma write_unaligned_n c buf s s' n : write_unaligned c buf s = (s', inl n) ->
  n = Z.min (zlen buf) (c_bs c - f_pos s mod c_bs c).
Proof.
  unfold write_unaligned, bind, tell, seek, ret.
  destruct (sys_read _ _ _) as [s1 [p|x]]; [|discriminate].
  destruct (sys_write _ _ _) as [s2 [q|x]]; [|discriminate].
  intros H. injection H as _ <-. reflexivity.
Qed.

Lemma write_unaligned_gen c buf s s' r :
  pow2 (c_bs c) -> 0 <= f_pos s -> buf <> [] -> sized c (f_data s) -> whole_reads c ->
  write_unaligned c buf s = (s', r) ->
  logged (c_bs c) s s' /\
  framed (c_block c) (f_pos s) (f_pos s + zlen buf) (f_data s) (f_data s') /\
  match r with
  | inl n =>
      whole_writes c ->
      0 < n <= zlen buf /\ f_pos s' = f_pos s + n /\
      stored (c_bs c) (f_data s) (f_pos s) (take n buf) (f_data s')
  | inr x => x <> NoFuel
  end.
Proof.
  intros P2 P NE SZ WR. pose proof (pow2_pos _ P2) as BS. pose proof (zlen_pos _ NE) as LB.
  destruct s as [data start nc log zr ph fa]. cbn [f_pos f_data] in *.
  pose proof (Z.mod_pos_bound start (c_bs c) BS) as OFF.
  assert (BASE : 0 <= start - start mod c_bs c) by (pose proof (Z.mod_le start (c_bs c)); lia).
  pose proof (mod_sub_mod start (c_bs c) BS) as BM.
  pose proof (zlen_nonneg data) as LD.
  unfold write_unaligned, bind, tell, seek, set_pos, ret, sys_read, called.
  cbn [f_pos f_data f_calls f_log f_can_zero_range f_can_punch_hole f_can_fallocate].
  remember (c_bs c) as bs eqn:EB. remember (start mod bs) as off eqn:EO.
  rewrite zlen_zeros. replace (Z.max 0 bs) with bs by lia.
  destruct (c_kernel c nc (CRead (start - off) bs)) as [n|e k] eqn:K1.
  2:{ intros H; injection H as <- <-; cbn [f_pos f_data].
      split; [|split].
      - eapply logged_one; [reflexivity|]. cbn. split; auto. apply Z_mod_same_full.
      - split; [auto|split; [lia|auto]].
      - congruence. }
  assert (LN : bs <= n) by (subst bs; eapply WR; eauto).
  set (avail := Z.max 0 (Z.min bs (zlen data - (start - off)))).
  replace (Z.max (Z.min 1 avail) (Z.min avail n)) with avail by lia.
  cbn [fst]. remember (Z.min (zlen buf) (bs - off)) as count eqn:EC.
  rewrite py_prefix by lia.
  remember (assign (sub (start - off) avail data ++ drop avail (zeros bs)) off (take count buf))
    as blk eqn:EBLK.
  assert (LBLK : zlen blk = bs).
  { subst blk count off avail. apply blk_len; auto. }
  assert (GB : forall n i, 0 <= n <= bs ->
     getb (splice data (start - off) (take n blk)) i =
     if i <? (start - off) + n then put data start (take count buf) i else getb data i).
  { intros. subst blk count off avail. apply blk_splice; auto. }
  clearbody avail. clear EBLK.
  assert (TC : zlen (take count buf) = count) by (rewrite zlen_take; lia).
  unfold sys_write, room, called.
  cbn [f_pos f_data f_calls f_log f_can_zero_range f_can_punch_hole f_can_fallocate].
  rewrite LBLK.
  remember (if c_block c then Z.max 0 (Z.min bs (zlen data - (start - off))) else bs) as rm eqn:ER.
  assert (RM : rm = bs \/ (rm = 0 /\ c_block c = true)).
  { destruct (c_block c) eqn:CBL; [|auto].
    destruct (Z.lt_ge_cases (start - off) (zlen data)).
    - left. rewrite EB in *. pose proof (block_room c data (start - off) BS SZ CBL BM BASE H). lia.
    - right. lia. }
  assert (GROW : c_block c = true -> rm = bs -> (start - off) + bs <= zlen data).
  { intros CBL E. rewrite CBL in ER. lia. }
  assert (LOG : forall s', f_log s' = (log ++ [CRead (start - off) bs]) ++ [CWrite (start - off) bs] ->
     logged bs (FSt data start nc log zr ph fa) s').
  { intros t E. exists [CRead (start - off) bs; CWrite (start - off) bs]. split.
    - rewrite E, <- app_assoc. reflexivity.
    - repeat constructor; cbn; auto using Z_mod_same_full. }
  assert (FR : forall m, 0 <= m <= bs -> m <= rm ->
     framed (c_block c) start (start + zlen buf) data (splice data (start - off) (take m blk))).
  { intros m M1 M2. split; [|split].
    - intros i I. rewrite GB by lia. destruct (i <? start - off + m); auto.
      unfold put. rewrite TC.
      destruct (start <=? i) eqn:E1, (i <? start + count) eqn:E2; cbn [andb]; auto. lia.
    - apply zlen_splice_ge. lia.
    - intros CBL. pose proof (zlen_splice_ge data (start - off) (take m blk) ltac:(lia)) as G.
      rewrite zlen_take in G. destruct RM as [R|[R _]];
        [|rewrite take_nonpos by lia; reflexivity].
      specialize (GROW CBL R). lia. }
  destruct (c_kernel c (S nc) (CWrite (start - off) bs)) as [n2|e2 k2] eqn:K2.
  2:{ intros H; injection H as <- <-. cbn [f_data f_pos]. split; [|split]; [apply LOG; auto| |congruence].
      destruct (Z.le_gt_cases (Z.min rm k2) 0).
      - rewrite take_nonpos by lia. cbn [splice]. split; [auto|split; [lia|auto]].
      - apply FR; lia. }
  destruct ((rm =? 0) && negb (bs =? 0)) eqn:E0; intros H; injection H as <- <-; cbn [f_data f_pos].
  { split; [|split]; [apply LOG; auto| |congruence]. split; [auto|split; [lia|auto]]. }
  assert (RB : rm = bs) by lia.
  split; [|split]; [apply LOG; auto|apply FR; lia|].
  intros WW. assert (bs <= n2) by (subst bs; eapply WW; eauto).
  replace (Z.max (Z.min 1 rm) (Z.min rm n2)) with bs by lia.
  split; [lia|]. split; [lia|].
  split; [|].
  - intros i. rewrite GB by lia. destruct (i <? start - off + bs) eqn:E; auto.
    unfold put. rewrite TC. replace (i <? start + count) with false by lia.
    rewrite andb_false_r. reflexivity.
  - assert (NB : take bs blk <> []).
    { intros E. assert (X : zlen (take bs blk) = bs) by (rewrite zlen_take; lia).
      rewrite E, zlen_nil in X. lia. }
    rewrite (zlen_splice' _ _ _ BASE NB), TC, zlen_take. split; [lia|split; [lia|]].
    destruct (Z.le_gt_cases (start - off + bs) (zlen data)); [left; lia|].
    right. replace (Z.max _ _) with (start - off + bs) by lia. apply mod_add_l; auto.
Qed.

Lemma sys_write_gen c buf s s' r :
  0 <= f_pos s -> buf <> [] -> 0 < c_bs c ->
  f_pos s mod c_bs c = 0 -> zlen buf mod c_bs c = 0 ->
  sys_write c buf s = (s', r) ->
  logged (c_bs c) s s' /\
  framed (c_block c) (f_pos s) (f_pos s + zlen buf) (f_data s) (f_data s') /\
  match r with
  | inl n =>
      0 < n <= zlen buf /\ f_pos s' = f_pos s + n /\
      stored (c_bs c) (f_data s) (f_pos s) (take n buf) (f_data s')
  | inr x => x <> NoFuel
  end.
Proof.
  intros P NE BS A1 A2. pose proof (zlen_pos _ NE) as LB. pose proof (zlen_nonneg (f_data s)) as LD.
  unfold sys_write, called, room.
  remember (if c_block c then Z.max 0 (Z.min (zlen buf) (zlen (f_data s) - f_pos s)) else zlen buf)
    as rm eqn:ER.
  assert (RM : 0 <= rm <= zlen buf /\ (c_block c = true -> 0 < rm -> f_pos s + rm <= zlen (f_data s))).
  { destruct (c_block c); split; intros; try congruence; lia. }
  assert (FR : forall m, m <= rm ->
     framed (c_block c) (f_pos s) (f_pos s + zlen buf) (f_data s)
            (splice (f_data s) (f_pos s) (take m buf))).
  { intros m M. split; [|split].
    - intros i I. rewrite splice_put by auto. unfold put. rewrite zlen_take.
      destruct (f_pos s <=? i) eqn:E1, (i <? f_pos s + Z.max 0 (Z.min m (zlen buf))) eqn:E2;
        cbn [andb]; auto. lia.
    - apply zlen_splice_ge. lia.
    - intros CBL. pose proof (zlen_splice_ge (f_data s) (f_pos s) (take m buf) P) as G.
      rewrite zlen_take in G. destruct (Z.lt_ge_cases 0 m).
      + destruct RM as [R1 R2]. specialize (R2 CBL). lia.
      + rewrite take_nonpos by auto. reflexivity. }
  destruct (c_kernel c (f_calls s) (CWrite (f_pos s) (zlen buf))) as [n|e k].
  - destruct ((rm =? 0) && negb (zlen buf =? 0)) eqn:E0; intros H; injection H as <- <-;
      cbn [f_data f_pos].
    + split; [|split]; [eapply logged_one; [reflexivity|cbn; auto]| |congruence].
      split; [auto|split; [lia|auto]].
    + assert (R0 : 0 < rm) by lia.
      remember (Z.max (Z.min 1 rm) (Z.min rm n)) as m eqn:EM.
      split; [|split]; [eapply logged_one; [reflexivity|cbn; auto]|apply FR; lia|].
      split; [lia|]. split; [lia|].
      assert (TL : zlen (take m buf) = m) by (rewrite zlen_take; lia).
      split; [intros i; apply splice_put; auto|].
      assert (NB : take m buf <> []) by (intros E; rewrite E in TL; rewrite zlen_nil in TL; lia).
      rewrite (zlen_splice' _ _ _ P NB). rewrite TL. repeat split; lia.
  - intros H; injection H as <- <-; cbn [f_data f_pos].
    split; [|split]; [eapply logged_one; [reflexivity|cbn; auto]|apply FR; lia|congruence].
Qed.

Lemma framed_weaken blk lo hi hi' d d' : hi <= hi' -> framed blk lo hi d d' -> framed blk lo hi' d d'.
Proof. intros H (F & L). split; auto. intros i I. apply F. lia. Qed.

Lemma round_down_mod n b : 0 < b -> round_down n b mod b = 0.
Proof. intros. apply mod_sub_mod. auto. Qed.

Lemma round_down_bounds n b : 0 < b -> b <= n -> b <= round_down n b <= n.
Proof.
  intros. unfold round_down. pose proof (Z.mod_pos_bound n b H).
  pose proof (Z.div_mod n b ltac:(lia)). assert (1 <= n / b) by (apply Z.div_le_lower_bound; lia). nia.
Qed.

Lemma write_gen c buf s s' r :
  pow2 (c_bs c) -> 0 <= f_pos s -> buf <> [] -> sized c (f_data s) -> whole_reads c ->
  write c buf s = (s', r) ->
  logged (c_bs c) s s' /\
  framed (c_block c) (f_pos s) (f_pos s + zlen buf) (f_data s) (f_data s') /\
  match r with
  | inl n =>
      whole_writes c ->
      0 < n <= zlen buf /\ f_pos s' = f_pos s + n /\
      stored (c_bs c) (f_data s) (f_pos s) (take n buf) (f_data s')
  | inr x => x <> NoFuel
  end.
Proof.
  intros P2 P NE SZ WR. pose proof (pow2_pos _ P2) as BS. pose proof (zlen_pos _ NE) as LB.
  unfold write, bind, tell. rewrite !aligned_mod by auto.
  destruct (negb (f_pos s mod c_bs c =? 0) || (zlen buf <? c_bs c)) eqn:E1.
  { apply write_unaligned_gen; auto. }
  destruct (zlen buf mod c_bs c =? 0) eqn:E2.
  - intros H. apply sys_write_gen in H; auto; [|lia|lia].
    destruct r; tauto.
  - pose proof (round_down_bounds (zlen buf) (c_bs c) BS ltac:(lia)) as RB.
    rewrite py_prefix by lia.
    remember (take (round_down (zlen buf) (c_bs c)) buf) as b2 eqn:EB2.
    assert (L2 : zlen b2 = round_down (zlen buf) (c_bs c)) by (subst b2; rewrite zlen_take; lia).
    intros H. apply sys_write_gen in H; auto.
    + destruct H as (L & F & R). split; auto. split.
      { eapply framed_weaken; [|exact F]. lia. }
      destruct r as [n|x]; auto. intros _. destruct R as (N & PP & S).
      split; [lia|]. split; auto. subst b2. rewrite take_take in S.
      rewrite Z.min_l in S by lia. exact S.
    + intros E. rewrite E, zlen_nil in L2. lia.
    + lia.
    + rewrite L2. apply round_down_mod. auto.
Qed.

(* ---- zero ---- *)

Lemma put_zeros data pos n i : 0 <= n ->
  put data pos (zeros n) i = if (pos <=? i) && (i <? pos + n) then x00 else getb data i.
Proof.
  intros. unfold put. rewrite zlen_zeros, getb_zeros. replace (Z.max 0 n) with n by lia. reflexivity.
Qed.

Lemma framed_refl blk lo hi d : framed blk lo hi d d.
Proof. split; [auto|split; [lia|auto]]. Qed.

Lemma framed_trans blk lo hi d1 d2 d3 :
  framed blk lo hi d1 d2 -> framed blk lo hi d2 d3 -> framed blk lo hi d1 d3.
Proof.
  intros (A1 & A2 & A3) (B1 & B2 & B3). split; [|split].
  - intros i I. rewrite B1, A1; auto.
  - lia.
  - intros E. rewrite B3, A3; auto.
Qed.

Lemma framed_sub blk lo hi lo' hi' d d' : lo' <= lo -> hi <= hi' ->
  framed blk lo hi d d' -> framed blk lo' hi' d d'.
Proof. intros ? ? (F & L). split; auto. intros i I. apply F. lia. Qed.

Lemma stored_zeros_trans bs data pos a d1 b d2 : 0 < a -> 0 < b -> 0 < bs ->
  stored bs data pos (zeros a) d1 -> stored bs d1 (pos + a) (zeros b) d2 ->
  stored bs data pos (zeros (a + b)) d2.
Proof.
  intros A B BS (G1 & L1 & H1 & E1) (G2 & L2 & H2 & E2). unfold stored.
  rewrite zlen_zeros in *. replace (Z.max 0 a) with a in * by lia.
  replace (Z.max 0 b) with b in * by lia. replace (Z.max 0 (a + b)) with (a + b) by lia.
  split; [|split; [lia|split; [lia|]]].
  - intros i. rewrite G2, put_zeros, G1, !put_zeros by lia.
    destruct (pos + a <=? i) eqn:X1, (i <? pos + a + b) eqn:X2, (pos <=? i) eqn:X3,
      (i <? pos + a) eqn:X4, (i <? pos + (a + b)) eqn:X5; cbn [andb]; auto; lia.
  - destruct E2 as [E2|E2]; [|auto]. destruct E1 as [E1|E1]; [left; lia|].
    destruct (Z.le_gt_cases (zlen d1) (pos + a + b)); [left; lia|].
    right. rewrite E2. rewrite Z.max_l by lia. auto.
Qed.

(* the range ends at a block boundary: no padding *)
Lemma stored_exact bs data pos n d' : 0 < bs -> 0 <= pos -> 0 < n -> (pos + n) mod bs = 0 ->
  stored bs data pos (zeros n) d' -> d' = splice data pos (zeros n).
Proof.
  intros BS P N A (G & L & H & E). rewrite zlen_zeros in *. replace (Z.max 0 n) with n in * by lia.
  assert (ZN : zeros n <> []).
  { intros X. apply (f_equal zlen) in X. rewrite zlen_zeros in X. cbn in X. lia. }
  assert (EL : zlen d' = Z.max (zlen data) (pos + n)).
  { destruct E as [E|E]; auto. destruct (Z.eq_dec (zlen d') (Z.max (zlen data) (pos + n))); auto.
    exfalso. apply mod0_mult in A as (x & X); auto. apply mod0_mult in E as (y & Y); auto.
    rewrite X, Y in *. assert (x < y) by nia. assert (y < x + 1) by nia. lia. }
  apply bytes_ext.
  - rewrite (zlen_splice' _ _ _ P ZN), zlen_zeros. lia.
  - intros i I. rewrite G, splice_put; auto.
Qed.

(* states on the way to zeroing n bytes at pos *)
Definition pre (pos n : Z) (d d1 : list byte) : Prop :=
  (forall i, ~ pos <= i < pos + n -> getb d1 i = getb d i) /\
  zlen d <= zlen d1 <= Z.max (zlen d) (pos + n).

Lemma pre_refl pos n d : pre pos n d d.
Proof. split; auto. lia. Qed.

Lemma pre_trans pos n d1 d2 d3 : pre pos n d1 d2 -> pre pos n d2 d3 -> pre pos n d1 d3.
Proof.
  intros (A & B) (C & D). split; [|lia]. intros i I. rewrite C, A; auto.
Qed.

Lemma pre_stored bs pos n d d1 d2 : 0 < bs -> 0 <= n -> pre pos n d d1 ->
  stored bs d1 pos (zeros n) d2 -> stored bs d pos (zeros n) d2.
Proof.
  intros BS N (A & B) (G & L & H & E). unfold stored. rewrite zlen_zeros in *.
  replace (Z.max 0 n) with n in * by lia. split; [|split; [lia|split; [lia|]]].
  - intros i. rewrite G, !put_zeros by auto.
    destruct ((pos <=? i) && (i <? pos + n)) eqn:X; auto. apply A. lia.
  - destruct E; auto. left. lia.
Qed.

Lemma pre_framed pos n d d1 : pre pos n d d1 -> framed false pos (pos + n) d d1.
Proof. intros (A & B). split; [auto|split; [lia|congruence]]. Qed.

Lemma zeros_nonnil n : 0 < n -> zeros n <> [].
Proof. intros N X. apply (f_equal zlen) in X. rewrite zlen_zeros in X. cbn in X. lia. Qed.

Lemma stored_splice bs data pos n : 0 <= pos -> 0 < n -> 0 < bs ->
  stored bs data pos (zeros n) (splice data pos (zeros n)).
Proof.
  intros. pose proof (zeros_nonnil n ltac:(lia)). unfold stored.
  rewrite zlen_splice' by auto. rewrite zlen_zeros.
  split; [intros; apply splice_put; auto|]. lia.
Qed.

Lemma pre_splice data pos n k : 0 <= pos -> 0 <= k <= n -> 
  pre pos n data (splice data pos (zeros k)).
Proof.
  intros. split.
  - intros i I. rewrite splice_put, put_zeros by lia.
    destruct ((pos <=? i) && (i <? pos + k)) eqn:X; auto. lia.
  - pose proof (zlen_splice_ge data pos (zeros k) ltac:(lia)) as G. rewrite zlen_zeros in G.
    pose proof (zlen_nonneg data).
    destruct (Z.eq_dec k 0) as [->|]; [change (zeros 0) with (@nil byte); cbn [splice]; lia|lia].
Qed.

Lemma getb_punch d off n i : 0 <= off -> 0 <= n -> 
  getb (punch d off n) i = if (off <=? i) && (i <? off + n) then x00 else getb d i.
Proof.
  intros. unfold punch. pose proof (zlen_nonneg d). destruct (Z.lt_ge_cases i 0).
  { rewrite !getb_neg by auto. replace (off <=? i) with false by lia. reflexivity. }
  rewrite getb_take by auto. rewrite splice_put, put_zeros by auto.
  destruct (i <? zlen d) eqn:E; auto.
  destruct ((off <=? i) && _); auto. symmetry. apply getb_past. lia.
Qed.

Lemma zlen_punch d off n : 0 <= off -> zlen (punch d off n) = zlen d.
Proof.
  intros. unfold punch. rewrite zlen_take.
  pose proof (zlen_splice_ge d off (zeros n) H). pose proof (zlen_nonneg d). lia.
Qed.

Lemma pre_punch d pos n k : 0 <= pos -> 0 <= k <= n -> pre pos n d (punch d pos k).
Proof.
  intros. split.
  - intros i I. rewrite getb_punch by lia. 
    destruct ((pos <=? i) && (i <? pos + k)) eqn:X; auto. lia.
  - rewrite zlen_punch by lia. lia.
Qed.

Lemma getb_grow d k i : getb (d ++ zeros k) i = getb d i.
Proof.
  destruct (Z.lt_ge_cases i 0); [rewrite !getb_neg; auto|].
  rewrite getb_app by auto. destruct (i <? zlen d) eqn:E; auto.
  rewrite getb_zeros. symmetry. apply getb_past. lia.
Qed.

Lemma pre_grow d pos n k : k <= pos + n - zlen d -> pre pos n d (d ++ zeros k).
Proof.
  intros. split.
  - intros. apply getb_grow.
  - rewrite zlen_app, zlen_zeros. lia.
Qed.

Lemma stored_punch_grow bs d pos n : 0 <= pos -> 0 < n -> 0 < bs ->
  stored bs d pos (zeros n) (punch d pos n ++ zeros (pos + n - zlen (punch d pos n))).
Proof.
  intros. unfold stored. rewrite zlen_app, !zlen_zeros, zlen_punch by auto.
  pose proof (zlen_nonneg d).
  split; [|lia]. intros i. rewrite getb_grow, getb_punch, put_zeros by lia. reflexivity.
Qed.

Lemma stored_punched bs d pos n : 0 <= pos -> 0 < n -> 0 < bs ->
  stored bs (punch d pos n) pos (zeros n)
         (punch d pos n ++ zeros (pos + n - zlen (punch d pos n))).
Proof.
  intros. unfold stored. rewrite zlen_app, !zlen_zeros, !zlen_punch by auto.
  pose proof (zlen_nonneg d).
  split; [|lia]. intros i. rewrite getb_grow, getb_punch, put_zeros, getb_punch by lia.
  destruct ((pos <=? i) && _); reflexivity.
Qed.

Lemma stored_grow bs d pos n : 0 <= pos -> 0 < n -> 0 < bs -> zlen d <= pos ->
  stored bs d pos (zeros n) (d ++ zeros (pos + n - zlen d)).
Proof.
  intros. unfold stored. rewrite zlen_app, !zlen_zeros.
  pose proof (zlen_nonneg d).
  split; [|lia]. intros i. rewrite getb_grow, put_zeros by lia.
  destruct ((pos <=? i) && _) eqn:E; auto. apply getb_past. lia.
Qed.

Lemma write_zeros_loop_gen c m fuel : forall count s s' r,
  pow2 (c_bs c) -> 0 <= f_pos s -> 0 <= count -> 0 < m -> sized c (f_data s) -> whole_reads c ->
  c_block c = false ->
  write_zeros_loop fuel c (zeros m) count s = (s', r) ->
  whole_writes c ->
  logged (c_bs c) s s' /\
  framed false (f_pos s) (f_pos s + count) (f_data s) (f_data s') /\
  match r with
  | inl _ =>
      f_pos s' = f_pos s + count /\
      (count = 0 -> f_data s' = f_data s) /\
      (0 < count -> stored (c_bs c) (f_data s) (f_pos s) (zeros count) (f_data s'))
  | inr x => (Z.to_nat count < fuel)%nat -> x <> NoFuel
  end.
Proof.
  induction fuel; intros count s s' r P2 P C M SZ WR NB H WW.
  { cbn in H. injection H as <- <-. split; [apply logged_refl|]. split; [apply framed_refl|]. lia. }
  pose proof (pow2_pos _ P2) as BS.
  cbn [write_zeros_loop] in H. destruct (count =? 0) eqn:E0.
  { cbn in H. injection H as <- <-. split; [apply logged_refl|]. split; [apply framed_refl|].
    repeat split; lia. }
  rewrite py_prefix in H by lia. unfold bind in H.
  destruct (write c (take count (zeros m)) s) as [s1 [n|x]] eqn:W.
  - apply write_gen in W; auto.
    2:{ intros X. apply (f_equal zlen) in X. rewrite zlen_take, zlen_zeros in X. cbn in X. lia. }
    destruct W as (L1 & F1 & R1). specialize (R1 WW). destruct R1 as (N & PP & S1).
    rewrite zlen_take, zlen_zeros in *.
    assert (EQ : take n (take count (zeros m)) = zeros n).
    { rewrite take_take. rewrite Z.min_l by lia. apply take_zeros. lia. }
    rewrite EQ in S1.
    apply IHfuel in H; auto; try lia; try (rewrite PP; lia).
    2:{ intros X. congruence. }
    destruct H as (L2 & F2 & R2).
    rewrite NB in F1. rewrite PP in *.
    split; [eapply logged_trans; eauto|]. split.
    { eapply framed_trans; [eapply framed_sub; [| |exact F1]; lia|].
      eapply framed_sub; [| |exact F2]; lia. }
    destruct r as [u|x].
    + destruct R2 as (R2 & R3 & R4). split; [lia|]. split; [lia|]. intros _.
      destruct (Z.eq_dec n count) as [->|NE].
      * rewrite R3 by lia. exact S1.
      * replace count with (n + (count - n)) by lia.
        apply stored_zeros_trans with (d1 := f_data s1); try lia; auto. apply R4. lia.
    + intros F. apply R2. lia.
  - injection H as <- <-.
    apply write_gen in W; auto.
    2:{ intros X. apply (f_equal zlen) in X. rewrite zlen_take, zlen_zeros in X. cbn in X. lia. }
    destruct W as (L1 & F1 & R1). rewrite NB in F1. rewrite zlen_take, zlen_zeros in *.
    split; auto. split; [eapply framed_sub; [| |exact F1]; lia|]. auto.
Qed.

Section Attempts.
  Variables (c : fcfg) (s0 : fst_) (n : Z).
  Hypothesis BS : 0 < c_bs c.
  Hypothesis NB : c_block c = false.
  Hypothesis P : 0 <= f_pos s0.
  Hypothesis N : 0 < n.
  Hypothesis A1 : f_pos s0 mod c_bs c = 0.
  Hypothesis A2 : n mod c_bs c = 0.

  Definition Inv (s : fst_) : Prop :=
    f_pos s = f_pos s0 /\ pre (f_pos s0) n (f_data s0) (f_data s) /\ logged (c_bs c) s0 s.
  Definition Good (s : fst_) : Prop :=
    f_pos s = f_pos s0 + n /\
    stored (c_bs c) (f_data s0) (f_pos s0) (zeros n) (f_data s) /\
    framed false (f_pos s0) (f_pos s0 + n) (f_data s0) (f_data s) /\
    logged (c_bs c) s0 s.
  Definition Bad (x : exc) (s : fst_) : Prop :=
    framed false (f_pos s0) (f_pos s0 + n) (f_data s0) (f_data s) /\
    logged (c_bs c) s0 s /\ x <> NoFuel.

  (* an attempt: done, not supported, or failed *)
  Definition Att (m : M (option Z)) : Prop :=
    forall s s' r, Inv s -> m s = (s', r) ->
    match r with
    | inl (Some k) => k = n /\ Good s'
    | inl None => Inv s'
    | inr x => Bad x s'
    end.

  Lemma stored_framed data d' pos : 
    stored (c_bs c) data pos (zeros n) d' -> framed false pos (pos + n) data d'.
  Proof.
    intros (G & L & _). rewrite zlen_zeros in L. split; [|split; [lia|congruence]].
    intros i I. rewrite G, put_zeros by lia. destruct ((pos <=? i) && _) eqn:E; auto. lia.
  Qed.

  Lemma Inv_Bad s x : Inv s -> x <> NoFuel -> Bad x s.
  Proof.
    intros (I1 & I2 & I3) X. split; [|auto]. apply pre_framed. auto.
  Qed.

  Lemma Inv_step s s' k d : Inv s -> s' = called k d (f_pos s) s -> call_aligned (c_bs c) k ->
    pre (f_pos s0) n (f_data s) d -> Inv s'.
  Proof.
    intros (I1 & I2 & I3) -> CA PR. split; [|split]; cbn [called f_pos f_data].
    - auto.
    - eapply pre_trans; eauto.
    - eapply logged_trans; eauto. eapply logged_one; [reflexivity|auto].
  Qed.

  Lemma Good_step s s' k d : Inv s -> s' = set_pos (f_pos s0 + n) (called k d (f_pos s) s) ->
    call_aligned (c_bs c) k -> stored (c_bs c) (f_data s) (f_pos s0) (zeros n) d -> Good s'.
  Proof.
    intros (I1 & I2 & I3) -> CA ST. split; [|split; [|split]]; cbn [called set_pos f_pos f_data].
    - auto.
    - eapply pre_stored; eauto. lia.
    - apply stored_framed. eapply pre_stored; eauto. lia.
    - eapply logged_trans; eauto. eapply logged_one; [reflexivity|auto].
  Qed.

  Lemma Inv_upd s f : Inv s -> f_pos (f s) = f_pos s -> f_data (f s) = f_data s ->
    f_log (f s) = f_log s -> Inv (f s).
  Proof.
    intros (I1 & I2 & I3) E1 E2 E3. split; [congruence|]. split; [congruence|].
    eapply logged_trans; eauto. apply logged_same. auto.
  Qed.

  (* result of a fallocate attempt: done with content d, or not supported *)
  Definition Fal (k : call) (d : list byte) (s s' : fst_) (r : bool + exc) : Prop :=
    match r with
    | inl true => s' = called k d (f_pos s) s
    | inl false => s' = called k (f_data s) (f_pos s) s
    | inr x => (exists d', s' = called k d' (f_pos s) s /\ pre (f_pos s0) n (f_data s) d') /\ x <> NoFuel
    end.

  Lemma fal_zero_range s s' r : Inv s ->
    fallocate (sys_zero_range c CZeroRange (f_pos s0) n) s = (s', r) ->
    Fal (CZeroRange (f_pos s0) n) (splice (f_data s) (f_pos s0) (zeros n)) s s' r.
  Proof.
    intros I. unfold fallocate, sys_zero_range, zero_range. rewrite NB. cbn [andb].
    destruct (c_kernel c (f_calls s) _) as [k|[] k]; intros H; injection H as <- <-; cbn [Fal]; auto.
    - split; [|congruence]. eexists; split; [reflexivity|apply pre_refl].
    - split; [|congruence]. eexists; split; [reflexivity|]. apply pre_splice; lia.
    - split; [|congruence]. eexists; split; [reflexivity|]. apply pre_splice; lia.
  Qed.

  Lemma fal_punch s s' r : Inv s ->
    fallocate (sys_punch_hole c (f_pos s0) n) s = (s', r) ->
    Fal (CPunchHole (f_pos s0) n) (punch (f_data s) (f_pos s0) n) s s' r.
  Proof.
    intros I. unfold fallocate, sys_punch_hole.
    destruct (c_kernel c (f_calls s) _) as [k|[] k]; intros H; injection H as <- <-; cbn [Fal]; auto;
      (split; [|congruence]; eexists; split; [reflexivity|]; apply pre_punch; lia).
  Qed.

  Lemma fal_allocate s s' r : Inv s ->
    fallocate (sys_allocate c (f_pos s0) n) s = (s', r) ->
    Fal (CAllocate (f_pos s0) n)
        (f_data s ++ zeros (f_pos s0 + n - zlen (f_data s))) s s' r.
  Proof.
    intros I. unfold fallocate, sys_allocate.
    destruct (c_kernel c (f_calls s) _) as [k|[] k]; intros H; injection H as <- <-; cbn [Fal]; auto;
      (split; [|congruence]; eexists; split; [reflexivity|apply pre_refl]).
  Qed.

  Lemma Fal_Inv k d s s' : Inv s -> call_aligned (c_bs c) k -> Fal k d s s' (inl false) -> Inv s'.
  Proof. intros I CA F. cbn in F. eapply Inv_step; eauto. apply pre_refl. Qed.

  Lemma Fal_Bad k d s s' x : Inv s -> call_aligned (c_bs c) k -> Fal k d s s' (inr x) -> Bad x s'.
  Proof.
    intros I CA ((d' & -> & PR) & X). apply Inv_Bad; auto. eapply Inv_step; eauto.
  Qed.

  Lemma att_zero_range :
    Att (do can <- get f_can_zero_range ;
         if can then
           do ok <- fallocate (sys_zero_range c CZeroRange (f_pos s0) n) ;
           if ok then finish (f_pos s0) n
           else do _ <- upd (set_zero_range false) ; ret None
         else ret None).
  Proof.
    intros s s' r I. unfold bind at 1, get. destruct (f_can_zero_range s).
    2:{ intros H; injection H as <- <-; auto. }
    unfold bind at 1. destruct (fallocate _ s) as [s1 [[]|x]] eqn:F; apply fal_zero_range in F; auto.
    - intros H. cbn in H. injection H as <- <-. split; auto. cbn [Fal] in F. subst s1.
      eapply Good_step; eauto; [cbn; auto|].
      apply stored_splice; auto.
    - intros H. cbn in H. injection H as <- <-. apply Inv_upd; auto. eapply Fal_Inv; eauto. cbn; auto.
    - intros H. injection H as <- <-. eapply Fal_Bad; eauto. cbn; auto.
  Qed.

  Lemma att_punch_allocate :
    Att (do can1 <- get f_can_punch_hole ;
         do can2 <- get f_can_fallocate ;
         if can1 && can2 then
           do ok <- fallocate (sys_punch_hole c (f_pos s0) n) ;
           if ok then
             do ok <- fallocate (sys_allocate c (f_pos s0) n) ;
             if ok then finish (f_pos s0) n
             else do _ <- upd (set_fallocate false) ; ret None
           else do _ <- upd (set_punch_hole false) ; ret None
         else ret None).
  Proof.
    intros s s' r I. unfold bind at 1 2, get. destruct (f_can_punch_hole s && f_can_fallocate s).
    2:{ intros H; injection H as <- <-; auto. }
    unfold bind at 1. destruct (fallocate _ s) as [s1 [[]|x]] eqn:F; apply fal_punch in F; auto.
    - assert (I1 : Inv s1).
      { cbn [Fal] in F. eapply Inv_step; eauto; [cbn; auto|]. apply pre_punch; lia. }
      unfold bind at 1. destruct (fallocate _ s1) as [s2 [[]|x]] eqn:F2; apply fal_allocate in F2; auto.
      + intros H. cbn in H. injection H as <- <-. split; auto. cbn [Fal] in F, F2. subst s2.
        eapply Good_step; eauto; [cbn; auto|]. subst s1. cbn [called f_data].
        apply stored_punched; auto.
      + intros H. cbn in H. injection H as <- <-. apply Inv_upd; auto. eapply Fal_Inv; eauto. cbn; auto.
      + intros H. injection H as <- <-. eapply Fal_Bad; eauto. cbn; auto.
    - intros H. cbn in H. injection H as <- <-. apply Inv_upd; auto. eapply Fal_Inv; eauto. cbn; auto.
    - intros H. injection H as <- <-. eapply Fal_Bad; eauto. cbn; auto.
  Qed.

  Lemma att_allocate_end :
    Att (do can <- get f_can_fallocate ;
         if can then
           do size <- fstat_size ;
           if size <=? f_pos s0 then
             do ok <- fallocate (sys_allocate c (f_pos s0) n) ;
             if ok then finish (f_pos s0) n
             else do _ <- upd (set_fallocate false) ; ret None
           else ret None
         else ret None).
  Proof.
    intros s s' r I. unfold bind at 1, get. destruct (f_can_fallocate s).
    2:{ intros H; injection H as <- <-; auto. }
    unfold bind at 1, fstat_size. destruct (zlen (f_data s) <=? f_pos s0) eqn:SZ.
    2:{ intros H; injection H as <- <-; auto. }
    unfold bind at 1. destruct (fallocate _ s) as [s1 [[]|x]] eqn:F; apply fal_allocate in F; auto.
    - intros H. cbn in H. injection H as <- <-. split; auto. cbn [Fal] in F. subst s1.
      eapply Good_step; eauto; [cbn; auto|]. apply stored_grow; auto. lia.
    - intros H. cbn in H. injection H as <- <-. apply Inv_upd; auto. eapply Fal_Inv; eauto. cbn; auto.
    - intros H. injection H as <- <-. eapply Fal_Bad; eauto. cbn; auto.
  Qed.

  Lemma att_sparse :
    Att (do can <- get f_can_punch_hole ;
         if can then
           do offset <- tell ;
           do size <- fstat_size ;
           or_else'
             (if size <? offset + n then
                do _ <- sys_truncate c (offset + n) ;
                if size =? offset then finish offset n else ret None
              else ret None)
             (do ok <- fallocate (sys_punch_hole c offset n) ;
              if ok then finish offset n
              else do _ <- upd (set_punch_hole false) ; ret None)
         else ret None).
  Proof.
    intros s s' r I. unfold bind at 1, get. destruct (f_can_punch_hole s).
    2:{ intros H; injection H as <- <-; auto. }
    unfold bind at 1 2, tell, fstat_size. assert (E0 : f_pos s = f_pos s0) by apply I. rewrite E0.
    unfold or_else'.
    assert (PUNCH : forall t, Inv t -> f_pos s0 + n <= zlen (f_data t) ->
      (do ok <- fallocate (sys_punch_hole c (f_pos s0) n) ;
       if ok then finish (f_pos s0) n
       else do _ <- upd (set_punch_hole false) ; ret None) t = (s', r) ->
      match r with
      | inl (Some k) => k = n /\ Good s'
      | inl None => Inv s'
      | inr x => Bad x s'
      end).
    { intros t IT LT. unfold bind at 1.
      destruct (fallocate _ t) as [s1 [[]|x]] eqn:F; apply fal_punch in F; auto.
      - intros H. cbn in H. injection H as <- <-. split; auto. cbn [Fal] in F. subst s1.
        eapply Good_step; eauto; [cbn; auto|].
        replace (punch (f_data t) (f_pos s0) n) with
          (punch (f_data t) (f_pos s0) n ++ zeros (f_pos s0 + n - zlen (punch (f_data t) (f_pos s0) n))).
        + apply stored_punch_grow; auto.
        + rewrite zlen_punch by auto. unfold zeros.
          replace (Z.to_nat _) with O by lia. cbn. apply app_nil_r.
      - intros H. cbn in H. injection H as <- <-. apply Inv_upd; auto. eapply Fal_Inv; eauto. cbn; auto.
      - intros H. injection H as <- <-. eapply Fal_Bad; eauto. cbn; auto. }
    destruct (zlen (f_data s) <? f_pos s0 + n) eqn:SZ.
    2:{ unfold bind at 1, ret at 1. apply PUNCH; auto. lia. }
    assert (AT : call_aligned (c_bs c) (CTruncate (f_pos s0 + n))).
    { cbn. rewrite Z.add_mod, A1, A2 by lia. reflexivity. }
    pose proof (zlen_nonneg (f_data s)) as LD.
    unfold bind at 1 2, sys_truncate.
    rewrite take_all by (rewrite zlen_app, zlen_zeros; lia).
    destruct (c_kernel c (f_calls s) _) as [k|e k].
    2:{ intros H. injection H as <- <-. apply Inv_Bad; [|congruence].
        eapply Inv_step; eauto. apply pre_refl. }
    set (s1 := called _ _ _ _).
    assert (I1 : Inv s1).
    { eapply Inv_step; eauto; [reflexivity|]. apply pre_grow. lia. }
    destruct (zlen (f_data s) =? f_pos s0) eqn:EQ.
    - intros H. cbn in H. injection H as <- <-. split; auto.
      eapply Good_step with (s := s) (k := CTruncate (f_pos s0 + n)); eauto; [reflexivity|].
      apply stored_grow; auto. lia.
    - unfold ret at 1. apply PUNCH; auto. subst s1. cbn [called f_data].
      rewrite zlen_app, zlen_zeros. lia.
  Qed.

  Lemma or_else_post m next (Q : fst_ -> Z + exc -> Prop) s s' r :
    Att m -> Inv s ->
    (forall t k, k = n -> Good t -> Q t (inl k)) ->
    (forall t x, Bad x t -> Q t (inr x)) ->
    (forall t, Inv t -> next t = (s', r) -> Q s' r) ->
    or_else m next s = (s', r) -> Q s' r.
  Proof.
    intros AM I QG QB QN. unfold or_else, bind.
    destruct (m s) as [s1 [[k|]|x]] eqn:E; apply AM in E; auto.
    - intros H. injection H as <- <-. apply QG; tauto.
    - intros H. apply (QN s1); auto.
    - intros H. injection H as <- <-. auto.
  Qed.

  (* the fallback *)
  Lemma write_zeros_post fuel s s' r :
    pow2 (c_bs c) -> whole_reads c -> whole_writes c -> Inv s ->
    (do _ <- write_zeros fuel c n ; ret n) s = (s', r) ->
    match r with
    | inl k => k = n /\ Good s'
    | inr x => framed false (f_pos s0) (f_pos s0 + n) (f_data s0) (f_data s') /\
               logged (c_bs c) s0 s' /\ ((Z.to_nat n < fuel)%nat -> x <> NoFuel)
    end.
  Proof.
    intros P2 WR WW (I1 & I2 & I3). unfold write_zeros, bind.
    destruct (write_zeros_loop _ _ _ _ s) as [s1 [u|x]] eqn:W.
    - intros H. injection H as <- <-. apply write_zeros_loop_gen in W; auto; try (unfold MiB; lia);
        try (intros X; congruence).
      destruct W as (L & F & E1 & _ & ST). rewrite I1 in *. specialize (ST N).
      split; auto. split; [auto|]. split; [|split].
      + eapply pre_stored; eauto. lia.
      + apply stored_framed. eapply pre_stored; eauto. lia.
      + eapply logged_trans; eauto.
    - intros H. injection H as <- <-. apply write_zeros_loop_gen in W; auto; try (unfold MiB; lia);
        try (intros X; congruence).
      destruct W as (L & F & X). rewrite I1 in *. split; [|split; [eapply logged_trans; eauto|auto]].
      eapply framed_trans; [|exact F]. apply pre_framed. auto.
  Qed.

  Lemma Inv_0 : Inv s0.
  Proof. split; [auto|split; [apply pre_refl|apply logged_refl]]. Qed.

  Definition Post (fuel : nat) (s' : fst_) (r : Z + exc) : Prop :=
    match r with
    | inl k => k = n /\ Good s'
    | inr x => framed false (f_pos s0) (f_pos s0 + n) (f_data s0) (f_data s') /\
               logged (c_bs c) s0 s' /\ ((Z.to_nat n < fuel)%nat -> x <> NoFuel)
    end.

  Lemma Bad_Post fuel t x : Bad x t -> Post fuel t (inr x).
  Proof. intros (B1 & B2 & B3). repeat split; auto; apply B1. Qed.

  Lemma file_zero_gen fuel s' r :
    pow2 (c_bs c) -> whole_reads c -> whole_writes c ->
    file_zero fuel c n s0 = (s', r) -> Post fuel s' r.
  Proof.
    intros P2 WR WW. unfold file_zero. unfold bind at 1, tell.
    apply or_else_post; [apply att_zero_range|apply Inv_0|cbn; auto|apply Bad_Post|].
    intros t IT.
    apply or_else_post; [apply att_punch_allocate|auto|cbn; auto|apply Bad_Post|].
    intros t2 IT2.
    apply or_else_post; [apply att_allocate_end|auto|cbn; auto|apply Bad_Post|].
    intros t3 IT3. apply write_zeros_post; auto.
  Qed.

  Lemma file_zero_sparse_gen fuel s' r :
    pow2 (c_bs c) -> whole_reads c -> whole_writes c ->
    file_zero_sparse fuel c n s0 = (s', r) -> Post fuel s' r.
  Proof.
    intros P2 WR WW. unfold file_zero_sparse.
    apply or_else_post; [apply att_sparse|apply Inv_0|cbn; auto|apply Bad_Post|].
    intros t IT. apply write_zeros_post; auto.
  Qed.
End Attempts.

Lemma stored_punch_in bs d pos n : 0 <= pos -> 0 < n -> 0 < bs -> pos + n <= zlen d ->
  stored bs d pos (zeros n) (punch d pos n).
Proof.
  intros. unfold stored. rewrite zlen_zeros, zlen_punch by auto.
  split; [|lia]. intros i. rewrite getb_punch, put_zeros by lia. reflexivity.
Qed.

Lemma framed_punch d pos n k : 0 <= pos -> 0 <= k <= n ->
  framed true pos (pos + n) d (punch d pos k).
Proof.
  intros. destruct (pre_punch d pos n k) as [F _]; auto. split; auto.
  rewrite zlen_punch by auto. split; [lia|auto].
Qed.

Definition BPost (c : fcfg) (s : fst_) (n : Z) (s' : fst_) (r : Z + exc) : Prop :=
  logged (c_bs c) s s' /\
  framed true (f_pos s) (f_pos s + n) (f_data s) (f_data s') /\
  match r with
  | inl k => k = n /\ f_pos s' = f_pos s + n /\
             stored (c_bs c) (f_data s) (f_pos s) (zeros n) (f_data s')
  | inr x => x <> NoFuel
  end.

Lemma sys_zero_block c mk s s' n r : 0 < c_bs c -> c_block c = true -> 0 <= f_pos s -> 0 < n ->
  call_aligned (c_bs c) (mk (f_pos s) n) ->
  sys_zero_range c mk (f_pos s) n s = (s', r) ->
  logged (c_bs c) s s' /\ f_pos s' = f_pos s /\
  framed true (f_pos s) (f_pos s + n) (f_data s) (f_data s') /\
  match r with
  | inl _ => stored (c_bs c) (f_data s) (f_pos s) (zeros n) (f_data s')
  | inr (Raised EOPNOTSUPP) | inr (Raised ENODEV) => f_data s' = f_data s
  | inr x => x <> NoFuel
  end.
Proof.
  intros BS BL P N CA. unfold sys_zero_range, zero_range. rewrite BL. cbn [andb].
  assert (LG : forall d p, logged (c_bs c) s (called (mk (f_pos s) n) d p s)).
  { intros. eapply logged_one; [reflexivity|auto]. }
  destruct (zlen (f_data s) <? f_pos s + n) eqn:E.
  { intros H. injection H as <- <-. split; auto. split; auto. split; [apply framed_refl|congruence]. }
  destruct (c_kernel c (f_calls s) _) as [k|[] k]; intros H; injection H as <- <-;
    (split; [auto|]; split; [auto|]); split; try apply framed_refl; auto; try congruence;
    cbn [called f_data]; try (apply framed_punch; lia).
  apply stored_punch_in; auto. lia.
Qed.

Lemma block_zero_gen c s n s' r : pow2 (c_bs c) -> c_block c = true -> 0 <= f_pos s -> 0 < n ->
  f_pos s mod c_bs c = 0 -> n mod c_bs c = 0 ->
  block_zero c n s = (s', r) -> BPost c s n s' r.
Proof.
  intros P2 BL P N A1 A2. pose proof (pow2_pos _ P2) as BS.
  assert (OUT : forall t, f_pos t = f_pos s -> f_data t = f_data s -> logged (c_bs c) s t ->
    (do _ <- sys_zero_range c CBlkZeroOut (f_pos s) n ;
     do _ <- seek (f_pos s + n) ;
     ret n) t = (s', r) -> BPost c s n s' r).
  { intros t E1 E2 L. unfold bind at 1.
    destruct (sys_zero_range c CBlkZeroOut (f_pos s) n t) as [t1 [u|x]] eqn:Z.
    - rewrite <- E1 in Z. apply sys_zero_block in Z; auto; [|lia|cbn; rewrite E1; auto].
      destruct Z as (L1 & EP & F & ST). intros H. cbn in H. injection H as <- <-.
      rewrite E1, E2 in *. split; [|split].
      + eapply logged_trans; eauto.
      + exact F.
      + split; auto.
    - rewrite <- E1 in Z. apply sys_zero_block in Z; auto; [|lia|cbn; rewrite E1; auto].
      destruct Z as (L1 & EP & F & ST). intros H. injection H as <- <-.
      rewrite E1, E2 in *. split; [|split].
      + eapply logged_trans; eauto.
      + exact F.
      + destruct x as [[]| |]; congruence. }
  unfold block_zero. unfold bind at 1, tell, or_else. unfold bind at 1 2, get.
  destruct (f_can_fallocate s).
  2:{ unfold ret at 1. apply OUT; auto. apply logged_refl. }
  destruct (sys_zero_range c CZeroRange (f_pos s) n s) as [t1 [u|x]] eqn:Z;
    (apply sys_zero_block in Z; auto; [|cbn; auto]); destruct Z as (L1 & EP & F & ST).
  - intros H. cbn in H. injection H as <- <-. split; [|split]; auto.
  - assert (K : forall x', (x' <> NoFuel) -> (s', r) = (t1, inr x') -> BPost c s n s' r).
    { intros x' NX H. injection H as -> ->. split; [|split]; auto. }
    destruct x as [[]| |]; intros H; try (eapply K; [|symmetry; exact H]; congruence);
      apply (OUT (set_fallocate false t1)) in H; auto.
Qed.

(* bytes zeroed by one call *)
Definition zero_step (bs pos count : Z) : Z :=
  if negb (pos mod bs =? 0) || (count <? bs) then Z.min count (bs - pos mod bs)
  else round_down count bs.

Lemma zero_gen fuel c count s s' r :
  pow2 (c_bs c) -> 0 <= f_pos s -> 0 < count -> sized c (f_data s) ->
  whole_reads c -> whole_writes c ->
  zero fuel c count s = (s', r) ->
  logged (c_bs c) s s' /\
  framed (c_block c) (f_pos s) (f_pos s + count) (f_data s) (f_data s') /\
  match r with
  | inl n =>
      0 < n <= count /\ f_pos s' = f_pos s + n /\
      stored (c_bs c) (f_data s) (f_pos s) (zeros n) (f_data s') /\
      n = zero_step (c_bs c) (f_pos s) count
  | inr x => (Z.to_nat count < fuel)%nat -> x <> NoFuel
  end.
Proof.
  intros P2 P C SZ WR WW. pose proof (pow2_pos _ P2) as BS. unfold zero_step.
  unfold zero. unfold bind at 1, tell. rewrite aligned_mod by auto.
  pose proof (Z.mod_pos_bound (f_pos s) (c_bs c) BS) as MB.
  destruct (negb (f_pos s mod c_bs c =? 0) || (count <? c_bs c)) eqn:E1.
  { remember (Z.min count (c_bs c - f_pos s mod c_bs c)) as k eqn:EK.
    intros H. assert (NN : forall n, r = inl n -> n = k).
    { intros n ->. apply write_unaligned_n in H. rewrite zlen_zeros in H. lia. }
    apply write_unaligned_gen in H; auto; [|apply zeros_nonnil; lia].
    rewrite zlen_zeros in H. replace (Z.max 0 k) with k in H by lia.
    destruct H as (L & F & R). split; auto. split; [eapply framed_sub; [| |exact F]; lia|].
    destruct r as [n|x]; auto. specialize (R WW). destruct R as (R1 & R2 & R3).
    rewrite take_zeros in R3 by lia. split; [lia|]. split; [auto|]. split; [auto|].
    auto. }
  pose proof (round_down_bounds count (c_bs c) BS ltac:(lia)) as RB.
  pose proof (round_down_mod count (c_bs c) BS) as RM.
  remember (round_down count (c_bs c)) as n eqn:EN. assert (0 < n) by lia.
  assert (A1 : f_pos s mod c_bs c = 0) by lia.
  destruct (c_block c) eqn:BL.
  { intros H1. apply block_zero_gen in H1; auto. destruct H1 as (L & F & R).
    split; auto. split; [eapply framed_sub; [| |exact F]; lia|].
    destruct r as [k|x]; auto. destruct R as (-> & R1 & R2). split; [lia|auto]. }
  assert (K : Post c s n fuel s' r -> logged (c_bs c) s s' /\
    framed false (f_pos s) (f_pos s + count) (f_data s) (f_data s') /\
    match r with
    | inl k =>
        0 < k <= count /\ f_pos s' = f_pos s + k /\
        stored (c_bs c) (f_data s) (f_pos s) (zeros k) (f_data s') /\ k = n
    | inr x => (Z.to_nat count < fuel)%nat -> x <> NoFuel
    end).
  { destruct r as [k|x]; cbn [Post].
    - intros (-> & G1 & G2 & G3 & G4). split; auto. split; [eapply framed_sub; [| |exact G3]; lia|].
      split; [lia|auto].
    - intros (G1 & G2 & G3). split; auto. split; [eapply framed_sub; [| |exact G1]; lia|].
      intros. apply G3. lia. }
  destruct (c_sparse c); intros H1; apply K.
  - eapply file_zero_sparse_gen; eauto.
  - eapply file_zero_gen; eauto.
Qed.

(* ---- success ---- *)

Lemma write_unaligned_ok c buf s : works c -> pow2 (c_bs c) -> 0 <= f_pos s ->
  (c_block c = true -> f_pos s < zlen (f_data s)) ->
  exists s' n, write_unaligned c buf s = (s', inl n).
Proof.
  intros W P2 P BL. pose proof (pow2_pos _ P2) as BS.
  pose proof (Z.mod_pos_bound (f_pos s) (c_bs c) BS) as MB.
  pose proof (Z.mod_le (f_pos s) (c_bs c) P BS) as ML.
  unfold write_unaligned, bind, tell, seek, sys_read, set_pos, ret, sys_write, called, room.
  cbn [f_pos f_data f_calls f_log].
  destruct (W (f_calls s) (CRead (f_pos s - f_pos s mod c_bs c) (zlen (zeros (c_bs c))))) as (v & ->).
  cbn [fst f_pos f_data f_calls].
  remember (assign _ _ _) as blk.
  destruct (W (S (f_calls s)) (CWrite (f_pos s - f_pos s mod c_bs c) (zlen blk))) as (v2 & ->).
  assert (0 <= zlen blk) by apply zlen_nonneg.
  match goal with |- context [if ?b then _ else _] =>
    match b with (_ && _)%bool => assert (X : b = false) end end.
  { apply andb_false_iff.
    destruct (c_block c); [specialize (BL eq_refl)|];
      destruct (Z.eq_dec (zlen blk) 0); [right|left|right|left]; lia. }
  rewrite X. eauto.
Qed.

Lemma sys_write_ok c buf s : works c -> 0 <= f_pos s ->
  (c_block c = true -> f_pos s < zlen (f_data s)) ->
  exists s' n, sys_write c buf s = (s', inl n).
Proof.
  intros W P BL. unfold sys_write, room.
  destruct (W (f_calls s) (CWrite (f_pos s) (zlen buf))) as (v & ->).
  assert (0 <= zlen buf) by apply zlen_nonneg.
  match goal with |- context [if ?b then _ else _] =>
    match b with (_ && _)%bool => assert (X : b = false) end end.
  { apply andb_false_iff.
    destruct (c_block c); [specialize (BL eq_refl)|];
      destruct (Z.eq_dec (zlen buf) 0); [right|left|right|left]; lia. }
  rewrite X. eauto.
Qed.

Lemma write_ok c buf s : works c -> pow2 (c_bs c) -> 0 <= f_pos s ->
  (c_block c = true -> f_pos s < zlen (f_data s)) ->
  exists s' n, write c buf s = (s', inl n).
Proof.
  intros W P2 P BL. unfold write, bind at 1, tell.
  destruct (negb _ || _); [apply write_unaligned_ok; auto|].
  destruct (aligned c (zlen buf)); apply sys_write_ok; auto.
Qed.

Lemma write_zeros_ok c m fuel : forall count s,
  works c -> whole_reads c -> whole_writes c -> pow2 (c_bs c) -> 0 <= f_pos s -> 0 < m ->
  c_block c = false -> 0 <= count -> (Z.to_nat count < fuel)%nat ->
  exists s' u, write_zeros_loop fuel c (zeros m) count s = (s', inl u).
Proof.
  induction fuel; intros count s W WR WW P2 P M NB C F; [lia|].
  cbn [write_zeros_loop]. destruct (count =? 0) eqn:E; [unfold ret; eauto|].
  rewrite py_prefix by lia. unfold bind.
  destruct (write_ok c (take count (zeros m)) s) as (s1 & n & E1); auto; [congruence|].
  rewrite E1. apply write_gen in E1; auto.
  - destruct E1 as (_ & _ & R). specialize (R WW). destruct R as (R1 & R2 & _).
    rewrite zlen_take, zlen_zeros in *. apply IHfuel; auto; lia.
  - intros X. apply (f_equal zlen) in X. rewrite zlen_take, zlen_zeros in X. cbn in X. lia.
  - intros X. congruence.
Qed.

Definition NoErr {A} (m : M A) : Prop := forall s, exists s' a, m s = (s', inl a).

Lemma fal_zero_range_ok c off n : works c -> c_block c = false ->
  NoErr (fallocate (sys_zero_range c CZeroRange off n)).
Proof.
  intros W NB s. unfold fallocate, sys_zero_range. rewrite NB. cbn [andb].
  destruct (W (f_calls s) (CZeroRange off n)) as (v & [E|E]); rewrite E; eauto.
Qed.

Lemma fal_punch_ok c off n : works c -> NoErr (fallocate (sys_punch_hole c off n)).
Proof.
  intros W s. unfold fallocate, sys_punch_hole.
  destruct (W (f_calls s) (CPunchHole off n)) as (v & [E|E]); rewrite E; eauto.
Qed.

Lemma fal_allocate_ok c off n : works c -> NoErr (fallocate (sys_allocate c off n)).
Proof.
  intros W s. unfold fallocate, sys_allocate.
  destruct (W (f_calls s) (CAllocate off n)) as (v & [E|E]); rewrite E; eauto.
Qed.

Lemma truncate_ok c n : works c -> NoErr (sys_truncate c n).
Proof.
  intros W s. unfold sys_truncate.
  destruct (W (f_calls s) (CTruncate n)) as (v & E). rewrite E; eauto.
Qed.

Lemma bind_ok {A B} (m : M A) (f : A -> M B) : NoErr m -> (forall a, NoErr (f a)) -> NoErr (bind m f).
Proof.
  intros H1 H2 s. unfold bind. destruct (H1 s) as (s1 & a & ->). apply H2.
Qed.

Lemma ret_ok {A} (a : A) : NoErr (ret a).
Proof. intros s. unfold ret. eauto. Qed.
Lemma get_ok f : NoErr (get f).
Proof. intros s. unfold get. eauto. Qed.
Lemma upd_ok f : NoErr (upd f).
Proof. intros s. unfold upd. eauto. Qed.
Lemma tell_ok : NoErr tell.
Proof. intros s. unfold tell. eauto. Qed.
Lemma fstat_ok : NoErr fstat_size.
Proof. intros s. unfold fstat_size. eauto. Qed.
Lemma finish_ok a b : NoErr (finish a b).
Proof. intros s. unfold finish, bind, seek, ret. eauto. Qed.

Ltac noerr :=
  repeat first
    [ apply ret_ok | apply get_ok | apply upd_ok | apply tell_ok | apply fstat_ok | apply finish_ok
    | apply fal_zero_range_ok; assumption | apply fal_punch_ok; assumption
    | apply fal_allocate_ok; assumption | apply truncate_ok; assumption
    | apply bind_ok; [|intros]
    | match goal with |- NoErr (if ?b then _ else _) => destruct b end
    | match goal with |- NoErr (match ?b with Some _ => _ | None => _ end) => destruct b end ].

Lemma or_else_ok c s0 n m next s : Att c s0 n m -> NoErr m -> Inv c s0 n s ->
  (forall t, Inv c s0 n t -> exists s' k, next t = (s', inl k)) ->
  exists s' k, or_else m next s = (s', inl k).
Proof.
  intros A E I H. unfold or_else, bind. destruct (E s) as (s1 & [k|] & E1); rewrite E1.
  - unfold ret. eauto.
  - apply A in E1; auto.
Qed.

Lemma write_zeros_run_ok c s0 n fuel t : works c -> whole_reads c -> whole_writes c ->
  pow2 (c_bs c) -> 0 <= f_pos s0 -> 0 < n -> c_block c = false -> (Z.to_nat n < fuel)%nat ->
  Inv c s0 n t -> exists s' k, (do _ <- write_zeros fuel c n ; ret n) t = (s', inl k).
Proof.
  intros W WR WW P2 P N NB F (I1 & _). unfold write_zeros, bind.
  destruct (write_zeros_ok c (Z.min n MiB) fuel n t) as (s' & u & E); auto; try lia;
    try (unfold MiB; lia).
  rewrite E. unfold ret. eauto.
Qed.

Lemma file_zero_ok c s n fuel : works c -> whole_reads c -> whole_writes c ->
  pow2 (c_bs c) -> 0 <= f_pos s -> 0 < n -> c_block c = false -> (Z.to_nat n < fuel)%nat ->
  f_pos s mod c_bs c = 0 -> n mod c_bs c = 0 ->
  (exists s' k, file_zero fuel c n s = (s', inl k)) /\
  (exists s' k, file_zero_sparse fuel c n s = (s', inl k)).
Proof.
  intros W WR WW P2 P N NB F A1 A2. pose proof (pow2_pos _ P2) as BS. split.
  - unfold file_zero. unfold bind at 1, tell.
    eapply or_else_ok; [apply att_zero_range; auto|noerr|apply Inv_0|]. intros t I.
    eapply or_else_ok; [apply att_punch_allocate; auto|noerr|auto|]. intros t2 I2.
    eapply or_else_ok; [apply att_allocate_end; auto|noerr|auto|]. intros t3 I3.
    eapply write_zeros_run_ok; eauto.
  - unfold file_zero_sparse.
    eapply (or_else_ok c s n); [apply att_sparse; auto|unfold or_else'; noerr|apply Inv_0|]. intros t I.
    eapply write_zeros_run_ok; eauto.
Qed.

Lemma sys_zero_in c mk s n :
  works c -> (mk = CZeroRange \/ mk = CBlkZeroOut) ->
  f_pos s + n <= zlen (f_data s) ->
  (exists s', sys_zero_range c mk (f_pos s) n s = (s', inl tt)) \/
  (mk = CZeroRange /\
   sys_zero_range c mk (f_pos s) n s =
   (called (mk (f_pos s) n) (f_data s) (f_pos s) s, inr (Raised EOPNOTSUPP))).
Proof.
  intros W MK L. unfold sys_zero_range.
  replace (c_block c && (zlen (f_data s) <? f_pos s + n)) with false
    by (symmetry; apply andb_false_iff; right; lia).
  destruct MK as [-> | ->].
  - destruct (W (f_calls s) (CZeroRange (f_pos s) n)) as (v & [E|E]); rewrite E; eauto.
  - destruct (W (f_calls s) (CBlkZeroOut (f_pos s) n)) as (v & E); rewrite E; eauto.
Qed.

Lemma block_zero_ok c s n : works c -> f_pos s + n <= zlen (f_data s) ->
  exists s' k, block_zero c n s = (s', inl k).
Proof.
  intros W L. unfold block_zero. unfold bind at 1, tell, or_else. unfold bind at 1 2, get.
  assert (OUT : forall t, f_pos t = f_pos s -> f_data t = f_data s ->
    exists s' k, (do _ <- sys_zero_range c CBlkZeroOut (f_pos s) n ;
     do _ <- seek (f_pos s + n) ;
     ret n) t = (s', inl k)).
  { intros t E1 E2. unfold bind at 1. rewrite <- E1.
    destruct (sys_zero_in c CBlkZeroOut t n W (or_intror eq_refl) ltac:(rewrite E1, E2; auto))
      as [(t1 & E)|(E & _)]; [|discriminate (f_equal (fun f => f 0 0) E)].
    rewrite E. unfold bind, seek, ret. eauto. }
  destruct (f_can_fallocate s); [|apply OUT; auto].
  destruct (sys_zero_in c CZeroRange s n) as [(t1 & E)|(_ & E)]; auto; rewrite E.
  - unfold finish, bind, seek, ret. eauto.
  - apply OUT; auto.
Qed.

Lemma zero_ok fuel c count s : works c -> whole_reads c -> whole_writes c ->
  pow2 (c_bs c) -> 0 <= f_pos s -> 0 < count ->
  (c_block c = true -> f_pos s + count <= zlen (f_data s)) ->
  (Z.to_nat count < fuel)%nat ->
  exists s' n, zero fuel c count s = (s', inl n).
Proof.
  intros W WR WW P2 P C BL F. pose proof (pow2_pos _ P2) as BS.
  unfold zero. unfold bind at 1, tell. rewrite aligned_mod by auto.
  destruct (negb (f_pos s mod c_bs c =? 0) || (count <? c_bs c)) eqn:E1.
  { apply write_unaligned_ok; auto. intros X. specialize (BL X). lia. }
  pose proof (round_down_bounds count (c_bs c) BS ltac:(lia)) as RB.
  pose proof (round_down_mod count (c_bs c) BS) as RM.
  remember (round_down count (c_bs c)) as n eqn:EN.
  destruct (c_block c) eqn:EB.
  - apply block_zero_ok; auto. specialize (BL eq_refl). lia.
  - destruct (file_zero_ok c s n fuel) as (Z1 & Z2); auto; try lia.
    destruct (c_sparse c); auto.
Qed.

(* ---- block size detection ---- *)

Lemma detect_cases c s s' b : detect_block_size c s = (s', inl b) ->
  (b = 4096 /\ exists n k, c_kernel c n (CRead 0 1) = Done k) \/
  ((b = 512 \/ b = 4096) /\ (exists n k, c_kernel c n (CRead 0 b) = Done k) /\
   (exists n k, c_kernel c n (CRead 0 1) = Err EINVAL k) /\
   (b = 4096 -> exists n k, c_kernel c n (CRead 0 512) = Err EINVAL k)).
Proof.
  unfold detect_block_size. cbn [detect]. unfold bind, seek, ret, sys_read, called.
  cbn [f_pos f_data f_calls set_pos].
  change (zlen (zeros 1)) with 1.
  replace (zlen (zeros 512)) with 512 by (rewrite zlen_zeros; lia).
  replace (zlen (zeros 4096)) with 4096 by (rewrite zlen_zeros; lia).
  destruct (c_kernel c (f_calls s) (CRead 0 1)) as [k|[] k] eqn:K1; try (intros H; discriminate H).
  { intros H. injection H as <- <-. left. eauto. }
  cbn [f_calls].
  destruct (c_kernel c (S (f_calls s)) (CRead 0 512)) as [k2|[] k2] eqn:K2; try (intros H; discriminate H).
  { intros H. injection H as <- <-. right. repeat split; eauto. discriminate. }
  cbn [f_calls].
  destruct (c_kernel c (S (S (f_calls s))) (CRead 0 4096)) as [k3|[] k3] eqn:K3; try (intros H; discriminate H).
  intros H. injection H as <- <-. right. repeat split; eauto.
Qed.

Lemma detect_state c s s' r : detect_block_size c s = (s', r) ->
  f_data s' = f_data s /\ (forall b, r = inl b -> f_pos s' = 0) /\ r <> inr NoFuel.
Proof.
  unfold detect_block_size. cbn [detect]. unfold bind, seek, ret, sys_read, called, raise.
  cbn [f_pos f_data f_calls set_pos].
  change (zlen (zeros 1)) with 1.
  replace (zlen (zeros 512)) with 512 by (rewrite zlen_zeros; lia).
  replace (zlen (zeros 4096)) with 4096 by (rewrite zlen_zeros; lia).
  destruct (c_kernel c (f_calls s) (CRead 0 1)) as [k|[] k] eqn:K1;
    try (intros H; injection H as <- <-; cbn; repeat split; congruence).
  cbn [f_calls].
  destruct (c_kernel c (S (f_calls s)) (CRead 0 512)) as [k2|[] k2] eqn:K2;
    try (intros H; injection H as <- <-; cbn; repeat split; congruence).
  cbn [f_calls].
  destruct (c_kernel c (S (S (f_calls s))) (CRead 0 4096)) as [k3|[] k3] eqn:K3;
    intros H; injection H as <- <-; cbn; repeat split; congruence.
Qed.
