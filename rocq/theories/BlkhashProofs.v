(* Lemmas about block based checksums. *)
From Coq Require Import ZArith List Bool Lia.
From Coq.Strings Require Import Byte.
From Verif Require Import BytesLib OpsModel BlkhashModel BlkhashSpec.
Import ListNotations.
Open Scope Z_scope.

Lemma splice_in l pos d : 0 <= pos -> pos + zlen d <= zlen l ->
  splice l pos d = take pos l ++ d ++ drop (pos + zlen d) l.
Proof.
  intros P L. unfold splice. destruct d as [|x d].
  - rewrite zlen_nil, Z.add_0_r. cbn [app]. now rewrite take_drop.
  - pose proof (zlen_nonneg (x :: d)).
    rewrite take_app, (take_nonpos (pos - zlen l)) by lia. now rewrite app_nil_r.
Qed.

Lemma zlen_splice_inside l pos d : 0 <= pos -> pos + zlen d <= zlen l ->
  zlen (splice l pos d) = zlen l.
Proof.
  intros P L. pose proof (zlen_nonneg d).
  rewrite splice_in, !zlen_app, zlen_take, zlen_drop by auto. lia.
Qed.

(* ---- is_zero ---- *)

Lemma byte_eqb_true x y : Byte.eqb x y = true <-> x = y.
Proof.
  split.
  - apply byte_dec_bl.
  - apply byte_dec_lb.
Qed.

Lemma byte_eqb_false x y : Byte.eqb x y = false <-> x <> y.
Proof.
  rewrite <- byte_eqb_true. destruct (Byte.eqb x y); intuition congruence.
Qed.

Lemma first_bytes_spec n p :
  match first_bytes n p with
  | inl true => (length p < n)%nat /\ Forall (eq x00) p
  | inl false => ~ Forall (eq x00) p
  | inr q => p = repeat x00 n ++ q
  end.
Proof.
  revert p. induction n as [|n IH]; intros p; cbn [first_bytes].
  - reflexivity.
  - destruct p as [|x p].
    + split; [cbn; lia|constructor].
    + destruct (Byte.eqb x x00) eqn:E.
      * apply byte_eqb_true in E. subst x. specialize (IH p).
        destruct (first_bytes n p) as [[|]|q].
        -- destruct IH. split; [cbn; lia|constructor; auto].
        -- intros F. apply IH. now inversion F.
        -- cbn. now rewrite IH.
      * apply byte_eqb_false in E. intros F. inversion F; congruence.
Qed.

Lemma memcmp_eq_true a b :
  memcmp_eq a b = true <-> (length b <= length a)%nat /\ firstn (length b) a = b.
Proof.
  revert a. induction b as [|y b IH]; intros a; cbn [memcmp_eq].
  - split; [|reflexivity]. intros _. split; [cbn; lia|reflexivity].
  - destruct a as [|x a].
    + cbn. split; [discriminate|]. intros [? ?]. lia.
    + rewrite andb_true_iff, byte_eqb_true, IH. cbn.
      split.
      * intros (-> & ? & E). split; [lia|]. now rewrite E.
      * intros (? & E). injection E as -> E. repeat split; auto. lia.
Qed.

(* A list equal to its own tail after k zeros is all zeros. *)
Lemma shifted_zeros k q :
  (0 < k)%nat ->
  firstn (length q) (repeat x00 k ++ q) = q -> Forall (eq x00) q.
Proof.
  intros K E. apply Forall_forall. intros x I.
  apply (In_nth _ _ x00) in I. destruct I as (i & L & <-).
  revert L. induction i as [i IH] using (well_founded_induction lt_wf). intros L.
  rewrite <- E, nth_firstn_lt by auto.
  destruct (Nat.lt_ge_cases i k) as [S|S].
  - rewrite app_nth1 by (rewrite repeat_length; auto). now rewrite nth_repeat.
  - rewrite app_nth2 by (rewrite repeat_length; auto). rewrite repeat_length.
    apply IH; lia.
Qed.

Lemma is_zero_spec buf : is_zero buf = true <-> Forall (eq x00) buf.
Proof.
  unfold is_zero. pose proof (first_bytes_spec 16 buf) as F.
  destruct (first_bytes 16 buf) as [[|]|q].
  - tauto.
  - split; [discriminate|]. intros; contradiction.
  - rewrite memcmp_eq_true. split.
    + intros (L & E). rewrite F in E.
      apply shifted_zeros in E; [|lia]. rewrite F. apply Forall_app. split; auto.
      apply Forall_forall. intros x I. apply repeat_spec in I. auto.
    + intros A. split; [rewrite F, app_length; lia|].
      rewrite F in A. apply Forall_app in A. destruct A as [_ A].
      assert (Q : q = repeat x00 (length q)).
      { clear F. induction A as [|x l E A IH]; cbn; [auto|]. subst x. congruence. }
      rewrite F, Q, repeat_length, <- repeat_app.
      rewrite <- (repeat_length x00 (length q)) at 1.
      replace (16 + length q)%nat with (length q + 16)%nat by lia.
      rewrite repeat_app, firstn_app, firstn_all, repeat_length, Nat.sub_diag.
      cbn [firstn]. apply app_nil_r.
Qed.

Lemma is_zero_zeros buf : is_zero buf = true -> buf = zeros (zlen buf).
Proof.
  rewrite is_zero_spec. intros F. unfold zeros, zlen. rewrite Nat2Z.id.
  induction F as [|x l E F IH]; cbn; [auto|]. subst x. congruence.
Qed.

(* ---- blocks ---- *)

(* Blocks covering [a, n), each of bs bytes except the last. *)
Inductive shape (bs n : Z) : Z -> list block -> Prop :=
| shape_nil : shape bs n n []
| shape_cons : forall a b l,
    a < n -> b_start b = a -> b_length b = Z.min bs (n - a) ->
    shape bs n (a + b_length b) l -> shape bs n a (b :: l).

(* The zero flag of a block tells if all its bytes satisfy P. *)
Definition block_ok (P : Z -> Prop) (b : block) : Prop :=
  if b_zero b then forall i, b_start b <= i < b_start b + b_length b -> P i
  else exists i, b_start b <= i < b_start b + b_length b /\ ~ P i.

Definition ext_ok (P : Z -> Prop) (e : ext) : Prop :=
  forall i, e_start e <= i < e_start e + e_length e ->
  if e_zero e then P i else ~ P i.

Lemma full_blocks_spec bs fuel : forall cur,
  0 < bs -> 0 <= b_length cur < Z.of_nat fuel ->
  exists l rest, full_blocks fuel cur bs = Some (l, rest) /\
    0 <= b_length rest < bs /\ b_zero rest = b_zero cur /\
    b_start cur <= b_start rest /\
    b_start rest + b_length rest = b_start cur + b_length cur /\
    (forall n l2, b_start cur + b_length cur <= n ->
       shape bs n (b_start rest) l2 -> shape bs n (b_start cur) (l ++ l2)) /\
    Forall (fun b => b_zero b = b_zero cur /\ b_start cur <= b_start b /\
              0 < b_length b /\
              b_start b + b_length b <= b_start cur + b_length cur) l.
Proof.
  induction fuel as [|fuel IH]; intros cur B L; [lia|].
  cbn [full_blocks]. destruct (Z.leb_spec bs (b_length cur)) as [G|G].
  - cbn [split_block].
    destruct (IH (Block (b_start cur + bs) (b_length cur - bs) (b_zero cur)) B)
      as (l & rest & E & R1 & R2 & R3 & R4 & R5 & R6); [cbn; lia|].
    cbn in *. rewrite E. eexists _, rest. split; [reflexivity|].
    repeat split; try lia; auto.
    + intros n l2 N S. cbn. constructor; cbn; try lia.
      apply R5; auto. lia.
    + constructor; [cbn; repeat split; lia|].
      eapply Forall_impl; [|exact R6]. cbn. intros b (?&?&?&?). repeat split; auto; lia.
  - exists [], cur. repeat split; auto; try lia.
Qed.

Lemma blocks_of_extent (P : Z -> Prop) e (l : list block) :
  ext_ok P e ->
  Forall (fun b => b_zero b = e_zero e /\ e_start e <= b_start b /\ 0 < b_length b /\
            b_start b + b_length b <= e_start e + e_length e) l ->
  Forall (block_ok P) l.
Proof.
  intros X. apply Forall_impl. intros b (Z1 & A & B & C).
  unfold block_ok. unfold ext_ok in X. rewrite Z1.
  destruct (e_zero e).
  - intros i I. apply X. lia.
  - exists (b_start b). split; [lia|]. apply X. lia.
Qed.

Lemma split_loop_spec (P : Z -> Prop) bs n fuel : forall exts c a partial,
  0 < bs -> tile c exts n ->
  Forall (fun e => e_length e < Z.of_nat fuel) exts ->
  Forall (ext_ok P) exts ->
  match partial with
  | None => c = a
  | Some p => b_start p = a /\ b_length p = c - a /\ 0 < c - a < bs /\ block_ok P p
  end ->
  exists blocks, split_loop fuel exts partial bs = Some blocks /\
    shape bs n a blocks /\ Forall (block_ok P) blocks.
Proof.
  induction exts as [|e exts IH]; intros c a partial B T F X PP.
  - inversion T; subst. cbn [split_loop]. eexists. split; [reflexivity|].
    destruct partial as [p|].
    + destruct PP as (P1 & P2 & P3 & P4). split; [|auto].
      constructor; try lia. rewrite P2. replace (a + (n - a)) with n by lia. constructor.
    + subst a. split; constructor.
  - inversion T as [|? ? ? ? TS TL TT]; subst. inversion F as [|? ? F1 F2]; subst.
    inversion X as [|? ? X1 X2]; subst.
    assert (TN : e_start e + e_length e <= n).
    { clear - TT. induction TT; lia. }
    cbn [split_loop].
    (* the part after the partial block was completed *)
    assert (R : forall cur,
      b_zero cur = e_zero e -> e_start e <= b_start cur -> 0 <= b_length cur ->
      b_start cur + b_length cur = e_start e + e_length e ->
      exists blocks,
        match full_blocks fuel cur bs with
        | None => None
        | Some (l, c) =>
          match split_loop fuel exts (if b_length c =? 0 then None else Some c) bs with
          | Some l' => Some (l ++ l')
          | None => None
          end
        end = Some blocks /\ shape bs n (b_start cur) blocks /\ Forall (block_ok P) blocks).
    { intros cur C1 C2 C3 C4.
      destruct (full_blocks_spec bs fuel cur B) as (l & rest & E & R1 & R2 & R3 & R4 & R5 & R6);
        [lia|].
      rewrite E.
      destruct (IH (e_start e + e_length e) (b_start rest)
                   (if b_length rest =? 0 then None else Some rest) B TT F2 X2)
        as (bl & E2 & S2 & O2).
      { destruct (Z.eqb_spec (b_length rest) 0); [lia|]. repeat split; try lia.
        assert (Forall (block_ok P) [rest]) as Q; [|now inversion Q].
        apply (blocks_of_extent P e); auto. constructor; [|constructor].
        repeat split; try lia. congruence. }
      rewrite E2. eexists. split; [reflexivity|]. split.
      - apply R5; auto. lia.
      - apply Forall_app. split; auto. apply (blocks_of_extent P e); auto.
        eapply Forall_impl; [|exact R6]. cbn. intros b (?&?&?&?).
        repeat split; try lia. congruence. }
    destruct partial as [p|].
    + destruct PP as (P1 & P2 & P3 & P4). cbn [merge].
      set (st := Z.min (bs - b_length p) (b_length (Block (e_start e) (e_length e) (e_zero e)))).
      cbn [b_start b_length b_zero] in st.
      cbn [b_start b_length b_zero].
      assert (OK : block_ok P (Block (b_start p) (b_length p + st) (b_zero p && e_zero e))).
      { unfold block_ok in *. unfold ext_ok in X1. cbn [b_start b_length b_zero].
        destruct (b_zero p); cbn [andb].
        - destruct (e_zero e).
          + intros i I. destruct (Z.lt_ge_cases i (b_start p + b_length p)).
            * apply P4. lia.
            * apply X1. lia.
          + exists (e_start e). split; [lia|]. apply X1. lia.
        - destruct P4 as (i & I & N). exists i. split; [lia|auto]. }
      destruct (Z.ltb_spec (b_length p + st) bs) as [G|G].
      * apply (IH (e_start e + e_length e) a); auto. cbn [b_start b_length b_zero].
        repeat split; auto; lia.
      * destruct (R (Block (e_start e + st) (e_length e - st) (e_zero e)))
          as (bl & E & S & O); try (cbn; lia); auto.
        rewrite E. eexists. split; [reflexivity|]. split.
        -- constructor; cbn [b_start b_length b_zero] in *; try lia.
           replace (a + (b_length p + st)) with (e_start e + st) by lia. auto.
        -- constructor; auto.
    + subst a. destruct (R (Block (e_start e) (e_length e) (e_zero e)))
        as (bl & E & S & O); try (cbn; lia); auto.
      exists bl. auto.
Qed.

Lemma tile_bounds a l n : tile a l n -> a <= n /\
  Forall (fun e => a <= e_start e /\ 0 < e_length e /\ e_start e + e_length e <= n) l.
Proof.
  induction 1 as [a|a e l b S L T IH].
  - split; [lia|constructor].
  - destruct IH as [I1 I2]. split; [lia|]. constructor.
    + lia.
    + eapply Forall_impl; [|exact I2]. cbn. intros. lia.
Qed.

Lemma tile_zero_at a l n : tile a l n -> Forall (ext_ok (zero_at l)) l.
Proof.
  intros T.
  assert (forall e i, In e l -> e_start e <= i < e_start e + e_length e -> e_zero e = false ->
            ~ zero_at l i) as N.
  { induction T as [a|a e l b S L T IH]; intros x i I R Z0.
    - contradiction.
    - destruct (tile_bounds _ _ _ T) as [_ BB]. rewrite Forall_forall in BB.
      intros (y & Y1 & Y2 & Y3). destruct I as [<-|I], Y1 as [<-|Y1].
      + congruence.
      + specialize (BB _ Y1). lia.
      + specialize (BB _ I). lia.
      + apply (IH x i I R Z0). exists y. auto. }
  apply Forall_forall. intros e I i R. destruct (e_zero e) eqn:E.
  - exists e. auto.
  - eauto.
Qed.

Lemma split_spec fuel exts n bs :
  0 < bs -> tile 0 exts n -> n < Z.of_nat fuel ->
  exists blocks, split fuel exts bs = Some blocks /\
    shape bs n 0 blocks /\ Forall (block_ok (zero_at exts)) blocks.
Proof.
  intros B T F. unfold split. apply (split_loop_spec (zero_at exts) bs n fuel exts 0 0 None); auto.
  - destruct (tile_bounds _ _ _ T) as [_ BB]. eapply Forall_impl; [|exact BB].
    cbn. intros. lia.
  - eapply tile_zero_at; eauto.
Qed.

Lemma shape_bounds bs n a l : 0 < bs -> shape bs n a l ->
  a <= n /\ Forall (fun b => a <= b_start b /\ 0 < b_length b <= bs /\
                     b_start b + b_length b <= n) l.
Proof.
  intros B. induction 1 as [|a b l A S L H IH].
  - split; [lia|constructor].
  - destruct IH as [I1 I2]. split; [lia|]. constructor; [lia|].
    eapply Forall_impl; [|exact I2]. cbn. intros. lia.
Qed.

(* Number and place of the blocks. *)
Lemma shape_nth bs n : 0 < bs -> forall l k, shape bs n (Z.of_nat k * bs) l ->
  forall i b, nth_error l i = Some b ->
  b_start b = Z.of_nat (k + i) * bs /\ b_length b = Z.min bs (n - Z.of_nat (k + i) * bs).
Proof.
  intros B. induction l as [|b0 l IH]; intros k SH i b E; [now destruct i|].
  inversion SH as [|? ? ? A1 A2 A3 A4]; subst. destruct i as [|i].
  - injection E as <-. rewrite Nat.add_0_r. auto.
  - cbn in E. destruct (Z.le_gt_cases bs (n - Z.of_nat k * bs)) as [G|G].
    + replace (k + S i)%nat with (S k + i)%nat by lia. apply IH; auto.
      replace (Z.of_nat (S k) * bs) with (Z.of_nat k * bs + b_length b0) by lia. auto.
    + rewrite A3 in A4. replace (Z.of_nat k * bs + Z.min bs (n - Z.of_nat k * bs)) with n in A4
        by lia.
      inversion A4; subst; [now destruct i|lia].
Qed.

Lemma shape_count bs n a l : 0 < bs -> shape bs n a l ->
  Z.of_nat (length l) = (n - a + bs - 1) / bs.
Proof.
  intros B. induction 1 as [|a b l A S L H IH].
  - cbn. rewrite Z.div_small; lia.
  - cbn [length]. rewrite Nat2Z.inj_succ, IH, L.
    destruct (Z.le_gt_cases bs (n - a)) as [G|G].
    + rewrite Z.min_l by lia.
      replace (n - a + bs - 1) with ((n - (a + bs) + bs - 1) + 1 * bs) by lia.
      rewrite Z.div_add by lia. lia.
    + rewrite Z.min_r by lia. replace (n - (a + (n - a)) + bs - 1) with (bs - 1) by lia.
      rewrite Z.div_small by lia.
      replace (n - a + bs - 1) with ((n - a - 1) + 1 * bs) by lia.
      rewrite Z.div_add, Z.div_small by lia. lia.
Qed.

(* The blocks of the image follow the shape. *)
Lemma shape_image bs (img : list byte) a l : 0 < bs -> shape bs (zlen img) a l -> 0 <= a ->
  forall k, a = Z.of_nat k * bs \/ a = zlen img ->
  map (fun b => sub (b_start b) (b_length b) img) l =
  map (fun i => sub (Z.of_nat i * bs) bs img) (seq k (length l)).
Proof.
  intros B. induction 1 as [|a b l A S L H IH]; intros A0 k K; [reflexivity|].
  destruct K as [K|K]; [|lia]. cbn [map length seq]. f_equal.
  - rewrite S, K, L. unfold sub.
    destruct (Z.le_gt_cases bs (zlen img - a)) as [G|G].
    + rewrite Z.min_l by lia. auto.
    + rewrite Z.min_r by lia.
      rewrite !take_all; auto; rewrite zlen_drop; lia.
  - apply IH; [lia|]. destruct (Z.le_gt_cases bs (zlen img - a)) as [G|G]; lia.
Qed.

Lemma shape_image_blocks bs (img : list byte) l : 0 < bs -> shape bs (zlen img) 0 l ->
  map (fun b => sub (b_start b) (b_length b) img) l = image_blocks bs img.
Proof.
  intros B S. rewrite (shape_image bs img 0 l B S (Z.le_refl 0) 0%nat) by (left; lia).
  unfold image_blocks, block_count. pose proof (shape_count _ _ _ _ B S) as C.
  rewrite Z.sub_0_r in C. rewrite <- C, Nat2Z.id. reflexivity.
Qed.

Lemma image_blocks_concat bs (img : list byte) : 0 < bs -> concat (image_blocks bs img) = img.
Proof.
  intros B. unfold image_blocks, block_count.
  set (m := Z.to_nat ((zlen img + bs - 1) / bs)).
  assert (C : zlen img <= Z.of_nat m * bs).
  { subst m. pose proof (zlen_nonneg img).
    rewrite Z2Nat.id by (apply Z.div_pos; lia).
    pose proof (Z.div_mod (zlen img + bs - 1) bs ltac:(lia)).
    pose proof (Z.mod_pos_bound (zlen img + bs - 1) bs B). nia. }
  clearbody m.
  assert (forall j k, concat (map (fun i => sub (Z.of_nat i * bs) bs img) (seq k j)) =
            sub (Z.of_nat k * bs) (Z.of_nat j * bs) img) as G.
  { induction j as [|j IH]; intros k; cbn [seq map concat].
    - unfold sub. now rewrite take_nonpos by lia.
    - rewrite IH. replace (Z.of_nat (S j) * bs) with (bs + Z.of_nat j * bs) by lia.
      rewrite sub_split by lia. do 2 f_equal. lia. }
  rewrite G. unfold sub. rewrite drop_nonpos by lia. apply take_all. lia.
Qed.

(* ---- hashes ---- *)

Section Hash.

Variable func : list byte -> list byte.

Definition good_hash (bs : Z) (h : hash) : Prop :=
  h_block_size h = bs /\ h_zero_digest h = func (zeros bs).

Lemma hash_zero_update bs h n :
  good_hash bs h -> hash_zero func h n = hash_update func h (zeros n).
Proof.
  intros [A B]. unfold hash_zero, hash_update.
  destruct (Z.eqb_spec n (h_block_size h)) as [->|]; [|reflexivity].
  now rewrite B, A.
Qed.

Lemma good_update bs h d : good_hash bs h -> good_hash bs (hash_update func h d).
Proof. exact (fun H => H). Qed.

Lemma good_new bs : good_hash bs (hash_new func bs).
Proof. split; reflexivity. Qed.

Lemma detected bs h (detect : bool) view :
  good_hash bs h ->
  (if detect && is_zero view then hash_zero func h (zlen view) else hash_update func h view) =
  hash_update func h view.
Proof.
  intros G. destruct detect; cbn [andb]; auto. destruct (is_zero view) eqn:E; auto.
  rewrite (hash_zero_update bs) by auto. now rewrite <- (is_zero_zeros _ E).
Qed.

(* The hash after some blocks. *)
Definition after (h : hash) (l : list (list byte)) : hash := fold_left (hash_update func) l h.

Lemma after_input l h : h_input (after h l) = h_input h ++ concat (map func l).
Proof.
  revert h. induction l as [|d l IH]; intros h; cbn.
  - now rewrite app_nil_r.
  - unfold after in IH. rewrite IH. cbn. now rewrite app_assoc.
Qed.

(* ---- Operation._run ---- *)

Variable img : list byte.
Variable bs : Z.
Hypothesis bs_pos : 0 < bs.

Definition data_of (b : block) : list byte := sub (b_start b) (b_length b) img.

Definition inside (b : block) : Prop :=
  0 <= b_start b /\ 0 < b_length b <= bs /\ b_start b + b_length b <= zlen img.

Definition no_lie (b : block) : Prop :=
  b_zero b = true -> data_of b = zeros (b_length b).

Lemma read_view buf b n :
  zlen buf = bs -> inside b -> bs <= n ->
  let v := py_stop (b_length b) (zlen buf) in
  let count := clamp 0 (Z.min v (zlen img - b_start b)) n in
  let buf' := splice buf 0 (sub (b_start b) count img) in
  v = b_length b /\ zlen buf' = bs /\ take v buf' = data_of b.
Proof.
  intros L (I1 & I2 & I3) N. cbn zeta.
  assert (V : py_stop (b_length b) (zlen buf) = b_length b).
  { rewrite py_stop_nonneg by lia. lia. }
  rewrite V. assert (C : clamp 0 (Z.min (b_length b) (zlen img - b_start b)) n = b_length b)
    by (unfold clamp; lia).
  rewrite C. fold (data_of b).
  assert (D : zlen (data_of b) = b_length b) by (unfold data_of; rewrite zlen_sub; lia).
  repeat split.
  - rewrite zlen_splice_inside; lia.
  - rewrite splice_in by lia. rewrite (take_nonpos 0 buf) by lia. cbn [app].
    rewrite take_app, take_all by lia. rewrite (take_nonpos (_ - _)) by lia. apply app_nil_r.
Qed.

(* One block whose read is complete. *)
Lemma run_block_spec detect b a s :
  good_hash bs (c_hash s) -> zlen (c_buf s) = bs -> inside b -> no_lie b ->
  (b_zero b = false -> exists n, ca_count a = Some n /\ bs <= n) ->
  exists buf reads,
    run_block func img detect b a s =
      (CSt buf (c_done s + b_length b) (hash_update func (c_hash s) (data_of b)) reads,
       if ca_cancel a then Some Canceled else None) /\
    zlen buf = bs /\
    reads = c_reads s ++ (if b_zero b then [] else [(b_start b, b_length b)]).
Proof.
  intros G L I T A. unfold run_block. destruct (b_zero b) eqn:Z0.
  - cbn [c_buf c_done c_hash c_reads]. rewrite (hash_zero_update bs) by auto.
    rewrite (T Z0). eexists _, _. repeat split; auto. now rewrite app_nil_r.
  - destruct (A eq_refl) as (n & E & N). rewrite E.
    destruct (read_view (c_buf s) b n L I N) as (V1 & V2 & V3). cbn zeta in V1, V2, V3.
    cbn [c_buf c_done c_hash c_reads]. rewrite V3.
    assert (D : zlen (data_of b) = b_length b).
    { unfold data_of. destruct I as (I1 & I2 & I3). rewrite zlen_sub. lia. }
    pose proof (detected bs (c_hash s) detect (data_of b) G) as DT. rewrite D in DT. rewrite DT.
    eexists _, _. split; [reflexivity|]. split; [exact V2|]. now rewrite V1.
Qed.

Lemma run_blocks_spec detect : forall blocks ans s,
  good_hash bs (c_hash s) -> zlen (c_buf s) = bs ->
  Forall inside blocks -> Forall no_lie blocks ->
  (forall i, (i < length blocks)%nat ->
     exists n, ca_count (nth i ans (CAns None false)) = Some n /\ bs <= n) ->
  (forall i, (i < length blocks)%nat -> ca_cancel (nth i ans (CAns None false)) = false) ->
  exists s', run_blocks func img detect blocks ans s = (s', Success) /\
    c_hash s' = after (c_hash s) (map data_of blocks) /\
    c_done s' = c_done s + fold_right Z.add 0 (map b_length blocks) /\
    zlen (c_buf s') = bs.
Proof.
  induction blocks as [|b blocks IH]; intros ans s G L I T A C.
  - cbn. exists s. repeat split; auto. lia.
  - inversion I; subst. inversion T; subst. cbn [run_blocks].
    assert (HD : hd (CAns None false) ans = nth 0 ans (CAns None false)) by now destruct ans.
    destruct (run_block_spec detect b (hd (CAns None false) ans) s G L) as (buf & reads & E & E1 & E2);
      auto.
    { intros _. rewrite HD. apply A. cbn. lia. }
    rewrite E. rewrite HD. rewrite C by (cbn; lia).
    assert (TL : forall i, nth i (tl ans) (CAns None false) = nth (S i) ans (CAns None false)).
    { intros i. destruct ans; cbn; auto. now destruct i. }
    destruct (IH (tl ans) (CSt buf (c_done s + b_length b)
                             (hash_update func (c_hash s) (data_of b)) reads))
      as (s' & R1 & R2 & R3 & R4); auto.
    { intros i Hi. rewrite TL. apply A. cbn. lia. }
    { intros i Hi. rewrite TL. apply C. cbn. lia. }
    exists s'. split; [exact R1|]. cbn [c_hash c_done] in *. split; [exact R2|].
    split; [cbn; lia|auto].
Qed.

(* Whatever the environment answers, a success means that the digests of all
   blocks were added, provided that reads are complete. *)
Lemma run_blocks_success detect : forall blocks ans s s',
  good_hash bs (c_hash s) -> zlen (c_buf s) = bs ->
  Forall inside blocks -> Forall no_lie blocks ->
  (forall a n, In a ans -> ca_count a = Some n -> bs <= n) ->
  run_blocks func img detect blocks ans s = (s', Success) ->
  c_hash s' = after (c_hash s) (map data_of blocks) /\
  c_done s' = c_done s + fold_right Z.add 0 (map b_length blocks).
Proof.
  induction blocks as [|b blocks IH]; intros ans s s' G L I T A R.
  - cbn in R. injection R as <-. cbn. split; auto. lia.
  - inversion I; subst. inversion T; subst. cbn [run_blocks] in R.
    set (a := hd (CAns None false) ans) in *.
    destruct (b_zero b) eqn:Z0; [|destruct (ca_count a) as [n|] eqn:CA].
    + destruct (run_block_spec detect b a s G L) as (buf & reads & E & E1 & E2); auto.
      { intros; congruence. }
      rewrite E in R. destruct (ca_cancel a); [discriminate|].
      apply IH in R; auto.
      * cbn [c_hash c_done] in R. destruct R as [R1 R2]. split; [exact R1|]. cbn. lia.
      * intros x n X. apply A. destruct ans; [auto|]. now right.
    + destruct (run_block_spec detect b a s G L) as (buf & reads & E & E1 & E2); auto.
      { intros _. exists n. split; auto. apply (A a); auto. subst a.
        destruct ans; [discriminate|]. now left. }
      rewrite E in R. destruct (ca_cancel a); [discriminate|].
      apply IH in R; auto.
      * cbn [c_hash c_done] in R. destruct R as [R1 R2]. split; [exact R1|]. cbn. lia.
      * intros x m X. apply A. destruct ans; [auto|]. now right.
    + unfold run_block in R. rewrite Z0, CA in R. discriminate.
Qed.

(* ---- checksum of a file ---- *)

Lemma read_block_spec fuel : forall pos length buf done ans,
  0 <= pos -> 0 <= done <= length -> length <= zlen buf -> zlen buf = length ->
  pos + (length - done) <= zlen img ->
  length - done < Z.of_nat fuel ->
  exists ans', read_block fuel img pos length buf done ans =
    Some (take done buf ++ sub pos (length - done) img, pos + (length - done), ans').
Proof.
  induction fuel as [|fuel IH]; intros pos len buf done ans P D L L2 I F; [lia|].
  cbn [read_block]. destruct (Z.ltb_spec done len) as [G|G].
  - remember (Z.min (zlen buf - done) (Z.max 0 (zlen img - pos))) as room eqn:RM.
    remember (clamp (Z.min 1 room) room (hd room ans)) as k eqn:K.
    assert (KB : 1 <= k <= len - done) by (unfold clamp in K; lia).
    assert (SL : zlen (splice buf done (sub pos k img)) = zlen buf).
    { apply zlen_splice_inside; rewrite ?zlen_sub; lia. }
    destruct (IH (pos + k) len (splice buf done (sub pos k img)) (done + k) (tl ans))
      as (ans' & E); try lia.
    rewrite E. exists ans'. f_equal. f_equal. f_equal; [|lia].
    rewrite splice_in by (rewrite ?zlen_sub; lia).
    rewrite take_app, zlen_take, Z.min_l by lia. rewrite Z.max_r by lia.
    rewrite (take_all (done + k) (take done buf)) by (rewrite zlen_take; lia).
    rewrite take_app.
    rewrite (take_all (done + k - done)) by (rewrite zlen_sub; lia).
    rewrite zlen_sub. rewrite (take_nonpos (done + k - done - _)) by lia.
    rewrite app_nil_r, <- app_assoc. f_equal.
    replace (len - done) with (k + (len - (done + k))) by lia.
    rewrite sub_split by lia. auto.
  - exists ans. f_equal. replace (len - done) with 0 by lia. unfold sub.
    rewrite (take_nonpos 0), app_nil_r, take_all by lia. f_equal. f_equal. lia.
Qed.

Lemma good_after h l : good_hash bs h -> good_hash bs (after h l).
Proof. revert h. induction l as [|d l IH]; intros h G; [exact G|]. apply IH. now apply good_update. Qed.

Lemma file_blocks_spec detect fuel : forall length pos buf h ans,
  0 <= pos -> 0 <= length -> pos + length = zlen img -> zlen buf = bs ->
  good_hash bs h -> length + bs < Z.of_nat fuel ->
  exists (length' pos' : Z) (buf' : list byte) (ans' : list Z) (l : list block),
    file_blocks func fuel img detect bs length pos buf h ans =
      Some (length', pos', buf', after h (map data_of l), ans') /\
    0 <= length' < bs /\ 0 <= pos' /\ pos' + length' = zlen img /\ zlen buf' = bs /\
    (forall l2, shape bs (zlen img) pos' l2 -> shape bs (zlen img) pos (l ++ l2)).
Proof.
  induction fuel as [|fuel IH]; intros len pos buf h ans P L E B G F; [lia|].
  cbn [file_blocks]. destruct (Z.leb_spec bs len) as [C|C].
  - destruct (read_block_spec (S fuel) pos bs buf 0 ans) as (ans' & R); try lia.
    rewrite R. rewrite (take_nonpos 0) by lia. cbn [app]. rewrite Z.sub_0_r.
    assert (D : zlen (sub pos bs img) = bs) by (rewrite zlen_sub; lia).
    pose proof (detected bs h detect (sub pos bs img) G) as DT. rewrite D in DT. rewrite DT.
    destruct (IH (len - bs) (pos + bs) (sub pos bs img) (hash_update func h (sub pos bs img)) ans')
      as (len' & pos' & buf' & ans2 & l & R1 & R2 & R3 & R4 & R5 & R6); try lia; auto.
    rewrite R1. exists len', pos', buf', ans2, (Block pos bs false :: l).
    split; [reflexivity|]. repeat split; auto; try lia.
    intros l2 S2. cbn [app]. constructor; cbn [b_start b_length]; try lia. auto.
  - exists len, pos, buf, ans, []. split; [reflexivity|]. repeat split; auto; lia.
Qed.

End Hash.
