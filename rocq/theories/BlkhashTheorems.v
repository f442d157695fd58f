(* Theorems about block based checksums: C30, C31, C32. *)
From Coq Require Import ZArith List Bool Lia.
From Coq.Strings Require Import Byte.
From Verif Require Import BytesLib OpsModel BlkhashModel BlkhashSpec BlkhashProofs.
Import ListNotations.
Open Scope Z_scope.

(* ---- C32 ---- *)

(* is_zero is true exactly for buffers of zeros. *)
Theorem is_zero_exact : forall buf, is_zero buf = true <-> (forall x, In x buf -> x = x00).
Proof.
  intros buf. rewrite is_zero_spec, Forall_forall. split; intros H x I; symmetry; auto.
Qed.
Print Assumptions is_zero_exact.

(* A byte after a long run of zeros, at a place where the overlapping compare
   has to find it. *)
Example is_zero_exact_case :
  is_zero (repeat x00 33) = true /\ is_zero (repeat x00 32 ++ [x01]) = false
  /\ is_zero (repeat x00 16 ++ x01 :: repeat x00 16) = false /\ is_zero [] = true
  /\ is_zero (x00 :: x01 :: repeat x00 40) = false.
Proof. vm_compute. auto. Qed.

(* ---- C30 ---- *)

(* The blocks: block i starts at i * block_size, has block_size bytes or the
   bytes left, and is a zero block exactly when every byte of it is reported as
   zero. *)
Theorem split_partition :
  forall fuel exts n bs,
  0 < bs -> tile 0 exts n -> n < Z.of_nat fuel ->
  exists blocks, split fuel exts bs = Some blocks /\
    length blocks = block_count bs n /\
    forall i b, nth_error blocks i = Some b ->
      b_start b = Z.of_nat i * bs /\
      b_length b = Z.min bs (n - Z.of_nat i * bs) /\
      0 < b_length b /\
      (b_zero b = true <->
       forall j, b_start b <= j < b_start b + b_length b -> zero_at exts j).
Proof.
  intros fuel exts n bs B T F.
  destruct (split_spec fuel exts n bs B T F) as (blocks & E & S & O).
  exists blocks. split; auto. split.
  - pose proof (shape_count _ _ _ _ B S) as C. unfold block_count.
    rewrite Z.sub_0_r in C. rewrite <- C. now rewrite Nat2Z.id.
  - intros i b N. destruct (shape_nth bs n B blocks 0%nat S i b N) as [N1 N2].
    destruct (shape_bounds _ _ _ _ B S) as [_ BB]. rewrite Forall_forall in BB, O.
    apply nth_error_In in N. specialize (BB _ N). specialize (O _ N).
    repeat split; auto; try lia.
    + intros Z0. unfold block_ok in O. rewrite Z0 in O. auto.
    + intros A. unfold block_ok in O. destruct (b_zero b); auto.
      destruct O as (j & J1 & J2). elim J2. auto.
Qed.
Print Assumptions split_partition.

(* The fuel only bounds the length of the extents: any two sufficient amounts
   give the same blocks. *)
Theorem split_fuel_irrelevant :
  forall fuel fuel' exts n bs, 0 < bs -> tile 0 exts n ->
  n < Z.of_nat fuel -> n < Z.of_nat fuel' -> split fuel exts bs = split fuel' exts bs.
Proof.
  intros fuel fuel' exts n bs B T F F'.
  destruct (split_partition fuel exts n bs B T F) as (l & E & L & H).
  destruct (split_partition fuel' exts n bs B T F') as (l' & E' & L' & H').
  rewrite E, E'. f_equal. clear E E'.
  assert (forall i, nth_error l i = nth_error l' i) as X.
  { intros i. destruct (nth_error l i) as [b|] eqn:N, (nth_error l' i) as [b'|] eqn:N'; auto.
    - destruct (H _ _ N) as (A1 & A2 & A3 & A4), (H' _ _ N') as (B1 & B2 & B3 & B4).
      f_equal. destruct b as [x1 x2 x3], b' as [y1 y2 y3]. cbn [b_start b_length b_zero] in *.
      subst x1 x2 y1 y2. assert (x3 = y3) as ->; [|reflexivity].
      destruct x3, y3; auto.
      + symmetry. apply B4, A4. reflexivity.
      + apply A4, B4. reflexivity.
    - apply nth_error_None in N'. assert (i < length l)%nat by (apply nth_error_Some; congruence). lia.
    - apply nth_error_None in N. assert (i < length l')%nat by (apply nth_error_Some; congruence). lia. }
  clear - X. revert l' X. induction l as [|b l IH]; intros [|b' l'] X.
  - auto.
  - specialize (X 0%nat). discriminate.
  - specialize (X 0%nat). discriminate.
  - pose proof (X 0%nat) as X0. injection X0 as ->. f_equal. apply IH. intros i. exact (X (S i)).
Qed.
Print Assumptions split_fuel_irrelevant.

(* Small extents merged in one block, a zero extent giving a part to a data
   block, and a last short block. *)
Example split_partition_case :
  tile 0 [Ext 0 3 false; Ext 3 2 true; Ext 5 12 true; Ext 17 1 false] 18 /\
  split 19 [Ext 0 3 false; Ext 3 2 true; Ext 5 12 true; Ext 17 1 false] 4 =
    Some [Block 0 4 false; Block 4 4 true; Block 8 4 true; Block 12 4 true; Block 16 2 false].
Proof. split; [|reflexivity]. repeat (constructor; cbn; try lia). Qed.

(* ---- C31 ---- *)

Lemma blocks_facts fuel img exts bs blocks :
  0 < bs -> tile 0 exts (zlen img) -> truthful img exts ->
  split fuel exts bs = Some blocks -> shape bs (zlen img) 0 blocks ->
  Forall (block_ok (zero_at exts)) blocks ->
  Forall (inside img bs) blocks /\ Forall (no_lie img) blocks.
Proof.
  intros B T TR E S O. destruct (shape_bounds _ _ _ _ B S) as [_ BB].
  rewrite Forall_forall in BB, O. split; apply Forall_forall; intros b I.
  - specialize (BB _ I). unfold inside. lia.
  - intros Z0. specialize (O _ I). specialize (BB _ I). unfold block_ok in O. rewrite Z0 in O.
    unfold data_of. apply bytes_ext.
    + rewrite zlen_sub, zlen_zeros. lia.
    + intros i HI. rewrite zlen_sub in HI. rewrite getb_sub by lia. rewrite getb_zeros.
      destruct (Z.ltb_spec i (b_length b)); auto.
      apply TR, O. lia.
Qed.

Lemma lengths_total bs n a l : shape bs n a l ->
  fold_right Z.add 0 (map b_length l) = n - a.
Proof. induction 1; cbn; lia. Qed.

(* When every read is complete and the operation is not canceled, the result
   is the checksum of the image content, for every truthful list of extents,
   with zero detection or not, whatever the buffer contained; the progress
   reached is the size of the image. *)
Theorem checksum_of_content :
  forall func fuel img exts detect buf ans,
  0 < zlen buf -> tile 0 exts (zlen img) -> truthful img exts -> zlen img < Z.of_nat fuel ->
  (block_count (zlen buf) (zlen img) <= length ans)%nat ->
  (forall a, In a ans -> ca_cancel a = false /\ exists n, ca_count a = Some n /\ zlen buf <= n) ->
  exists s, run_checksum func fuel img exts detect buf ans =
    Some (s, inl (checksum_of func (zlen buf) img)) /\ c_done s = zlen img.
Proof.
  intros func fuel img exts detect buf ans B T TR F LA A. unfold run_checksum.
  destruct (split_spec fuel exts (zlen img) (zlen buf) B T F) as (blocks & E & S & O).
  rewrite E. destruct (blocks_facts _ _ _ _ _ B T TR E S O) as [I N].
  assert (LB : length blocks = block_count (zlen buf) (zlen img)).
  { unfold block_count. pose proof (shape_count _ _ _ _ B S) as C. rewrite Z.sub_0_r in C.
    rewrite <- C. now rewrite Nat2Z.id. }
  destruct (run_blocks_spec func img (zlen buf) detect blocks ans
              (CSt buf 0 (hash_new func (zlen buf)) [])) as (s & R1 & R2 & R3 & R4); auto.
  - apply good_new.
  - intros i Hi. apply A. apply nth_In. lia.
  - intros i Hi. apply A. apply nth_In. lia.
  - rewrite R1. exists s. cbn [c_done c_hash] in *. split.
    + do 3 f_equal. unfold hash_digest, checksum_of. rewrite R2, after_input. cbn [h_input app hash_new].
      do 3 f_equal. apply shape_image_blocks; auto.
    + rewrite R3. rewrite (lengths_total _ _ _ _ S). lia.
Qed.
Print Assumptions checksum_of_content.

(* Whatever fails or is canceled: a checksum that is returned is the right
   one.  Partial: only when no read is short; a short read is not noticed, see
   checksum_of_short_read_refuted. *)
Theorem returned_checksum_partial :
  forall func fuel img exts detect buf ans s digest,
  0 < zlen buf -> tile 0 exts (zlen img) -> truthful img exts -> zlen img < Z.of_nat fuel ->
  (forall a n, In a ans -> ca_count a = Some n -> zlen buf <= n) ->
  run_checksum func fuel img exts detect buf ans = Some (s, inl digest) ->
  digest = checksum_of func (zlen buf) img.
Proof.
  intros func fuel img exts detect buf ans s digest B T TR F A R. unfold run_checksum in R.
  destruct (split_spec fuel exts (zlen img) (zlen buf) B T F) as (blocks & E & S & O).
  rewrite E in R. destruct (blocks_facts _ _ _ _ _ B T TR E S O) as [I N].
  destruct (run_blocks func img detect blocks ans (CSt buf 0 (hash_new func (zlen buf)) []))
    as [s' o] eqn:X.
  destruct o; inversion R; subst.
  eapply (run_blocks_success func img (zlen buf)) in X; eauto; [|apply good_new].
  destruct X as [H1 H2].
  unfold hash_digest, checksum_of. rewrite H1. cbn [c_hash]. rewrite after_input. cbn [h_input app hash_new].
  do 3 f_equal. apply shape_image_blocks; auto.
Qed.
Print Assumptions returned_checksum_partial.

(* The plain pass over a file gives the same value, for every split of the
   reads and with zero detection or not. *)
Theorem file_checksum_of_content :
  forall func fuel img detect bs ans,
  0 < bs -> zlen img + bs < Z.of_nat fuel ->
  file_checksum func fuel img (zlen img) detect bs ans = Some (checksum_of func bs img).
Proof.
  intros func fuel img detect bs ans B F. unfold file_checksum.
  pose proof (zlen_nonneg img).
  destruct (file_blocks_spec func img bs B detect fuel (zlen img) 0 (zeros bs) (hash_new func bs) ans)
    as (len & pos & buf & ans' & l & R1 & R2 & R3 & R4 & R5 & R6); try lia.
  { rewrite zlen_zeros. lia. }
  { apply good_new. }
  rewrite R1. unfold hash_digest, checksum_of. destruct (Z.eqb_spec len 0) as [Z0|Z0].
  - rewrite after_input. cbn [h_input app hash_new]. do 4 f_equal.
    assert (S : shape bs (zlen img) 0 (l ++ [])).
    { apply R6. replace pos with (zlen img) by lia. constructor. }
    rewrite app_nil_r in S. apply shape_image_blocks; auto.
  - assert (V : py_stop len (zlen buf) = len) by (rewrite py_stop_nonneg by lia; lia).
    rewrite V.
    assert (ZT : zlen (take len buf) = len) by (rewrite zlen_take; lia).
    destruct (read_block_spec img fuel pos len (take len buf) 0 ans') as (ans2 & R); try lia.
    rewrite R. rewrite (take_nonpos 0), Z.sub_0_r by lia. cbn [app].
    f_equal. f_equal. cbn [hash_update h_input]. rewrite after_input. cbn [h_input app hash_new].
    assert (S : shape bs (zlen img) 0 (l ++ [Block pos len false])).
    { apply R6. constructor; cbn [b_start b_length]; try lia.
      replace (pos + len) with (zlen img) by lia. constructor. }
    rewrite <- (shape_image_blocks _ _ _ B S). rewrite !map_app, concat_app. cbn.
    now rewrite app_nil_r.
Qed.
Print Assumptions file_checksum_of_content.

(* The blocks hashed are the image: two images with the same blocks are
   equal. *)
Theorem blocks_determine_image :
  forall bs img, 0 < bs -> concat (image_blocks bs img) = img.
Proof. exact image_blocks_concat. Qed.
Print Assumptions blocks_determine_image.

(* A short read is not noticed: the operation succeeds and the checksum
   depends on what the buffer contained before. *)
Theorem checksum_of_short_read_refuted :
  exists func fuel img exts buf buf' ans s s' d d',
  0 < zlen buf /\ zlen buf = zlen buf' /\ tile 0 exts (zlen img) /\ truthful img exts /\
  zlen img < Z.of_nat fuel /\
  run_checksum func fuel img exts true buf ans = Some (s, inl d) /\
  run_checksum func fuel img exts true buf' ans = Some (s', inl d') /\
  d <> d' /\ d = checksum_of func (zlen buf) img.
Proof.
  exists (fun x => x), 9%nat, (repeat x01 8), [Ext 0 8 false], (repeat x01 4), (repeat x02 4),
    [CAns (Some 3) false; CAns (Some 4) false].
  do 4 eexists. split; [reflexivity|]. split; [reflexivity|]. split.
  { repeat (constructor; cbn; try lia). }
  split. { intros i (e & I & Z0 & _). destruct I as [<-|[]]. discriminate. }
  split; [reflexivity|]. split; [vm_compute; reflexivity|]. split; [vm_compute; reflexivity|].
  split; [discriminate|vm_compute; reflexivity].
Qed.
Print Assumptions checksum_of_short_read_refuted.

(* A file that became shorter after its size was read: the plain pass never
   ends. *)
Theorem file_checksum_ends_refuted :
  exists img size bs ans, 0 < bs /\
  forall func fuel, file_checksum func fuel img size true bs ans = None.
Proof.
  exists [x01], 4, 4, []. split; [lia|]. intros func fuel.
  assert (N : forall n buf, zlen buf = 4 -> read_block n [x01] 1 4 buf 1 [] = None).
  { intros n. induction n as [|n IH]; intros buf L; auto. cbn [read_block].
    change (1 <? 4) with true. cbn iota. rewrite L.
    change (Z.min (4 - 1) (Z.max 0 (zlen [x01] - 1))) with 0.
    change (clamp (Z.min 1 0) 0 (hd 0 [])) with 0.
    change (splice buf 1 (sub 1 0 [x01])) with buf. apply IH. auto. }
  unfold file_checksum. destruct fuel as [|fuel]; [reflexivity|].
  cbn [file_blocks]. change (4 <=? 4) with true. cbn iota.
  change (read_block (S fuel) [x01] 0 4 (zeros 4) 0 [])
    with (read_block fuel [x01] 1 4 [x01; x00; x00; x00] 1 []).
  rewrite N by reflexivity. reflexivity.
Qed.
Print Assumptions file_checksum_ends_refuted.

(* An identity "digest" shows the content: 10 bytes in blocks of 4, a zero
   extent crossing blocks, one read block that happens to be zeros. *)
Example checksum_of_content_case :
  let img := [x01; x02; x00; x00; x00; x00; x00; x00; x00; x03] in
  let exts := [Ext 0 2 false; Ext 2 3 true; Ext 5 5 false] in
  tile 0 exts (zlen img) /\ truthful img exts /\
  (exists s, run_checksum (fun x => x) 11 img exts true [x09; x09; x09; x09]
     (repeat (CAns (Some 4) false) 3) = Some (s, inl img) /\
  c_reads s = [(0, 4); (4, 4); (8, 2)]) /\
  file_checksum (fun x => x) 20 img 10 true 4 [1; 2; 7] = Some img /\
  checksum_of (fun x => x) 4 img = img.
Proof.
  cbn zeta. split; [|split; [|split]].
  - repeat (constructor; cbn; try lia).
  - intros i (e & I & Z0 & R). cbn in I. destruct I as [<-|[<-|[<-|[]]]]; try discriminate.
    cbn in R. assert (i = 2 \/ i = 3 \/ i = 4) as [->|[->| ->]] by lia; reflexivity.
  - eexists. split; vm_compute; reflexivity.
  - split; vm_compute; reflexivity.
Qed.
