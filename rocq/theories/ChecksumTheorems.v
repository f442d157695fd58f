(* Theorems about checksum requests: C67 and C68. *)
From Coq Require Import ZArith List Bool Ascii String Lia.
From Coq.Strings Require Import Byte.
From Verif Require Import BytesLib HeaderModel HeaderSpec HeaderProofs HttpModel OpsModel ImagesModel
  BlkhashModel BlkhashSpec BlkhashProofs ChecksumModel ChecksumSpec ChecksumProofs.
From Verif Require BlkhashTheorems ExtentsModel ExtentsSpec ClientIoModel ClientIoSpec HttpBackendModel
  HttpBackendSpec TransferModel TransferSpec TransferTheorems HttpBackendTheorems.
Import ListNotations.
Open Scope Z_scope.

(* Texts accepted by int(), exactly. *)
Theorem int_text_exact : forall s n, py_int None s = inl n <-> int_text s n.
Proof. exact py_int_text. Qed.
Print Assumptions int_text_exact.
Example int_text_ex : int_text (lit " -1_048_576 ") (-1048576).
Proof. apply py_int_text. vm_compute. reflexivity. Qed.

(* ---- C67 ---- *)

(* Requests that are not valid are refused with 400, whatever the ticket; nothing
   is read. *)
Theorem checksum_invalid_refused :
  forall v img id q,
  id = [] \/ (forall a, ~ asks_algorithm q (ce_algorithms v) a) \/
  (forall n, asks_block_size q n -> ~ allowed_block_size n) ->
  checksum_get v img id q = Some (CAnswer (CError (EHttp 400)) false []).
Proof.
  intros v img id q H. unfold checksum_get. destruct id as [|c id]; [reflexivity|].
  destruct (enum_query q (lits "algorithm") (ce_algorithms v) (lits ALGORITHM)) as [alg|e] eqn:E.
  - apply enum_query_spec in E. destruct H as [H|[H|H]]; [discriminate|destruct (H _ E)|].
    destruct (block_size_arg (ce_lim v) q) as [bs|e] eqn:B.
    + apply block_size_spec in B as [B1 B2]. destruct (H _ B1 B2).
    + apply block_size_error in B. subst. reflexivity.
  - apply enum_query_error in E. subst. reflexivity.
Qed.
Print Assumptions checksum_invalid_refused.

(* What a checksum in the reply means: the request was valid, the ticket allows to
   read, and the checksum is that of the whole image. *)
Theorem checksum_reply_partial :
  forall v img id q alg bs d close reads,
  checksum_get v img id q = Some (CAnswer (CChecksum alg bs d) close reads) ->
  asks_algorithm q (ce_algorithms v) alg /\ asks_block_size q bs /\ allowed_block_size bs /\
  (exists size, ce_auth v id "read" = Some size) /\ ce_canceled v = false /\
  exists func exts, ce_func v alg = Some func /\ ce_exts v = Some exts /\
    (tile 0 exts (zlen img) -> truthful img exts -> zlen img < Z.of_nat (ce_fuel v) ->
     complete_reads bs (ce_ans v) -> d = checksum_of func bs img).
Proof.
  intros v img id q alg bs d close reads H. unfold checksum_get in H. destruct id as [|c id]; [discriminate|].
  destruct (enum_query q _ _ _) as [a|] eqn:E; [|discriminate]. apply enum_query_spec in E.
  destruct (block_size_arg (ce_lim v) q) as [n|] eqn:B; [|discriminate]. apply block_size_spec in B as [B1 B2].
  destruct (ce_auth v (c :: id) "read") as [size|] eqn:A; [|discriminate].
  destruct (ce_open v) as [[]|]; try discriminate. destruct (ce_size v); [|discriminate]. cbn [negb] in H.
  destruct (ce_refused v); [discriminate|]. unfold run_op in H.
  destruct (ce_func v a) as [func|] eqn:F; [|destruct (ce_canceled v); discriminate].
  destruct (ce_exts v) as [exts|]; [|destruct (ce_canceled v); discriminate].
  destruct (run_checksum func (ce_fuel v) img exts true (zeros n) (ce_ans v)) as [[s [d'|o]]|] eqn:R;
    [|destruct o, (ce_canceled v); discriminate|discriminate].
  destruct (ce_canceled v); [discriminate|]. injection H as <- <- <- _ _.
  split; auto. split; auto. split; auto. split; [eauto|]. split; auto.
  exists func, exts. split; auto. split; auto. intros T TR L C.
  assert (Z0 : zlen (zeros n) = n) by (rewrite zlen_zeros; destruct B2; lia).
  rewrite <- Z0 at 1. eapply BlkhashTheorems.returned_checksum_partial; eauto; rewrite Z0.
  - destruct B2; lia.
  - exact C.
Qed.
Print Assumptions checksum_reply_partial.

(* A valid request is answered, if nothing goes wrong. *)
Theorem checksum_succeeds :
  forall v img id q alg bs func exts,
  id <> [] -> asks_algorithm q (ce_algorithms v) alg -> asks_block_size q bs -> allowed_block_size bs ->
  (forall s l, In (lit "block_size", s) q -> ce_lim v = Some l -> Z.of_nat (List.length s) <= l) ->
  (exists size, ce_auth v id "read" = Some size) -> (exists b buf, ce_open v = Backend b buf) ->
  ce_size v = true -> ce_refused v = false -> ce_canceled v = false ->
  ce_func v alg = Some func -> ce_exts v = Some exts ->
  tile 0 exts (zlen img) -> truthful img exts -> zlen img < Z.of_nat (ce_fuel v) ->
  no_failure bs (zlen img) (ce_ans v) ->
  exists reads, checksum_get v img id q =
    Some (CAnswer (CChecksum alg bs (checksum_of func bs img)) false reads).
Proof.
  intros v img id q alg bs func exts N A B AB LIM (size & AU) (b & buf & OP) SZ RF CA F E T TR L [NF1 NF2].
  unfold checksum_get. destruct id as [|c id]; [congruence|].
  apply enum_query_spec in A. rewrite A. rewrite (block_size_complete (ce_lim v) q bs LIM B AB).
  rewrite AU, OP, SZ, RF. cbn [negb]. unfold run_op. rewrite F, E.
  assert (Z0 : zlen (zeros bs) = bs) by (rewrite zlen_zeros; destruct AB; lia).
  destruct (BlkhashTheorems.checksum_of_content func (ce_fuel v) img exts true (zeros bs) (ce_ans v))
    as (s & R & _); rewrite ?Z0; auto.
  { destruct AB; lia. }
  rewrite R, CA, Z0. eauto.
Qed.
Print Assumptions checksum_succeeds.

(* Without access nothing is read; the reads are inside of the image, one block
   each, and only of data extents. *)
Theorem checksum_reads :
  forall v img id q r,
  checksum_get v img id q = Some r ->
  (ce_auth v id "read" = None \/ ce_refused v = true -> x_reads r = []) /\
  (forall exts, ce_exts v = Some exts -> tile 0 exts (zlen img) -> zlen img < Z.of_nat (ce_fuel v) ->
   forall pos len, In (pos, len) (x_reads r) ->
   exists bs, asks_block_size q bs /\ allowed_block_size bs /\
     0 <= pos /\ (bs | pos) /\ 0 < len <= bs /\ pos + len <= zlen img /\
     (pos + len < zlen img -> len = bs) /\
     exists i, pos <= i < pos + len /\ ~ zero_at exts i).
Proof.
  intros v img id q r H. unfold checksum_get in H. destruct id as [|c id].
  { injection H as <-. split; auto. intros ? _ _ _ ? ? []. }
  destruct (enum_query q _ _ _) as [a|] eqn:E.
  2: { injection H as <-. split; auto. intros ? _ _ _ ? ? []. }
  destruct (block_size_arg (ce_lim v) q) as [n|] eqn:B.
  2: { injection H as <-. split; auto. intros ? _ _ _ ? ? []. }
  apply block_size_spec in B as [B1 B2].
  destruct (ce_auth v (c :: id) "read") as [size|] eqn:A.
  2: { injection H as <-. split; auto. intros ? _ _ _ ? ? []. }
  destruct (ce_open v) as [[]|].
  1, 2: injection H as <-; split; auto; intros ? _ _ _ ? ? [].
  destruct (ce_size v); cbn [negb] in H.
  2: { injection H as <-. split; auto. intros ? _ _ _ ? ? []. }
  destruct (ce_refused v).
  { injection H as <-. split; auto. intros ? _ _ _ ? ? []. }
  split. { intros [X|X]; discriminate. }
  intros exts X T L pos len IN. unfold run_op in H. rewrite X in H.
  destruct (ce_func v a) as [func|] eqn:F.
  2: { destruct (ce_canceled v); injection H as <-; destruct IN. }
  assert (Z0 : zlen (zeros n) = n) by (rewrite zlen_zeros; destruct B2; lia).
  assert (P0 : 0 < n) by (destruct B2; lia).
  destruct (split_spec (ce_fuel v) exts (zlen img) n P0 T L) as (blocks & ES & SH & _).
  destruct (BlkhashTheorems.split_partition (ce_fuel v) exts (zlen img) n P0 T L) as (bl & EB & LB & NB).
  rewrite ES in EB. injection EB as <-.
  unfold run_checksum in H. rewrite Z0, ES in H.
  destruct (run_blocks func img true blocks (ce_ans v) (CSt (zeros n) 0 (hash_new func n) [])) as [s o] eqn:R.
  set (P := fun x : Z * Z => exists bs, asks_block_size q bs /\ allowed_block_size bs /\
     0 <= fst x /\ (bs | fst x) /\ 0 < snd x <= bs /\ fst x + snd x <= zlen img /\
     (fst x + snd x < zlen img -> snd x = bs) /\
     exists i, fst x <= i < fst x + snd x /\ ~ zero_at exts i).
  assert (FP : Forall P (c_reads s)).
  { eapply (run_blocks_reads func img true P blocks); [| | |exact R].
    - intros b I Z1. apply In_nth_error in I as (i & I). destruct (NB i b I) as (N1 & N2 & N3 & N4).
      exists n. cbn [fst snd]. split; auto. split; auto. split; [nia|]. split; [exists (Z.of_nat i); lia|].
      split; [lia|]. split; [lia|]. split; [lia|].
      (* some byte is not reported as zero *)
      assert (DEC : forall k : nat, (forall j, b_start b <= j < b_start b + Z.of_nat k -> zero_at exts j) \/
        exists j, b_start b <= j < b_start b + Z.of_nat k /\ ~ zero_at exts j).
      { induction k as [|k [IH|(j & J & NZ)]].
        - left. intros j J. lia.
        - assert (D : zero_at exts (b_start b + Z.of_nat k) \/ ~ zero_at exts (b_start b + Z.of_nat k)).
          { set (f := fun e => e_zero e && (e_start e <=? b_start b + Z.of_nat k)
                               && (b_start b + Z.of_nat k <? e_start e + e_length e)).
            destruct (existsb f exts) eqn:EX.
            - left. apply existsb_exists in EX as (e & I1 & I2). exists e. unfold f in I2.
              rewrite !andb_true_iff, Z.leb_le, Z.ltb_lt in I2. repeat split; tauto || lia.
            - right. intros (e & I1 & I2 & I3). rewrite <- not_true_iff_false, existsb_exists in EX. apply EX.
              exists e. split; auto. unfold f. rewrite I2. cbn [andb]. rewrite andb_true_iff, Z.leb_le, Z.ltb_lt. auto. }
          destruct D as [D|D].
          + left. intros j J. destruct (Z.eq_dec j (b_start b + Z.of_nat k)) as [->|]; auto. apply IH. lia.
          + right. exists (b_start b + Z.of_nat k). split; [lia|auto].
        - right. exists j. split; [lia|auto]. }
      destruct (DEC (Z.to_nat (b_length b))) as [D|(j & J & NZ)].
      + rewrite Z2Nat.id in D by lia. apply N4 in D. congruence.
      + rewrite Z2Nat.id in J by lia. eauto.
    - intros b I. apply In_nth_error in I as (i & I). destruct (NB i b I) as (N1 & N2 & N3 & N4).
      cbn [c_buf]. rewrite Z0. lia.
    - constructor. }
  rewrite Forall_forall in FP. apply (FP (pos, len)).
  destruct o; destruct (ce_canceled v); injection H as <-; exact IN.
Qed.
Print Assumptions checksum_reads.

(* A request canceled while it runs: 403, and the connection is closed.  The reply
   is never "null", as only the ticket cancels operations. *)
Theorem checksum_canceled :
  forall v img id q r,
  checksum_get v img id q = Some r ->
  (x_close r = true -> x_reply r = CError (EHttp 403)) /\
  (ce_canceled v = true ->
     (forall alg bs d, x_reply r <> CChecksum alg bs d) /\
     (x_reads r <> [] -> x_reply r = CError (EHttp 403) /\ x_close r = true)) /\
  ((forall a, In a (ce_ans v) -> ca_cancel a = true -> ce_canceled v = true) -> x_reply r <> CNull).
Proof.
  intros v img id q r H. unfold checksum_get in H. destruct id as [|c id].
  { injection H as <-. cbn. repeat split; try discriminate; tauto. }
  destruct (enum_query q _ _ _) as [a|] eqn:E.
  2: { injection H as <-. cbn. repeat split; try discriminate; tauto. }
  destruct (block_size_arg (ce_lim v) q) as [n|] eqn:B.
  2: { injection H as <-. cbn. repeat split; try discriminate; tauto. }
  destruct (ce_auth v (c :: id) "read") as [size|] eqn:A.
  2: { injection H as <-. cbn. repeat split; try discriminate; tauto. }
  destruct (ce_open v) as [[]|].
  1, 2: injection H as <-; cbn; repeat split; try discriminate; tauto.
  destruct (ce_size v); cbn [negb] in H.
  2: { injection H as <-. cbn. repeat split; try discriminate; tauto. }
  destruct (ce_refused v).
  { injection H as <-. cbn. repeat split; try discriminate; tauto. }
  unfold run_op in H. destruct (ce_func v a) as [func|] eqn:F.
  2: { destruct (ce_canceled v); injection H as <-; cbn; repeat split; try discriminate; tauto. }
  destruct (ce_exts v) as [exts|].
  2: { destruct (ce_canceled v); injection H as <-; cbn; repeat split; try discriminate; tauto. }
  destruct (run_checksum func (ce_fuel v) img exts true (zeros n) (ce_ans v)) as [[s [d|o]]|] eqn:R; [| |discriminate].
  { destruct (ce_canceled v); injection H as <-; cbn; repeat split; try discriminate; tauto. }
  destruct (ce_canceled v) eqn:CC.
  { destruct o; injection H as <-; cbn; repeat split; try discriminate; tauto. }
  assert (O : x_close r = false) by (destruct o; injection H as <-; reflexivity).
  split; [congruence|]. split; [discriminate|].
  intros C. destruct o; injection H as <-; cbn; try discriminate. exfalso.
  unfold run_checksum in R. destruct (split _ exts (zlen (zeros n))) as [blocks|]; [|discriminate].
  destruct (run_blocks func img true blocks (ce_ans v) _) as [s' o'] eqn:RB.
  assert (o' = Canceled) as ->. { destruct o'; try discriminate R; auto. }
  clear R. revert RB C. generalize (CSt (zeros n) 0 (hash_new func (zlen (zeros n))) []).
  generalize (ce_ans v). clear. induction blocks as [|b blocks IH]; intros ans s0 RB C; [discriminate|].
  cbn [run_blocks] in RB. set (a := hd (CAns None false) ans) in *.
  destruct (run_block func img true b a s0) as [s1 [o1|]] eqn:B1.
  - injection RB as _ ->. unfold run_block in B1.
    assert (X : ca_cancel a = true).
    { destruct (b_zero b); [|destruct (ca_count a); [|discriminate]]; destruct (ca_cancel a); congruence. }
    destruct ans as [|x ans]; [discriminate X|]. specialize (C x (or_introl eq_refl) X). discriminate.
  - apply (IH (tl ans) s1 RB). intros x I. apply C. destruct ans; [auto|now right].
Qed.
Print Assumptions checksum_canceled.

(* ---- examples ---- *)

Definition env_ex (size : Z) (func : option (list byte -> list byte)) : cenv := {|
  ce_lim := Some 4300; ce_algorithms := [lit "blake2b"; lit "sha1"; lit "shake_128"];
  ce_func a := if str_eqb a (lit "shake_128") then None else func;
  ce_auth id op := if str_eqb id (lit "t1") then Some size else None;
  ce_open := Backend 512 []; ce_size := true; ce_exts := Some [Ext 0 2 false; Ext 2 1 true];
  ce_refused := false; ce_canceled := false; ce_ans := [CAns (Some 1048576) false]; ce_fuel := 10 |}.
Definition query_ex : list (str * str) := [(lit "algorithm", lit "sha1"); (lit "block_size", lit "1_048_576")].

Lemma query_ex_block : asks_block_size query_ex 1048576.
Proof.
  right. exists (lit "1_048_576"). split.
  - apply lookup_parameter. reflexivity.
  - apply py_int_text. vm_compute. reflexivity.
Qed.
Lemma query_ex_allowed : allowed_block_size 1048576.
Proof. split; [lia|]. exists 256. reflexivity. Qed.
Lemma env_ex_tile (img : list byte) : zlen img = 3 -> tile 0 [Ext 0 2 false; Ext 2 1 true] (zlen img).
Proof. intros ->. repeat (constructor; cbn; try lia). Qed.
Lemma env_ex_true a b : truthful [a; b; x00] [Ext 0 2 false; Ext 2 1 true].
Proof.
  intros i (e & [<-|[<-|[]]] & Z0 & R); [discriminate Z0|]. cbn in R. replace i with 2 by lia. reflexivity.
Qed.

Lemma checksum_ex size func a b :
  exists reads, checksum_get (env_ex size (Some func)) [a; b; x00] (lit "t1") query_ex =
    Some (CAnswer (CChecksum (lit "sha1") 1048576 (checksum_of func 1048576 [a; b; x00])) false reads).
Proof.
  eapply checksum_succeeds; try reflexivity.
  - discriminate.
  - right. split; [apply lookup_parameter; reflexivity|]. right. left. reflexivity.
  - exact query_ex_block.
  - exact query_ex_allowed.
  - intros s l [H|[H|[]]]; [discriminate H|]. injection H as <-. intros [= <-]. vm_compute. discriminate.
  - exists size. reflexivity.
  - exists 512, []. reflexivity.
  - apply env_ex_tile. reflexivity.
  - apply env_ex_true.
  - split; [vm_compute; auto|]. intros x [<-|[]]. split; auto. exists 1048576. split; [reflexivity|lia].
Qed.

Example checksum_reply_ex : exists d close reads,
  checksum_get (env_ex 3 (Some (fun x => x))) [x01; x02; x00] (lit "t1") query_ex =
    Some (CAnswer (CChecksum (lit "sha1") 1048576 d) close reads) /\ d = [x01; x02; x00].
Proof.
  destruct (checksum_ex 3 (fun x => x) x01 x02) as (reads & H). eexists _, false, reads. split; [exact H|].
  unfold checksum_of. rewrite map_id. apply BlkhashTheorems.blocks_determine_image. lia.
Qed.
Example checksum_invalid_ex :
  checksum_get (env_ex 3 None) [] (lit "t2") [(lit "block_size", lit "-4096")] =
    Some (CAnswer (CError (EHttp 400)) false []) /\
  checksum_get (env_ex 3 None) [] (lit "t2") [(lit "algorithm", lit "crc32")] =
    Some (CAnswer (CError (EHttp 400)) false []) /\
  checksum_get (env_ex 3 None) [] (lit "t2") query_ex = Some (CAnswer (CError (EHttp 403)) false []).
Proof. vm_compute. auto. Qed.

(* The checksum does not stop at the end of the ticket: it depends on bytes that
   the ticket gives no access to. *)
Theorem checksum_outside_ticket_refuted :
  exists v img img' id q size r r',
  ce_auth v id "read" = Some size /\ zlen img = zlen img' /\ take size img = take size img' /\
  checksum_get v img id q = Some r /\ checksum_get v img' id q = Some r' /\
  x_reply r <> x_reply r' /\ exists a n d, x_reply r = CChecksum a n d.
Proof.
  destruct (checksum_ex 1 (fun x => x) x01 x02) as (reads & H), (checksum_ex 1 (fun x => x) x01 x03) as (reads' & H').
  exists (env_ex 1 (Some (fun x => x))), [x01; x02; x00], [x01; x03; x00], (lit "t1"), query_ex, 1.
  do 2 eexists. split; [reflexivity|]. split; [reflexivity|]. split; [reflexivity|].
  split; [exact H|]. split; [exact H'|]. split; [|cbn; eauto].
  cbn [x_reply]. unfold checksum_of. rewrite !map_id, !BlkhashTheorems.blocks_determine_image by lia. discriminate.
Qed.
Print Assumptions checksum_outside_ticket_refuted.

(* An algorithm may be offered and fail: the list is hashlib.algorithms_available,
   which always has shake_128, whose digest() needs a length. *)
Theorem offered_algorithm_refuted :
  exists v img id q alg,
  In alg (ce_algorithms v) /\ asks_algorithm q (ce_algorithms v) alg /\
  checksum_get v img id q = Some (CAnswer (CError EOther) false []).
Proof.
  exists (env_ex 3 (Some (fun x => x))), [x01; x02; x00], (lit "t1"), [(lit "algorithm", lit "shake_128")], (lit "shake_128").
  split; [cbn; auto|]. split; [|vm_compute; reflexivity].
  right. split; [apply lookup_parameter; reflexivity|cbn; auto].
Qed.
Print Assumptions offered_algorithm_refuted.

(* ---- C68 ---- *)

Lemma concat_same_length (f : list byte -> list byte) n : 0 < n -> (forall x, zlen (f x) = n) ->
  forall a b, List.concat (map f a) = List.concat (map f b) -> map f a = map f b.
Proof.
  intros N H. induction a as [|x a IH]; intros [|y b] E; cbn [map List.concat] in E.
  - reflexivity.
  - apply (f_equal zlen) in E. rewrite zlen_app, H in E. change (zlen []) with 0 in E.
    pose proof (zlen_nonneg (List.concat (map f b))). lia.
  - apply (f_equal zlen) in E. rewrite zlen_app, H in E. change (zlen []) with 0 in E.
    pose proof (zlen_nonneg (List.concat (map f a))). lia.
  - cbn [map]. assert (L : List.length (f x) = List.length (f y)).
    { pose proof (H x). pose proof (H y). unfold zlen in *. lia. }
    assert (E2 : f x = f y /\ List.concat (map f a) = List.concat (map f b)).
    { clear - E L. revert E L. generalize (f y). induction (f x) as [|p l IH]; intros [|q m] E L; try discriminate L.
      - auto.
      - cbn in E, L. injection E as -> E. injection L as L. destruct (IH m E L) as [-> ->]. auto. }
    destruct E2 as [-> E2]. f_equal. apply IH. exact E2.
Qed.

(* Equal checksums mean equal images, or two messages with the same digest. *)
Theorem equal_checksums :
  forall func n bs a b, 0 < n -> (forall x, zlen (func x) = n) -> 0 < bs ->
  checksum_of func bs a = checksum_of func bs b -> a = b \/ collision func.
Proof.
  intros func n bs a b N H B E. unfold checksum_of in E.
  destruct (list_eq_dec Byte.byte_eq_dec (List.concat (map func (image_blocks bs a))) (List.concat (map func (image_blocks bs b)))) as [C|C].
  2: { right. eexists _, _. eauto. }
  apply (concat_same_length func n N H) in C.
  assert (X : image_blocks bs a = image_blocks bs b \/ collision func).
  { clear E. revert C. generalize (image_blocks bs a), (image_blocks bs b).
    induction l as [|x l IH]; intros [|y m] E; try discriminate E; auto.
    cbn in E. injection E as E1 E2. destruct (IH m E2) as [->|]; auto.
    destruct (list_eq_dec Byte.byte_eq_dec x y) as [->|D]; auto. right. exists x, y. auto. }
  destruct X as [X|X]; auto. left.
  rewrite <- (BlkhashTheorems.blocks_determine_image bs a), <- (BlkhashTheorems.blocks_determine_image bs b) by auto.
  now rewrite X.
Qed.
Print Assumptions equal_checksums.

Lemma local_checksum_right func fuel img exts detect bs ans d :
  0 < bs -> tile 0 exts (zlen img) -> truthful img exts -> zlen img < Z.of_nat fuel -> complete_reads bs ans ->
  local_checksum func fuel img exts detect bs ans = Some d -> d = checksum_of func bs img.
Proof.
  intros B T TR L C H. unfold local_checksum in H.
  destruct (run_checksum func fuel img exts detect (zeros bs) ans) as [[s [d'|]]|] eqn:R; try discriminate.
  injection H as ->. assert (Z0 : zlen (zeros bs) = bs) by (rewrite zlen_zeros; lia).
  rewrite <- Z0 at 1. eapply BlkhashTheorems.returned_checksum_partial; eauto; rewrite Z0; auto.
Qed.

(* A transfer that is verified by comparing the checksum of the server with the
   local one is right, whatever happened: the images are equal, or the hash
   function has a collision. *)
Theorem verified_transfer :
  forall v img id q alg bs d close reads func n src fuel exts detect ans,
  checksum_get v img id q = Some (CAnswer (CChecksum alg bs d) close reads) ->
  ce_func v alg = Some func -> 0 < n -> (forall x, zlen (func x) = n) ->
  (forall l, ce_exts v = Some l -> tile 0 l (zlen img) /\ truthful img l) ->
  zlen img < Z.of_nat (ce_fuel v) -> complete_reads bs (ce_ans v) ->
  tile 0 exts (zlen src) -> truthful src exts -> zlen src < Z.of_nat fuel -> complete_reads bs ans ->
  local_checksum func fuel src exts detect bs ans = Some d ->
  img = src \/ collision func.
Proof.
  intros v img id q alg bs d close reads func n src fuel exts detect ans H F N HL HE L C T TR L' C' E.
  destruct (checksum_reply_partial v img id q alg bs d close reads H) as (_ & _ & AB & _ & _ & f & l & F' & E' & D).
  rewrite F in F'. injection F' as <-. destruct (HE l E') as [T1 T2]. specialize (D T1 T2 L C). subst d.
  destruct AB as [AB _]. assert (P : 0 < bs) by lia.
  apply local_checksum_right in E; auto. exact (equal_checksums func n bs img src N HL P E).
Qed.
Print Assumptions verified_transfer.

(* After a successful upload of an image as large as the disk, the checksum of the
   server is that of the source. *)
Theorem uploaded_checksum :
  forall tid total envs, (forall i, HttpBackendSpec.usable tid total (envs i)) ->
  forall buf disk_is_zero iexts n b src tr s,
  0 < buf -> TransferSpec.fresh total b -> ExtentsSpec.tiles 0 (zlen src) iexts ->
  ClientIoSpec.honest_extents false src iexts ->
  (disk_is_zero = true -> forall i, getb (HttpBackendModel.iw_img (HttpBackendModel.h_world b)) i = x00) ->
  zlen src = total ->
  TransferModel.texec (TransferModel.upload_config tid envs buf true disk_is_zero iexts) tr
    (TransferModel.tinit TransferModel.Up n b src) = Some s ->
  TransferSpec.succeeded s ->
  forall v id q alg bs d close reads func fuel exts detect ans d',
  checksum_get v (TransferSpec.server_image s) id q = Some (CAnswer (CChecksum alg bs d) close reads) ->
  ce_func v alg = Some func ->
  (forall l, ce_exts v = Some l -> tile 0 l total /\ truthful src l) ->
  total < Z.of_nat (ce_fuel v) -> complete_reads bs (ce_ans v) ->
  tile 0 exts total -> truthful src exts -> total < Z.of_nat fuel -> complete_reads bs ans ->
  local_checksum func fuel src exts detect bs ans = Some d' ->
  d = d'.
Proof.
  intros tid total envs U buf dz iexts n b src tr s B FR T HO Z0 LS E M v id q alg bs d close reads func fuel exts detect ans d'
    H F HE L C T' TR' L' C' EL.
  pose proof (TransferTheorems.upload_identical tid total envs U buf dz iexts n b src tr s B FR T HO Z0 ltac:(lia) E M) as I.
  destruct FR as (FR & _).
  assert (X : drop (zlen src) (HttpBackendModel.iw_img (HttpBackendModel.h_world b)) = []).
  { apply drop_all. lia. }
  rewrite X, app_nil_r in I. rewrite I in H.
  destruct (checksum_reply_partial v src id q alg bs d close reads H) as (_ & _ & AB & _ & _ & f & l & F' & E' & D).
  rewrite F in F'. injection F' as <-. destruct (HE l E') as [T1 T2]. rewrite LS in D. specialize (D T1 T2 L C).
  destruct AB as [AB _]. apply local_checksum_right in EL; rewrite ?LS; auto; [congruence|lia].
Qed.
Print Assumptions uploaded_checksum.

(* An upload of 10 bytes to a disk of 10 bytes, and both checksums; the digests
   are 4 bytes long. *)
Definition digest_ex (x : list byte) : list byte := take 4 (x ++ zeros 4).
Lemma digest_ex_length x : zlen (digest_ex x) = 4.
Proof. unfold digest_ex. rewrite zlen_take, zlen_app, zlen_zeros. pose proof (zlen_nonneg x). lia. Qed.

Definition whole_src : list byte := [x01; x02; x03; x04; x05; x06; x07; x08; x09; x00].
Definition whole_exts : list ExtentsModel.image_extent := [ExtentsModel.ZeroExtent 0 10 false false].
Definition env_whole : cenv := {|
  ce_lim := None; ce_algorithms := [lit "sha1"]; ce_func a := Some digest_ex;
  ce_auth id op := Some 10; ce_open := Backend 512 []; ce_size := true; ce_exts := Some [Ext 0 9 false; Ext 9 1 true];
  ce_refused := false; ce_canceled := false; ce_ans := [CAns (Some 1048576) false]; ce_fuel := 20 |}.

Lemma whole_upload :
  let c := TransferTheorems.up_config true false whole_exts in
  let s0 := TransferModel.tinit TransferModel.Up 2 HttpBackendTheorems.back_ex whole_src in
  exists s,
  TransferModel.texec c (TransferTheorems.tdrive c TransferTheorems.both 200 s0) s0 = Some s /\
  TransferSpec.succeeded s /\ TransferSpec.server_image s = whole_src.
Proof.
  intros c s0. destruct (TransferModel.texec c (TransferTheorems.tdrive c TransferTheorems.both 200 s0) s0) as [s|] eqn:E.
  2: { revert E. vm_compute. discriminate. }
  exists s. revert E. vm_compute. intros [= <-]. auto.
Qed.

Example verified_transfer_ex :
  let c := TransferTheorems.up_config true false whole_exts in
  let s0 := TransferModel.tinit TransferModel.Up 2 HttpBackendTheorems.back_ex whole_src in
  exists s d reads,
  TransferModel.texec c (TransferTheorems.tdrive c TransferTheorems.both 200 s0) s0 = Some s /\
  TransferSpec.succeeded s /\
  TransferSpec.fresh 10 HttpBackendTheorems.back_ex /\ ExtentsSpec.tiles 0 (zlen whole_src) whole_exts /\
  ClientIoSpec.honest_extents false whole_src whole_exts /\
  tile 0 [Ext 0 9 false; Ext 9 1 true] 10 /\ truthful whole_src [Ext 0 9 false; Ext 9 1 true] /\
  checksum_get env_whole (TransferSpec.server_image s) (lit "t1") query_ex =
    Some (CAnswer (CChecksum (lit "sha1") 1048576 d) false reads) /\
  local_checksum digest_ex 20 whole_src [Ext 0 10 false] true 1048576 [CAns (Some 1048576) false] = Some d.
Proof.
  intros c s0. destruct whole_upload as (s & E & F1 & F2).
  assert (T1 : tile 0 [Ext 0 9 false; Ext 9 1 true] 10) by (repeat (constructor; cbn; try lia)).
  assert (T2 : truthful whole_src [Ext 0 9 false; Ext 9 1 true]).
  { intros i (e & [<-|[<-|[]]] & Z0 & R); [discriminate Z0|]. cbn in R. replace i with 9 by lia. reflexivity. }
  assert (T3 : tile 0 [Ext 0 10 false] 10) by (repeat (constructor; cbn; try lia)).
  assert (T4 : truthful whole_src [Ext 0 10 false]).
  { intros i (e & [<-|[]] & Z0 & R). discriminate Z0. }
  destruct (checksum_succeeds env_whole whole_src (lit "t1") query_ex (lit "sha1") 1048576 digest_ex
              [Ext 0 9 false; Ext 9 1 true]) as (reads & H); try reflexivity; auto.
  - discriminate.
  - right. split; [apply lookup_parameter; reflexivity|left; reflexivity].
  - exact query_ex_block.
  - exact query_ex_allowed.
  - discriminate.
  - exists 10. reflexivity.
  - exists 512, []. reflexivity.
  - split; [vm_compute; auto|]. intros x [<-|[]]. split; auto. exists 1048576. split; [reflexivity|lia].
  - exists s, (checksum_of digest_ex 1048576 whole_src), reads. split; [exact E|]. split; [exact F1|].
    split; [exact TransferTheorems.fresh_ex|]. split; [repeat (constructor; cbn; try lia)|].
    split. { intros e [<-|[]]. split; auto. discriminate. }
    split; [exact T1|]. split; [exact T2|]. split; [rewrite F2; exact H|].
    unfold local_checksum.
    assert (Z0 : zlen (zeros 1048576) = 1048576) by (rewrite zlen_zeros; lia).
    destruct (BlkhashTheorems.checksum_of_content digest_ex 20 whole_src [Ext 0 10 false] true (zeros 1048576)
                [CAns (Some 1048576) false]) as (st & R & _); rewrite ?Z0.
    + lia.
    + exact T3.
    + exact T4.
    + reflexivity.
    + vm_compute. auto.
    + intros a [<-|[]]. split; auto. exists 1048576. split; [reflexivity|lia].
    + rewrite R, Z0. reflexivity.
Qed.
