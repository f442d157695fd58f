(* Transfers between images served by the modelled backends: C69. *)
From Coq Require Import ZArith List Bool String Lia.
From Coq.Strings Require Import Byte.
From Verif Require Import BytesLib HeaderModel ImagesModel ImagesSpec ExtentsModel ExtentsSpec ClientIoSpec
  HttpBackendModel HttpBackendSpec BlkhashModel ChecksumModel ChecksumSpec TransferModel TransferSpec ChainModel ChainSpec.
From Verif Require NbdModel NbdSpec ExtentsProofs ExtentsTheorems BlkhashSpec ClientIoTheorems TransferTheorems
  ChecksumTheorems HttpBackendTheorems HeaderSpec TransferProofs NbdTheorems.
Import ListNotations.
Open Scope Z_scope.

(* ---- the extents are right ---- *)

(* The NBD backend over a server which tells the truth: the extents are reported
   without an exception, cover the image, and what is zero reads as zeros. *)
Theorem nbd_extents_right :
  forall v k has_base dirty s img, nbd_serves v k has_base dirty s img ->
  exists l, nbd_extents v k has_base s dirty = Some l /\
    tiles 0 (zlen img) l /\ honest_extents dirty img l.
Proof.
  intros v k has_base dirty s img (SZ & L & HB & H). unfold nbd_extents. destruct has_base.
  - destruct (H eq_refl) as (V & K & C1 & C2 & F & ctx & l & rest & CTX & HO & SI & Z0). rewrite <- SZ in *.
    destruct (ExtentsTheorems.image_extents_of_honest_server v k (if dirty then QDirty else QZero) F ctx s l rest)
      as (out & s' & E & _ & T & S); auto; try lia.
    { destruct dirty; auto. }
    rewrite E. exists out. split; auto. split; auto.
    intros e I.
    assert (KD : match e with ZeroExtent _ _ _ _ => dirty = false | DirtyExtent _ _ _ _ => dirty = true end).
    { revert E. unfold backend_extents. destruct dirty; cbn [negb andb].
      - destruct (NbdModel.k_dirty k); [|intros [= <- _]; contradiction].
        destruct (ExtentsModel.extents v k 0 None true s) as [[l0 r] sx].
        destruct (convert true 0 l0) as [o r'] eqn:CV. intros E.
        assert (X : out = o) by (destruct r'; congruence). subst o.
        clear - CV I. revert out r' CV I. generalize 0. induction l0 as [|[x|] l0 IH]; cbn [convert]; intros a out r' CV I;
          try (injection CV as <- <-; contradiction).
        destruct (convert true (a + NbdModel.e_length x) l0) as [o r''] eqn:C2. injection CV as <- <-.
        destruct I as [<-|I]; [auto|exact (IH _ _ _ C2 I)].
      - destruct (ExtentsModel.extents v k 0 None false s) as [[l0 r] sx].
        destruct (convert false 0 l0) as [o r'] eqn:CV. intros E.
        assert (X : out = o) by (destruct r'; congruence). subst o.
        clear - CV I. revert out r' CV I. generalize 0. induction l0 as [|[x|] l0 IH]; cbn [convert]; intros a out r' CV I;
          try (injection CV as <- <-; contradiction).
        destruct (convert false (a + NbdModel.e_length x) l0) as [o r''] eqn:C2. injection CV as <- <-.
        destruct I as [<-|I]; [auto|exact (IH _ _ _ C2 I)]. }
    pose proof (fun i W => S e i I W) as SS. pose proof (fun i W => ClientIoTheorems.tiles_within _ _ _ _ i T I W) as RG.
    destruct e as [st n z h|st n d z]; (split; [exact KD|]); intros -> i W; apply Z0.
    + specialize (RG i W). lia.
    + destruct (SS i W) as [X _]. auto.
    + specialize (RG i W). lia.
    + destruct (SS i W) as [_ X]. auto.
  - rewrite (HB eq_refl). cbn [backend_extents negb andb]. rewrite SZ. eexists. split; [reflexivity|]. split.
    + apply tiles_one; cbn; [auto|lia|apply tiles_end].
    + intros e [<-|[]]. split; [auto|discriminate].
Qed.
Print Assumptions nbd_extents_right.

(* Whatever the server says: the extents used cover the image; those got before
   an error are not used. *)
Theorem nbd_extents_complete :
  forall v k has_base dirty s l, nbd_extents v k has_base s dirty = Some l -> 0 < NbdModel.k_size k ->
  tiles 0 (NbdModel.k_size k) l.
Proof.
  intros v k has_base dirty s l E L. unfold nbd_extents in E.
  destruct (backend_extents v k has_base (if dirty then QDirty else QZero) s) as [[out [[]|x]] s'] eqn:B; [|discriminate].
  injection E as <-. exact (ExtentsTheorems.image_extents_cover_partial _ _ _ _ _ _ _ B L).
Qed.
Print Assumptions nbd_extents_complete.

Lemma one_extent_right img : 0 < zlen img ->
  tiles 0 (zlen img) [ZeroExtent 0 (zlen img) false false] /\
  honest_extents false img [ZeroExtent 0 (zlen img) false false].
Proof.
  intros L. split; [apply tiles_one; cbn; [auto|lia|apply tiles_end]|].
  intros e [<-|[]]. split; [auto|discriminate].
Qed.

(* Files: always. *)
Theorem file_extents_right :
  forall dirty img l, 0 < zlen img -> file_extents dirty img = Some l ->
  dirty = false /\ tiles 0 (zlen img) l /\ honest_extents false img l.
Proof. intros [] img l L [= <-]. split; auto. apply one_extent_right; auto. Qed.
Print Assumptions file_extents_right.

(* The same for the memory backend. *)
Theorem memory_extents_right :
  forall dirty img l, 0 < zlen img -> memory_extents dirty img = Some l ->
  dirty = false /\ tiles 0 (zlen img) l /\ honest_extents false img l.
Proof. intros [] img l L [= <-]. split; auto. apply one_extent_right; auto. Qed.
Print Assumptions memory_extents_right.

Example memory_extents_ex :
  memory_extents false [x01; x00] = Some [ZeroExtent 0 2 false false] /\ memory_extents true [x01] = None.
Proof. split; reflexivity. Qed.

Lemma file_truthful dirty total envs : 0 < total -> file_backed envs -> truthful dirty total envs.
Proof.
  intros P FB i img l L E. rewrite FB in E. rewrite <- L in *.
  destruct (file_extents_right dirty img l P E) as (-> & H). auto.
Qed.

Lemma nbd_truthful dirty total envs : nbd_backed dirty total envs -> truthful dirty total envs.
Proof.
  intros NB i img l L E. destruct (NB i img L) as (v & k & hb & s & E' & N). rewrite E' in E.
  destruct (nbd_extents_right _ _ _ _ _ _ N) as (l' & E2 & H). rewrite <- L. congruence.
Qed.

(* ---- uploads of an image served by qemu-nbd ---- *)

Theorem upload_from_nbd :
  forall id total envs, (forall i, usable id total (envs i)) ->
  forall v k has_base s0 exts buf disk_is_zero n b src tr s,
  nbd_serves v k has_base false s0 src -> nbd_extents v k has_base s0 false = Some exts ->
  0 < buf -> fresh total b -> zlen src <= total ->
  (disk_is_zero = true -> forall i, getb (iw_img (h_world b)) i = x00) ->
  texec (upload_config id envs buf true disk_is_zero exts) tr (tinit Up n b src) = Some s -> succeeded s ->
  server_image s = src ++ drop (zlen src) (iw_img (h_world b)).
Proof.
  intros id total envs U v k hb s0 exts buf dz n b src tr s N EX B FR L Z0 E M.
  destruct (nbd_extents_right _ _ _ _ _ _ N) as (l & EX' & T & H). rewrite EX in EX'. injection EX' as <-.
  exact (TransferTheorems.upload_identical id total envs U buf dz exts n b src tr s B FR T H Z0 L E M).
Qed.
Print Assumptions upload_from_nbd.

(* ---- downloads ---- *)

(* From files on the server: nothing has to be assumed about the extents. *)
Theorem download_from_file :
  forall id total envs, (forall i, usable id total (envs i)) -> file_backed envs ->
  forall qcow2 buf b c b1 size n tr s,
  0 < buf -> fresh total b -> 0 < total ->
  download_start id envs qcow2 buf false None b = Some (c, b1, size) ->
  texec c tr (tinit Down n b1 (zeros size)) = Some s -> succeeded s ->
  local_image s = iw_img (h_world b).
Proof.
  intros id total envs U FB qcow2 buf b c b1 size n tr s B FR P ST E M.
  refine (TransferTheorems.download_identical id total envs U qcow2 buf b c b1 size n tr s B FR P _ ST E M). apply file_truthful; auto.
Qed.
Print Assumptions download_from_file.

Theorem download_from_nbd :
  forall id total envs, (forall i, usable id total (envs i)) -> nbd_backed false total envs ->
  forall qcow2 buf b c b1 size n tr s,
  0 < buf -> fresh total b -> 0 < total ->
  download_start id envs qcow2 buf false None b = Some (c, b1, size) ->
  texec c tr (tinit Down n b1 (zeros size)) = Some s -> succeeded s ->
  local_image s = iw_img (h_world b).
Proof.
  intros id total envs U NB qcow2 buf b c b1 size n tr s B FR P ST E M.
  refine (TransferTheorems.download_identical id total envs U qcow2 buf b c b1 size n tr s B FR P _ ST E M). apply nbd_truthful; auto.
Qed.
Print Assumptions download_from_nbd.

(* An incremental download gives exactly the blocks the server reports as dirty. *)
Theorem incremental_from_nbd :
  forall id total envs, (forall i, usable id total (envs i)) -> nbd_backed true total envs ->
  forall buf backing_file b c b1 size n new tr s,
  0 < buf -> fresh total b -> 0 < total ->
  download_start id envs true buf true backing_file b = Some (c, b1, size) ->
  zlen new = size ->
  texec c tr (tinit Down n b1 new) = Some s -> succeeded s ->
  exists v k s0 exts, nbd_extents v k true s0 true = Some exts /\
    nbd_serves v k true true s0 (iw_img (h_world b)) /\ tiles 0 total exts /\
    forall e i, In e exts -> within e i -> exists d z, e = DirtyExtent (start_of e) (length_of e) d z /\
      getb (local_image s) i = if d then getb (iw_img (h_world b)) i else getb new i.
Proof.
  intros id total envs U NB buf bf b c b1 size n new tr s B FR P ST SZ E M.
  pose proof (nbd_truthful _ _ _ NB) as TR.
  destruct (TransferTheorems.download_content id total envs U true buf true bf b c b1 size n new tr s B FR P TR ST SZ E M)
    as (_ & _ & exts & (i & SE) & C).
  destruct SE as [SE|[CE _]].
  2: { exfalso. rewrite TransferTheorems.incremental_refused in ST by auto. discriminate. }
  assert (L : zlen (iw_img (h_world b)) = total) by apply FR.
  destruct (NB i _ L) as (v & k & hb & s0 & E' & N). rewrite SE in E'.
  destruct (nbd_extents_right _ _ _ _ _ _ N) as (l & E2 & T & H). rewrite E2 in E'. injection E' as <-.
  destruct N as (N1 & N2 & N3 & N4). destruct hb; [|discriminate (N3 eq_refl)].
  exists v, k, s0, exts. split; auto. split; [split; auto|]. split; [congruence|].
  intros e j IE W. specialize (H e IE). specialize (C e j IE W).
  destruct e as [|st len d z]; [destruct H; discriminate|]. exists d, z. auto.
Qed.
Print Assumptions incremental_from_nbd.

(* ---- there and back ---- *)

(* An image uploaded to a file on a server and downloaded again is the image. *)
Theorem round_trip :
  forall id total envs, (forall i, usable id total (envs i)) ->
  forall v k has_base s0 exts buf n b src tr s,
  nbd_serves v k has_base false s0 src -> nbd_extents v k has_base s0 false = Some exts ->
  0 < buf -> fresh total b -> zlen src = total ->
  texec (upload_config id envs buf true false exts) tr (tinit Up n b src) = Some s -> succeeded s ->
  forall id' envs', (forall i, usable id' total (envs' i)) -> file_backed envs' ->
  forall qcow2 buf' b' c b1 size n' tr' s',
  0 < buf' -> fresh total b' -> iw_img (h_world b') = server_image s ->
  download_start id' envs' qcow2 buf' false None b' = Some (c, b1, size) ->
  texec c tr' (tinit Down n' b1 (zeros size)) = Some s' -> succeeded s' ->
  local_image s' = src.
Proof.
  intros id total envs U v k hb s0 exts buf n b src tr s N EX B FR L E M
    id' envs' U' FB qcow2 buf' b' c b1 size n' tr' s' B' FR' I ST E' M'.
  assert (P : 0 < total) by (destruct N as (_ & N & _); lia).
  rewrite (download_from_file id' total envs' U' FB qcow2 buf' b' c b1 size n' tr' s' B' FR' P ST E' M'), I.
  assert (D : false = true -> forall i, getb (iw_img (h_world b)) i = x00) by discriminate.
  rewrite (upload_from_nbd id total envs U v k hb s0 exts buf false n b src tr s N EX B FR ltac:(lia) D E M).
  destruct FR as [FR _]. rewrite drop_all by lia. apply app_nil_r.
Qed.
Print Assumptions round_trip.

(* ---- checksums ---- *)

Lemma ext_of_right dirty img l : tiles 0 (zlen img) l -> honest_extents dirty img l ->
  BlkhashSpec.tile 0 (map ext_of l) (zlen img) /\ BlkhashSpec.truthful img (map ext_of l).
Proof.
  intros T H. split.
  - clear H. induction T as [a|a b e l S L T IH]; [constructor|]. cbn [map].
    destruct e; cbn in *; apply BlkhashSpec.tile_cons; auto.
  - intros i (x & I & Z0 & R). apply in_map_iff in I as (e & <- & I). specialize (H e I).
    destruct e; cbn in *; apply H; auto.
Qed.

(* After a download the checksum of the local image, served by qemu-nbd, is the
   checksum of the image of the server. *)
Theorem downloaded_checksum :
  forall id total envs, (forall i, usable id total (envs i)) ->
  (file_backed envs \/ nbd_backed false total envs) ->
  forall qcow2 buf b c b1 size n tr s,
  0 < buf -> fresh total b -> 0 < total ->
  download_start id envs qcow2 buf false None b = Some (c, b1, size) ->
  texec c tr (tinit Down n b1 (zeros size)) = Some s -> succeeded s ->
  forall v k has_base s0 exts func fuel detect bs ans d,
  nbd_serves v k has_base false s0 (local_image s) -> nbd_extents v k has_base s0 false = Some exts ->
  0 < bs -> total < Z.of_nat fuel -> complete_reads bs ans ->
  local_checksum func fuel (local_image s) (map ext_of exts) detect bs ans = Some d ->
  d = BlkhashSpec.checksum_of func bs (iw_img (h_world b)).
Proof.
  intros id total envs U FB qcow2 buf b c b1 size n tr s B FR P ST E M v k hb s0 exts func fuel detect bs ans d
    N EX BS L C H.
  assert (I : local_image s = iw_img (h_world b)).
  { destruct FB as [FB|FB]; [exact (download_from_file id total envs U FB qcow2 buf b c b1 size n tr s B FR P ST E M)|exact (download_from_nbd id total envs U FB qcow2 buf b c b1 size n tr s B FR P ST E M)]. }
  destruct (nbd_extents_right _ _ _ _ _ _ N) as (l & EX' & T & HO). rewrite EX in EX'. injection EX' as <-.
  destruct (ext_of_right _ _ _ T HO) as [T1 T2].
  rewrite <- I. eapply ChecksumTheorems.local_checksum_right; eauto.
  rewrite I. destruct FR as [-> _]. auto.
Qed.
Print Assumptions downloaded_checksum.

(* ---- a case ---- *)

(* An NBD server with an image of 10 bytes, of which it reports the last byte
   as zero. *)
Definition nbd_client_ex : NbdModel.client :=
  NbdModel.Client true (fun i => if i =? 1 then Some "base:allocation"%string else None) None 1 10 0.
Definition nbd_reply_ex : list byte := ExtentsTheorems.ex_status 7 1 1 [(9, 0); (1, 3)].
Definition nbd_state_ex : NbdModel.st := NbdTheorems.ex_state (nbd_reply_ex ++ [x77]).
Definition nbd_flags_ex (name : string) (i : Z) : Z := if i <? 9 then 0 else 3.
Definition image_ex : list byte := ChecksumTheorems.whole_src.

Lemma nbd_serves_ex : nbd_serves NbdTheorems.ex_env nbd_client_ex true false nbd_state_ex image_ex.
Proof.
  split; [reflexivity|]. split; [vm_compute; intuition discriminate|]. split; [discriminate|]. intros _.
  split; [exact NbdTheorems.ex_can_send|]. split; [reflexivity|]. split; [vm_compute; discriminate|].
  split; [vm_compute; discriminate|].
  exists nbd_flags_ex, None, nbd_reply_ex, [x77]. split; [left; reflexivity|].
  assert (B : NbdSpec.kind_of nbd_client_ex "base:allocation" NbdModel.ALLOC) by (split; discriminate).
  assert (TB : forall name kind, NbdSpec.kind_of nbd_client_ex name kind -> name = "base:allocation"%string -> kind = NbdModel.ALLOC).
  { intros name [] Q ->; auto; [destruct Q as [_ Q]; discriminate Q|discriminate Q]. }
  split; [|split; [reflexivity|]].
  - rewrite <- (app_nil_r nbd_reply_ex).
    apply honest_reply with (cs := [NbdSpec.CStatus 1 [(9, 0); (1, 3)]]) (n := 10) (n2 := 10);
      [vm_compute; reflexivity| | | | |reflexivity| |constructor; vm_compute; discriminate].
    + apply NbdSpec.last_chunk. apply ExtentsTheorems.ex_status_bytes; try lia; try reflexivity.
      repeat constructor; cbn; lia.
    + repeat constructor; vm_compute; discriminate.
    + constructor; [|constructor]. intros name kind E KD i f A. injection E as <-.
      rewrite (TB _ _ KD eq_refl) in A. cbn in A. unfold nbd_flags_ex.
      inversion A as [? ? ? J|? ? ? ? A2]; subst; clear A; cbn [NbdModel.e_length NbdModel.e_flags fst] in *.
      * replace (0 + i <? 9) with true by lia. reflexivity.
      * inversion A2 as [? ? ? J|? ? ? ? A3]; subst; clear A2; cbn [NbdModel.e_length NbdModel.e_flags fst] in *.
        -- match goal with |- (if ?b then _ else _) = _ => replace b with false by lia end. reflexivity.
        -- inversion A3.
    + exists 1, [(9, 0); (1, 3)], NbdModel.ALLOC. split; [left; auto|]. repeat split; auto; try discriminate.
      intros id ds [X|[]] Y. injection X as <- <-. auto.
    + intros _ id ds [X|[]] Y. injection X as <- <-. discriminate.
  - intros i I. change (zlen image_ex) with 10 in I. unfold flags_of, nbd_flags_ex.
    destruct (Z.ltb_spec i 9); [intros X; vm_compute in X; discriminate|]. intros _.
    replace i with 9 by lia. reflexivity.
Qed.

Example nbd_extents_ex :
  nbd_extents NbdTheorems.ex_env nbd_client_ex true nbd_state_ex false
  = Some [ZeroExtent 0 9 false false; ZeroExtent 9 1 true false].
Proof. vm_compute. reflexivity. Qed.
(* The reply tells about 9 of the 10 bytes, then the connection is closed. *)
Example nbd_extents_complete_ex :
  nbd_extents NbdTheorems.ex_env nbd_client_ex true
    (NbdTheorems.ex_state (ExtentsTheorems.ex_status 7 1 1 [(9, 0)])) false = None.
Proof. vm_compute. reflexivity. Qed.

(* It is uploaded by two workers to a file on a server, and downloaded by three
   from another connection. *)
Definition senv_file : senv :=
  SEnv HttpBackendTheorems.ienv_ex file_extents false (fun _ => true) (8, 1) None false.
Example file_usable_ex : usable (HeaderSpec.lit "id") 10 senv_file.
Proof.
  destruct HttpBackendTheorems.usable_ex as (U1 & U2 & U3 & _). split; [exact U1|]. split; [exact U2|]. split; [exact U3|].
  intros img l L [= <-]. cbn. f_equal. exact L.
Qed.
Example file_backed_ex : file_backed (fun _ => senv_file).
Proof. intros i dirty img. reflexivity. Qed.

Definition again_ex : hb iworld :=
  snd (connect (imageio (HeaderSpec.lit "id") (fun _ => senv_file)) (new (IW image_ex 0 []))).

Example round_trip_ex :
  let envs := fun _ : nat => senv_file in
  let cu := upload_config (HeaderSpec.lit "id") envs 4 true false [ZeroExtent 0 9 false false; ZeroExtent 9 1 true false] in
  fresh 10 HttpBackendTheorems.back_ex /\ fresh 10 again_ex /\
  exists tr s, texec cu tr (tinit Up 2 HttpBackendTheorems.back_ex image_ex) = Some s /\ succeeded s /\
    iw_img (h_world again_ex) = server_image s /\
    exists c b1 size, download_start (HeaderSpec.lit "id") envs false 4 false None again_ex = Some (c, b1, size) /\
    exists tr' s', texec c tr' (tinit Down 3 b1 (zeros size)) = Some s' /\ succeeded s' /\
      local_image s' = image_ex.
Proof.
  intros envs cu. split; [exact TransferTheorems.fresh_ex|].
  split; [repeat split; vm_compute; reflexivity|].
  set (s0 := tinit Up 2 HttpBackendTheorems.back_ex image_ex).
  assert (X : exists s, texec cu (TransferTheorems.tdrive cu TransferTheorems.both 200 s0) s0 = Some s /\
             succeeded s /\ server_image s = image_ex).
  { destruct (texec cu (TransferTheorems.tdrive cu TransferTheorems.both 200 s0) s0) as [s|] eqn:E.
    2: { revert E. vm_compute. discriminate. }
    exists s. revert E. vm_compute. intros [= <-]. auto. }
  destruct X as (s & E & M & I). eexists _, s. split; [exact E|]. split; [exact M|].
  split; [rewrite I; vm_compute; reflexivity|].
  destruct (TransferTheorems.run_download_inv envs false 4 false None again_ex 3 (zeros 10)
              (TWorker 2 0 TransferTheorems.good :: TransferTheorems.both) (ClientIoModel.MDone true) image_ex 10)
    as (c & b1 & size & D & tr' & s' & R1 & R2 & R3 & _); [vm_compute; reflexivity|].
  exists c, b1, size. split; [exact D|]. exists tr', s'.
  destruct (TransferProofs.download_start_ok _ 10 _ (fun _ => file_usable_ex) _ _ _ _ _ _ _ _ D)
    as (_ & -> & _); [repeat split; vm_compute; reflexivity|lia|apply file_truthful; [lia|exact file_backed_ex]|].
  split; [exact R1|]. split; [exact R2|exact R3].
Qed.

(* Dirty extents of an NBD server: the case of ExtentsTheorems. *)
Lemma nbd_serves_dirty_ex :
  nbd_serves NbdTheorems.ex_env NbdTheorems.ex_client true true
    (NbdTheorems.ex_state ((ExtentsTheorems.ex_l1 ++ ExtentsTheorems.ex_l2 ++ []) ++ [x77]))
    [x01; x02; x03; x04; x00; x00; x00; x00].
Proof.
  split; [reflexivity|]. split; [vm_compute; intuition discriminate|]. split; [discriminate|]. intros _.
  split; [exact NbdTheorems.ex_can_send|]. split; [reflexivity|]. split; [vm_compute; discriminate|].
  split; [vm_compute; discriminate|].
  exists ExtentsTheorems.ex_F, (Some "qemu:dirty-bitmap:b"%string), (ExtentsTheorems.ex_l1 ++ ExtentsTheorems.ex_l2 ++ []), [x77].
  split; [split; [discriminate|reflexivity]|]. split; [exact ExtentsTheorems.ex_honest|]. split; [reflexivity|].
  intros i I. change (zlen [x01; x02; x03; x04; x00; x00; x00; x00]) with 8 in I.
  assert (C : i = 0 \/ i = 1 \/ i = 2 \/ i = 3 \/ i = 4 \/ i = 5 \/ i = 6 \/ i = 7) by lia.
  repeat (destruct C as [->|C]; [vm_compute; (reflexivity || discriminate)|]). subst i. reflexivity.
Qed.

(* A server with an image from an NBD server with a dirty bitmap: the first 4
   bytes are dirty. *)
Definition bitmap_client_ex : NbdModel.client :=
  NbdModel.Client true (fun i => if i =? 1 then Some "base:allocation"%string
    else if i =? 2 then Some "qemu:dirty-bitmap:b"%string else None) (Some "qemu:dirty-bitmap:b"%string) 1 10 0.
Definition bitmap_reply_ex : list byte :=
  ExtentsTheorems.ex_status 7 0 1 [(10, 0)] ++ ExtentsTheorems.ex_status 7 1 2 [(4, 1); (6, 0)].
Definition bitmap_flags_ex (name : string) (i : Z) : Z :=
  if String.eqb name "base:allocation" then 0 else if i <? 4 then 4 else 0.
Definition bitmap_state_ex : NbdModel.st := NbdTheorems.ex_state bitmap_reply_ex.
Definition senv_bitmap : senv :=
  SEnv HttpBackendTheorems.ienv_ex
    (fun d _ => nbd_extents NbdTheorems.ex_env bitmap_client_ex true bitmap_state_ex d)
    true (fun _ => true) (8, 1) None false.

Lemma bitmap_serves_ex img : zlen img = 10 ->
  nbd_serves NbdTheorems.ex_env bitmap_client_ex true true bitmap_state_ex img.
Proof.
  intros L. split; [auto|]. rewrite L. split; [lia|]. split; [discriminate|]. intros _.
  split; [exact NbdTheorems.ex_can_send|]. split; [reflexivity|]. split; [vm_compute; discriminate|].
  split; [vm_compute; discriminate|].
  exists bitmap_flags_ex, (Some "qemu:dirty-bitmap:b"%string), bitmap_reply_ex, [].
  split; [split; [discriminate|reflexivity]|].
  assert (TB : forall name kind, NbdSpec.kind_of bitmap_client_ex name kind -> name = "base:allocation"%string -> kind = NbdModel.ALLOC).
  { intros name [] Q ->; auto; [destruct Q as [_ Q]; discriminate Q|discriminate Q]. }
  assert (TD : forall name kind, NbdSpec.kind_of bitmap_client_ex name kind -> name = "qemu:dirty-bitmap:b"%string -> kind = NbdModel.DIRTY).
  { intros name [] Q ->; auto; destruct Q as [Q _]; exfalso; apply Q; reflexivity. }
  split; [|split; [rewrite app_nil_r; reflexivity|]].
  - rewrite <- (app_nil_r bitmap_reply_ex).
    apply honest_reply with (cs := [NbdSpec.CStatus 1 [(10, 0)]; NbdSpec.CStatus 2 [(4, 1); (6, 0)]]) (n := 10) (n2 := 10);
      [lia| | | | | |discriminate|constructor; lia].
    + apply NbdSpec.more_chunks; [discriminate|discriminate| |apply NbdSpec.last_chunk];
        (apply ExtentsTheorems.ex_status_bytes; try lia; try reflexivity; repeat constructor; cbn; lia).
    + repeat constructor; vm_compute; discriminate.
    + constructor; [|constructor; [|constructor]]; intros name kind E KD i f A; injection E as <-.
      * rewrite (TB _ _ KD eq_refl) in A. cbn in A.
        inversion A as [? ? ? J|? ? ? ? A2]; subst; [reflexivity|inversion A2].
      * rewrite (TD _ _ KD eq_refl) in A. cbn in A.
        assert (X : forall j, bitmap_flags_ex "qemu:dirty-bitmap:b" j = if j <? 4 then 4 else 0) by reflexivity.
        inversion A as [? ? ? J|? ? ? ? A2]; subst; clear A; cbn [NbdModel.e_length NbdModel.e_flags fst] in *.
        -- rewrite X. replace (0 + i <? 4) with true by lia. reflexivity.
        -- inversion A2 as [? ? ? J|? ? ? ? A3]; subst; clear A2; cbn [NbdModel.e_length NbdModel.e_flags fst] in *;
             [|inversion A3].
           rewrite X. match goal with |- (if ?b then _ else _) = _ => replace b with false by lia end. reflexivity.
    + exists 1, [(10, 0)], NbdModel.ALLOC. split; [left; auto|]. repeat split; auto; try discriminate.
      intros id ds [H|[H|[]]] Y; injection H as <- <-; auto. discriminate.
    + exists 2, [(4, 1); (6, 0)], NbdModel.DIRTY. split; [right; left; auto|]. repeat split; auto; try discriminate.
      intros id ds [H|[H|[]]] Y; injection H as <- <-; auto. discriminate.
  - intros i I H. exfalso. revert H. unfold flags_of, bitmap_flags_ex. cbn [String.eqb]. 
    destruct (i <? 4); vm_compute; discriminate.
Qed.

Example nbd_backed_ex : nbd_backed true 10 (fun _ => senv_bitmap).
Proof.
  intros i img L. exists NbdTheorems.ex_env, bitmap_client_ex, true, bitmap_state_ex.
  split; [reflexivity|]. apply bitmap_serves_ex; auto.
Qed.

Example bitmap_usable_ex : usable (HeaderSpec.lit "id") 10 senv_bitmap.
Proof.
  destruct HttpBackendTheorems.usable_ex as (U1 & U2 & U3 & _). split; [exact U1|]. split; [exact U2|]. split; [exact U3|].
  intros img l _ H. vm_compute in H. injection H as <-. reflexivity.
Qed.

Definition bitmap_ex : hb iworld :=
  snd (connect (imageio (HeaderSpec.lit "id") (fun _ => senv_bitmap)) (new (IW image_ex 0 []))).

Example incremental_from_nbd_ex :
  let envs := fun _ : nat => senv_bitmap in
  fresh 10 bitmap_ex /\
  exists c b1 size, download_start (HeaderSpec.lit "id") envs true 4 true None bitmap_ex = Some (c, b1, size) /\
  exists tr s, texec c tr (tinit Down 2 b1 (repeat xff 10)) = Some s /\ succeeded s /\
    local_image s = [x01; x02; x03; x04; xff; xff; xff; xff; xff; xff].
Proof.
  intros envs. split; [repeat split; vm_compute; reflexivity|].
  destruct (TransferTheorems.run_download_inv envs true 4 true None bitmap_ex 2 (repeat xff 10)
              TransferTheorems.both (ClientIoModel.MDone true) [x01; x02; x03; x04; xff; xff; xff; xff; xff; xff] 10)
    as (c & b1 & size & D & tr' & s' & R1 & R2 & R3 & _); [vm_compute; reflexivity|].
  exists c, b1, size. split; [exact D|]. exists tr', s'. auto.
Qed.

(* And one that does not report base:allocation. *)
Example nbd_backed_zero_ex :
  let k := NbdModel.Client false (fun _ => None) None 1 10 0 in
  nbd_backed false 10 (fun _ => SEnv HttpBackendTheorems.ienv_ex
    (fun d _ => nbd_extents NbdTheorems.ex_env k false bitmap_state_ex d) false (fun _ => true) (8, 1) None false).
Proof.
  intros k i img L. exists NbdTheorems.ex_env, k, false, bitmap_state_ex. split; [reflexivity|].
  split; [auto|]. split; [lia|]. split; [auto|discriminate].
Qed.
