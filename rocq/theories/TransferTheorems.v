(* Theorems about uploads and downloads: C59 and C60. *)
From Coq Require Import ZArith List Bool String Lia.
From Coq.Strings Require Import Byte.
From Verif Require Import BytesLib HeaderModel HttpModel OpsModel ImagesModel ExtentsModel ExtentsSpec
  HeaderSpec ClientIoModel ClientIoSpec HttpBackendModel HttpBackendSpec HttpBackendProofs
  TransferModel TransferSpec TransferProofs.
From Verif Require ClientIoTheorems HttpBackendTheorems.
Import ListNotations.
Open Scope Z_scope.

Lemma fresh_inv total b : fresh total b -> HttpBackendProofs.Inv total b.
Proof. intros (Z & N1 & N2 & N3). split; [auto|split; [rewrite N1|rewrite N2]; discriminate]. Qed.

(* ---- uploads ---- *)

Section Upload.

Variables (id : str) (total : Z) (envs : nat -> senv).
Hypothesis U : forall i, usable id total (envs i).
Variables (buf : Z) (bc dz : bool) (exts : list image_extent) (n : Z) (b : hb iworld) (src : list byte).
Let c := upload_config id envs buf bc dz exts.
Let s0 := tinit Up n b src.
Hypotheses (FR : fresh total b) (T : tiles 0 (zlen src) exts)
  (H : honest_extents false src exts).

Lemma upload_sim tr s : texec c tr s0 = Some s ->
  let C := copy_config src Own buf false (negb (dz && bc)) bc exts in
  let d := iw_img (h_world b) in
  exists tr', Forall complete tr' /\ List.length tr' = List.length tr /\
    exec C tr' (init QUEUE_DEPTH n d) = Some (abs c s) /\
    TI c total src (ClientIoTheorems.copy_workers n) (h_can_flush b) s /\
    (J (h_can_flush b) s0 -> J (h_can_flush b) s \/
       exists t1 l t2 x y, exec C t1 (init QUEUE_DEPTH n d) = Some x /\ raises l x /\
         ClientIoModel.step C l x = Some y /\ exec C t2 y = Some (abs c s)).
Proof.
  intros E C d.
  assert (I : TI c total src (ClientIoTheorems.copy_workers n) (h_can_flush b) s0).
  { apply tinit_TI; auto. apply fresh_inv. auto. }
  destruct (texec_sim c total src (ClientIoTheorems.copy_workers n) (h_can_flush b) U) with (tr := tr) (s := s0) (s' := s)
    as (tr' & T1 & T2 & T3 & T4 & T5 & T6); auto.
  { intros r. apply (plan_is_sane c false (negb (dz && bc)) bc src exts r); auto. }
  exists tr'. do 4 (split; [auto|]).
  intros HJ. apply (T5 eq_refl HJ).
Qed.

End Upload.

(* C59.  If upload() returns without an error, the image of the server has the
   data of the source, and zeros and holes of the source were written or left
   alone as asked for; nothing else changed. *)
Theorem upload_content :
  forall id total envs, (forall i, usable id total (envs i)) ->
  forall buf backing_chain disk_is_zero exts n b src tr s,
  0 < buf -> fresh total b -> tiles 0 (zlen src) exts -> honest_extents false src exts ->
  texec (upload_config id envs buf backing_chain disk_is_zero exts) tr (tinit Up n b src) = Some s ->
  succeeded s ->
  let old := iw_img (h_world b) in
  zlen (server_image s) = total /\
  forall i, 0 <= i ->
    (zlen src <= i -> getb (server_image s) i = getb old i) /\
    forall start length zero hole, In (ZeroExtent start length zero hole) exts ->
      start <= i < start + length ->
      getb (server_image s) i =
        if zero && (disk_is_zero && backing_chain || hole && negb backing_chain)
        then getb old i else getb src i.
Proof.
  intros id total envs U buf bc dz exts n b src tr s B FR T H E M old.
  destruct (upload_sim id total envs U buf bc dz exts n b src FR T H tr s E) as (tr' & T1 & _ & T2 & T3 & _).
  split; [apply (ti_size _ _ _ _ _ _ T3)|]. intros i I0. split.
  - intros I. destruct (ClientIoTheorems.copy_bytes_never_wrong _ _ _ _ _ _ _ _ _ _ _ _ i B T H T1 T2 I0)
      as [X|(e & E1 & E2 & _)]; [exact X|].
    pose proof (ClientIoTheorems.tiles_within _ _ _ _ _ T E1 E2). lia.
  - intros start length zero hole IE W.
    destruct (ClientIoTheorems.copy_content_partial _ _ _ _ _ _ _ _ _ _ _ _ B T H T1 T2 M) as [C1 _].
    specialize (C1 _ i IE W). cbn [abs put_dst dst] in C1. unfold server_image.
    change (content _ s) with (iw_img (t_world s)) in C1. rewrite C1. cbn [selected].
    destruct zero, hole, dz, bc; reflexivity.
Qed.
Print Assumptions upload_content.

(* With the backing chain (the default), and a disk that is zero if it is said
   to be: the server has the source, and what it had after the end of it. *)
Theorem upload_identical :
  forall id total envs, (forall i, usable id total (envs i)) ->
  forall buf disk_is_zero exts n b src tr s,
  0 < buf -> fresh total b -> tiles 0 (zlen src) exts -> honest_extents false src exts ->
  (disk_is_zero = true -> forall i, getb (iw_img (h_world b)) i = x00) -> zlen src <= total ->
  texec (upload_config id envs buf true disk_is_zero exts) tr (tinit Up n b src) = Some s ->
  succeeded s ->
  server_image s = src ++ drop (zlen src) (iw_img (h_world b)).
Proof.
  intros id total envs U buf dz exts n b src tr s B FR T H Z0 L E M.
  destruct (upload_content id total envs U buf true dz exts n b src tr s B FR T H E M) as [C1 C2].
  destruct FR as (FR & _). pose proof (zlen_nonneg src).
  apply bytes_ext; [rewrite zlen_app, zlen_drop; lia|]. intros i I.
  destruct (C2 i ltac:(lia)) as [C3 C4]. rewrite getb_app by lia.
  destruct (Z.ltb_spec i (zlen src)).
  - destruct (ClientIoTheorems.tiles_find _ _ _ i T ltac:(lia)) as (e & EI & W).
    pose proof (H e EI) as HE. destruct e as [st len z h|]; [|destruct HE as [? _]; discriminate].
    rewrite (C4 st len z h EI W). destruct HE as [_ HE].
    destruct z; cbn [andb]; auto. rewrite andb_true_r, andb_false_r, orb_false_r.
    destruct dz; auto. rewrite Z0, HE; auto.
  - rewrite C3 by lia. rewrite getb_drop by lia. f_equal. lia.
Qed.
Print Assumptions upload_identical.

(* At any time, also after a failure: every byte of the image is the old one or
   the one of the source. *)
Theorem upload_never_wrong :
  forall id total envs, (forall i, usable id total (envs i)) ->
  forall buf backing_chain disk_is_zero exts n b src tr s i,
  0 < buf -> fresh total b -> tiles 0 (zlen src) exts -> honest_extents false src exts ->
  texec (upload_config id envs buf backing_chain disk_is_zero exts) tr (tinit Up n b src) = Some s ->
  0 <= i ->
  zlen (server_image s) = total /\ local_image s = src /\
  (getb (server_image s) i = getb (iw_img (h_world b)) i \/
   i < zlen src /\ getb (server_image s) i = getb src i).
Proof.
  intros id total envs U buf bc dz exts n b src tr s i B FR T H E I0.
  destruct (upload_sim id total envs U buf bc dz exts n b src FR T H tr s E) as (tr' & T1 & _ & T2 & T3 & _).
  split; [apply (ti_size _ _ _ _ _ _ T3)|]. split; [apply (ti_source _ _ _ _ _ _ T3)|].
  destruct (ClientIoTheorems.copy_bytes_never_wrong _ _ _ _ _ _ _ _ _ _ _ _ i B T H T1 T2 I0)
    as [X|(e & E1 & E2 & _ & X)]; [left; exact X|].
  right. split; [|exact X]. apply (ClientIoTheorems.tiles_within _ _ _ _ _ T E1 E2).
Qed.
Print Assumptions upload_never_wrong.

(* If upload() returns without an error, the server flushed after all changes. *)
Theorem upload_durable :
  forall id total envs, (forall i, usable id total (envs i)) ->
  forall buf backing_chain disk_is_zero exts n b src tr s,
  0 < buf -> fresh total b -> tiles 0 (zlen src) exts -> honest_extents false src exts ->
  durable (iw_log (h_world b)) ->
  texec (upload_config id envs buf backing_chain disk_is_zero exts) tr (tinit Up n b src) = Some s ->
  succeeded s ->
  durable (server_log s).
Proof.
  intros id total envs U buf bc dz exts n b src tr s B FR T H D E M.
  destruct (upload_sim id total envs U buf bc dz exts n b src FR T H tr s E) as (tr' & T1 & _ & T2 & T3 & HJ).
  destruct HJ as [[X|(_ & i & w & NW & DW)]|(t1 & l & t2 & x & y & X1 & X2 & X3 & X4)]; [left; auto|auto| |].
  - pose proof (ClientIoTheorems.copy_flushed _ _ _ _ _ _ _ _ _ _ _ _ T H T2 M) as FL.
    cbn [abs put_dst workers] in FL. rewrite Forall_forall in FL. apply nth_error_In in NW.
    rewrite (FL w NW) in DW. discriminate.
  - elim (ClientIoTheorems.failure_reported _ _ _ _ _ _ _ _ _ _ X1 X2 X3 X4). exact M.
Qed.
Print Assumptions upload_durable.

(* The progress reported is then the size of the source. *)
Theorem upload_progress :
  forall id total envs, (forall i, usable id total (envs i)) ->
  forall buf backing_chain disk_is_zero exts n b src tr s,
  0 < buf -> fresh total b -> tiles 0 (zlen src) exts -> honest_extents false src exts ->
  texec (upload_config id envs buf backing_chain disk_is_zero exts) tr (tinit Up n b src) = Some s ->
  succeeded s ->
  progress (t_core s) = zlen src.
Proof.
  intros id total envs U buf bc dz exts n b src tr s B FR T H E M.
  destruct (upload_sim id total envs U buf bc dz exts n b src FR T H tr s E) as (tr' & T1 & _ & T2 & _).
  exact (ClientIoTheorems.copy_progress _ _ _ _ _ _ _ _ _ _ _ _ T H T2 M).
Qed.
Print Assumptions upload_progress.

(* A source with data after the end of the disk is not uploaded; nor is one
   that is only larger, unless the zeros at its end are skipped. *)
Theorem upload_does_not_fit :
  forall id total envs, (forall i, usable id total (envs i)) ->
  forall buf backing_chain disk_is_zero exts n b src tr s start length zero hole,
  0 < buf -> fresh total b -> tiles 0 (zlen src) exts -> honest_extents false src exts ->
  In (ZeroExtent start length zero hole) exts -> total < start + length ->
  zero && (disk_is_zero && backing_chain || hole && negb backing_chain) = false ->
  texec (upload_config id envs buf backing_chain disk_is_zero exts) tr (tinit Up n b src) = Some s ->
  ~ succeeded s.
Proof.
  intros id total envs U buf bc dz exts n b src tr s start length zero hole B FR T H IE LT SK E M.
  destruct (upload_sim id total envs U buf bc dz exts n b src FR T H tr s E) as (tr' & T1 & _ & T2 & T3 & _).
  pose proof (ClientIoTheorems.success_executed _ _ _ _ _ _ _ _ _ _ _ _ T H T2 M) as P.
  cbn [abs put_dst done] in P.
  assert (LEN : 0 < length).
  { assert (X : forall a b0 l, tiles a b0 l -> In (ZeroExtent start length zero hole) l -> 0 < length).
    { intros a b0 l TT. induction TT as [a|a b0 e l S L TT IH]; intros I; [contradiction|].
      destruct I as [->|I]; auto. }
    eapply X; eauto. }
  destruct (ClientIoTheorems.plan_covered false (negb (dz && bc)) bc src exts _ (start + length - 1) H IE)
    as (r & R & Q).
  - cbn [selected]. destruct zero, hole, dz, bc; auto; discriminate.
  - unfold within. cbn. lia.
  - pose proof (ti_done _ _ _ _ _ _ T3 eq_refl) as D. rewrite Forall_forall in D.
    specialize (D r (Permutation.Permutation_in _ P R)). unfold ClientIoProofs.in_req in Q. lia.
Qed.
Print Assumptions upload_does_not_fit.

(* ---- downloads ---- *)

Section Download.

Variables (id : str) (total : Z) (envs : nat -> senv).
Hypothesis U : forall i, usable id total (envs i).
Variables (qcow2 : bool) (buf : Z) (incremental : bool) (bf : option str) (b : hb iworld).
Variables (c : tconfig) (b1 : hb iworld) (sz n : Z) (new : list byte).
Hypotheses (FR : fresh total b) (P : 0 < total) (TR : truthful incremental total envs)
  (ST : download_start id envs qcow2 buf incremental bf b = Some (c, b1, sz)).
Let src := iw_img (h_world b).

Lemma download_sim tr s : texec c tr (tinit Down n b1 new) = Some s ->
  exists exts tr', tiles 0 (zlen src) exts /\ honest_extents incremental src exts /\
    Forall complete tr' /\ List.length tr' = List.length tr /\
    exec (copy_config src Own buf incremental (match bf with Some _ => true | None => false end) false exts)
      tr' (init QUEUE_DEPTH n new) = Some (put_dst (t_core s) (local_image s)) /\
    TI c total src (ClientIoTheorems.copy_workers n) (h_can_flush b1) s /\
    (exists i, se_ext (envs i) incremental src = Some exts \/
               h_can_extents b = false /\ exts = [ZeroExtent 0 total false false]).
Proof.
  intros E.
  destruct (download_start_ok id total envs U _ _ _ _ _ _ _ _ ST FR P TR)
    as (_ & -> & IM & IV & exts & CE & T & H & SE).
  assert (Z : zlen src = total) by apply FR. rewrite <- Z in T.
  assert (I : TI c total src (ClientIoTheorems.copy_workers n) (h_can_flush b1) (tinit Down n b1 new)).
  { apply tinit_TI; auto. subst c. auto. }
  destruct (texec_sim c total src (ClientIoTheorems.copy_workers n) (h_can_flush b1))
    with (tr := tr) (s := tinit Down n b1 new) (s' := s) as (tr' & T1 & T2 & T3 & T4 & T5 & T6); auto.
  { subst c. auto. }
  { intros r. subst c. eapply plan_is_sane; eauto; reflexivity. }
  exists exts, tr'. do 4 (split; [auto|]). split; [|auto].
  rewrite tinit_abs in T2. subst c. exact T2.
Qed.

End Download.

(* C60.  If download() returns without an error: the blocks of the image
   reported as data (or, for an incremental download, as dirty) are those of
   the server, the others are those of the new image, and the new image keeps
   its size. *)
Theorem download_content :
  forall id total envs, (forall i, usable id total (envs i)) ->
  forall qcow2 buf incremental backing_file b c b1 size n new tr s,
  0 < buf -> fresh total b -> 0 < total -> truthful incremental total envs ->
  download_start id envs qcow2 buf incremental backing_file b = Some (c, b1, size) ->
  zlen new = size ->
  texec c tr (tinit Down n b1 new) = Some s -> succeeded s ->
  let src := iw_img (h_world b) in
  server_image s = src /\ zlen (local_image s) = total /\
  exists exts,
    (exists i, se_ext (envs i) incremental src = Some exts \/
               h_can_extents b = false /\ exts = [ZeroExtent 0 total false false]) /\
    forall e i, In e exts -> within e i ->
      getb (local_image s) i =
        if match e with
           | DirtyExtent _ _ dirty _ => dirty
           | ZeroExtent _ _ zero hole =>
               negb zero || negb hole && match backing_file with Some _ => true | None => false end
           end
        then getb src i else getb new i.
Proof.
  intros id total envs U qcow2 buf inc bf b c b1 size n new tr s B FR P TR ST SZ E M src.
  destruct (download_sim id total envs U qcow2 buf inc bf b c b1 size n new FR P TR ST tr s E)
    as (exts & tr' & T & H & T1 & _ & T2 & T3 & SE).
  destruct (download_start_ok id total envs U _ _ _ _ _ _ _ _ ST FR P TR) as (_ & -> & _ & _ & exts' & CE & _).
  assert (ZS : zlen src = total) by apply FR.
  split; [pose proof (ti_source _ _ _ _ _ _ T3) as X; subst c; exact X|].
  destruct (ClientIoTheorems.copy_content_partial _ _ _ _ _ _ _ _ _ _ _ _ B T H T1 T2 M) as [C1 C2].
  cbn [put_dst dst] in C1, C2. fold src in C1, C2.
  split; [lia|]. exists exts. split; auto. intros e i IE W. rewrite (C1 e i IE W).
  destruct e as [st len z h|st len d z]; cbn [selected]; auto.
  destruct z, h, bf; reflexivity.
Qed.
Print Assumptions download_content.

(* A full download without a backing file, to a new image reading as zeros,
   gives the image of the server. *)
Theorem download_identical :
  forall id total envs, (forall i, usable id total (envs i)) ->
  forall qcow2 buf b c b1 size n tr s,
  0 < buf -> fresh total b -> 0 < total -> truthful false total envs ->
  download_start id envs qcow2 buf false None b = Some (c, b1, size) ->
  texec c tr (tinit Down n b1 (zeros size)) = Some s -> succeeded s ->
  local_image s = iw_img (h_world b).
Proof.
  intros id total envs U qcow2 buf b c b1 size n tr s B FR P TR ST E M.
  destruct (download_sim id total envs U qcow2 buf false None b c b1 size n (zeros size) FR P TR ST tr s E)
    as (exts & tr' & T & H & T1 & _ & T2 & T3 & SE).
  destruct (download_start_ok id total envs U _ _ _ _ _ _ _ _ ST FR P TR) as (_ & -> & _ & _ & exts' & CE & _).
  assert (ZS : zlen (iw_img (h_world b)) = total) by apply FR.
  destruct (ClientIoTheorems.copy_content_partial _ _ _ _ _ _ _ _ _ _ _ _ B T H T1 T2 M) as [C1 C2].
  cbn [put_dst dst] in C1, C2. rewrite zlen_zeros in C2.
  apply bytes_ext; [lia|]. intros i I.
  destruct (ClientIoTheorems.tiles_find _ _ _ i T ltac:(lia)) as (e & EI & W). rewrite (C1 e i EI W).
  specialize (H e EI). destruct e as [st len z h|]; [|destruct H; discriminate].
  cbn [selected]. destruct z; cbn [negb orb andb]; auto. rewrite getb_zeros. symmetry. apply H; auto.
Qed.
Print Assumptions download_identical.

(* A full download to an image with a backing file: what is not a hole is the
   image of the server, holes show the backing file. *)
Corollary download_overlay :
  forall id total envs, (forall i, usable id total (envs i)) ->
  forall qcow2 buf file b c b1 size n new tr s,
  0 < buf -> fresh total b -> 0 < total -> truthful false total envs ->
  download_start id envs qcow2 buf false (Some file) b = Some (c, b1, size) ->
  zlen new = size ->
  texec c tr (tinit Down n b1 new) = Some s -> succeeded s ->
  exists exts, tiles 0 total exts /\ honest_extents false (iw_img (h_world b)) exts /\
  forall i, 0 <= i < total -> exists start length zero hole,
    In (ZeroExtent start length zero hole) exts /\ start <= i < start + length /\
    getb (local_image s) i = if zero && hole then getb new i else getb (iw_img (h_world b)) i.
Proof.
  intros id total envs U qcow2 buf file b c b1 size n new tr s B FR P TR ST SZ E M.
  assert (ZS : zlen (iw_img (h_world b)) = total) by apply FR.
  destruct (download_content id total envs U _ _ _ _ _ _ _ _ _ _ _ _ B FR P TR ST SZ E M)
    as (_ & _ & exts & SE & C).
  assert (TH : tiles 0 total exts /\ honest_extents false (iw_img (h_world b)) exts).
  { destruct SE as (i & [SE|[_ ->]]); [exact (TR _ _ _ ZS SE)|]. split.
    - apply tiles_one; auto. apply tiles_end.
    - intros e [<-|[]]. split; auto. discriminate. }
  destruct TH as [T H]. exists exts. split; auto. split; auto. intros i I.
  destruct (ClientIoTheorems.tiles_find _ _ _ i T ltac:(lia)) as (e & EI & W).
  pose proof (C e i EI W) as CI. specialize (H e EI).
  destruct e as [st len z h|]; [|destruct H; discriminate]. exists st, len, z, h.
  split; auto. split; auto. rewrite CI. destruct z, h; reflexivity.
Qed.
Print Assumptions download_overlay.

(* At any time, also after a failure: the server is unchanged, and every byte
   of the local image is the one of the new image or the one of the server. *)
Theorem download_never_wrong :
  forall id total envs, (forall i, usable id total (envs i)) ->
  forall qcow2 buf incremental backing_file b c b1 size n new tr s i,
  0 < buf -> fresh total b -> 0 < total -> truthful incremental total envs ->
  download_start id envs qcow2 buf incremental backing_file b = Some (c, b1, size) ->
  texec c tr (tinit Down n b1 new) = Some s -> 0 <= i ->
  server_image s = iw_img (h_world b) /\
  (getb (local_image s) i = getb new i \/
   i < total /\ getb (local_image s) i = getb (iw_img (h_world b)) i).
Proof.
  intros id total envs U qcow2 buf inc bf b c b1 size n new tr s i B FR P TR ST E I0.
  destruct (download_sim id total envs U qcow2 buf inc bf b c b1 size n new FR P TR ST tr s E)
    as (exts & tr' & T & H & T1 & _ & T2 & T3 & SE).
  destruct (download_start_ok id total envs U _ _ _ _ _ _ _ _ ST FR P TR) as (_ & -> & _ & _ & exts' & CE & _).
  assert (ZS : zlen (iw_img (h_world b)) = total) by apply FR.
  split; [pose proof (ti_source _ _ _ _ _ _ T3) as X; subst c; exact X|].
  destruct (ClientIoTheorems.copy_bytes_never_wrong _ _ _ _ _ _ _ _ _ _ _ _ i B T H T1 T2 I0)
    as [X|(e & E1 & E2 & _ & X)]; [left; exact X|].
  right. split; [|exact X]. pose proof (ClientIoTheorems.tiles_within _ _ _ _ _ T E1 E2). lia.
Qed.
Print Assumptions download_never_wrong.

Theorem download_progress :
  forall id total envs, (forall i, usable id total (envs i)) ->
  forall qcow2 buf incremental backing_file b c b1 size n new tr s,
  fresh total b -> 0 < total -> truthful incremental total envs ->
  download_start id envs qcow2 buf incremental backing_file b = Some (c, b1, size) ->
  texec c tr (tinit Down n b1 new) = Some s -> succeeded s ->
  progress (t_core s) = total /\ size = total.
Proof.
  intros id total envs U qcow2 buf inc bf b c b1 size n new tr s FR P TR ST E M.
  destruct (download_sim id total envs U qcow2 buf inc bf b c b1 size n new FR P TR ST tr s E)
    as (exts & tr' & T & H & T1 & _ & T2 & T3 & SE).
  destruct (download_start_ok id total envs U _ _ _ _ _ _ _ _ ST FR P TR) as (_ & -> & _).
  split; auto. transitivity (zlen (iw_img (h_world b))); [|apply FR].
  exact (ClientIoTheorems.copy_progress _ _ _ _ _ _ _ _ _ _ _ _ T H T2 M).
Qed.
Print Assumptions download_progress.

(* An incremental download needs a qcow2 image and a server with extents; it
   is refused otherwise, before anything is asked from the server. *)
Theorem incremental_refused :
  forall id envs qcow2 buf backing_file b,
  qcow2 = false \/ h_can_extents b = false ->
  download_start id envs qcow2 buf true backing_file b = None.
Proof.
  intros id envs qcow2 buf bf b [->|C]; [reflexivity|]. unfold download_start.
  destruct qcow2; [|reflexivity]. cbn [andb negb].
  destruct (HttpBackendModel.size _ b) as [[n|e] b2] eqn:S; auto. cbn [download_flags].
  apply size_eq in S as (_ & _ & _ & CE & _). unfold HttpBackendModel.extents.
  rewrite CE, C. reflexivity.
Qed.
Print Assumptions incremental_refused.

(* A download for which the server reports an extent whose start or length is
   not an integer is refused; no part of the report is ignored. *)
Theorem malformed_extents_refused :
  forall id envs qcow2 buf incremental backing_file b n b1 l b2 x,
  HttpBackendModel.size (imageio id envs) b = (inl n, b1) ->
  HttpBackendModel.extents (imageio id envs) incremental b1 = (inl l, b2) ->
  In x l -> (forall k, x_start x <> JInt k) \/ (forall k, x_length x <> JInt k) ->
  download_start id envs qcow2 buf incremental backing_file b = None.
Proof.
  intros id envs qcow2 buf inc bf b n b1 l b2 x S X I M. unfold download_start.
  destruct (inc && negb qcow2); [reflexivity|]. rewrite S. cbn [download_flags]. rewrite X.
  assert (N : extents_of_json inc l = None).
  { clear S X. induction l as [|y l IH]; [destruct I|]. cbn [extents_of_json].
    destruct I as [->|I].
    - unfold extent_of. destruct (x_start x), (x_length x); auto.
      destruct M as [M|M]; exfalso; eapply M; reflexivity.
    - rewrite IH by auto. destruct (extent_of inc y); reflexivity. }
  rewrite N. reflexivity.
Qed.
Print Assumptions malformed_extents_refused.

(* ---- both ---- *)

Lemma transfer_start id total envs n c s0 :
  (forall i, usable id total (envs i)) -> transfer id total envs n c s0 ->
  exists src F d buf dirty zero hole exts, 0 < buf /\
    tiles 0 (zlen src) exts /\ honest_extents dirty src exts /\
    cc c src = copy_config src Own buf dirty zero hole exts /\
    (forall i, usable (tc_id c) total (tc_envs c i)) /\
    (forall r, In r (requests (tc_plan c)) -> sane c r) /\
    TI c total src (ClientIoTheorems.copy_workers n) F s0 /\
    abs c s0 = init QUEUE_DEPTH n d /\ tc_id c = id /\ tc_envs c = envs.
Proof.
  intros U TR. destruct TR as [buf bc dz exts b src B FR T H|buf qcow2 inc bf b c b1 size new B FR P TR ST].
  - exists src, (h_can_flush b), (iw_img (h_world b)), buf, false, (negb (dz && bc)), bc, exts.
    split; auto. split; auto. split; auto. split; [reflexivity|]. split; auto.
    split; [intros r; eapply plan_is_sane; eauto; reflexivity|]. split; [|repeat split].
    apply tinit_TI; auto. apply fresh_inv. auto.
  - destruct (download_start_ok id total envs U _ _ _ _ _ _ _ _ ST FR P TR)
      as (_ & -> & IM & IV & exts & CE & T & H & SE).
    assert (Z : zlen (iw_img (h_world b)) = total) by apply FR. rewrite <- Z in T.
    exists (iw_img (h_world b)), (h_can_flush b1), new, buf, inc,
      (match bf with Some _ => true | None => false end), false, exts. subst c.
    split; auto. split; auto. split; auto. split; [reflexivity|]. split; auto.
    split; [intros r; eapply plan_is_sane; eauto; reflexivity|]. split; [|repeat split].
    apply tinit_TI; auto.
Qed.

(* If a call raised anywhere, the transfer does not return without an error. *)
Theorem transfer_failure_reported :
  forall id total envs n c s0, (forall i, usable id total (envs i)) ->
  transfer id total envs n c s0 ->
  forall tr1 l tr2 s1 s2 s3,
  texec c tr1 s0 = Some s1 -> tstep c l s1 = Some s2 -> texception l s1 s2 ->
  texec c tr2 s2 = Some s3 ->
  ~ succeeded s3.
Proof.
  intros id total envs n c s0 U TR tr1 l tr2 s1 s2 s3 E1 ST X E2 M.
  destruct (transfer_start _ _ _ _ _ _ U TR)
    as (src & F & d & buf & dirty & zero & hole & exts & B & T & H & CC & U' & PS & I & A & TI1 & TI2).
  destruct (texec_sim c total src _ F U' PS tr1 s0 s1 I E1) as (t1 & _ & X1 & I1 & _).
  destruct (tstep_sim c total src _ F U' PS l s1 s2 I1 ST) as (l' & _ & X2 & I2 & _ & R & _).
  destruct (texec_sim c total src _ F U' PS tr2 s2 s3 I2 E2) as (t2 & _ & X3 & _).
  rewrite A in X1.
  exact (ClientIoTheorems.failure_reported _ _ _ _ _ _ _ _ _ _ X1 (R X) X2 X3 M).
Qed.
Print Assumptions transfer_failure_reported.

(* With at most 32 workers (4 by default): until the transfer ended, some
   thread can run, whatever its calls do. *)
Theorem transfer_never_stuck :
  forall id total envs n c s0, (forall i, usable id total (envs i)) ->
  transfer id total envs n c s0 -> n <= 32 ->
  forall tr s, texec c tr s0 = Some s -> ~ ended s ->
  (exists k, tstep c (TMain k) s <> None) \/ (exists i, forall k a, tstep c (TWorker i k a) s <> None).
Proof.
  intros id total envs n c s0 U TR N tr s E NE.
  destruct (transfer_start _ _ _ _ _ _ U TR)
    as (src & F & d & buf & dirty & zero & hole & exts & B & T & H & CC & U' & PS & I & A & TI1 & TI2).
  destruct (texec_sim c total src _ F U' PS tr s0 s I E) as (t1 & _ & X1 & I1 & _). rewrite A in X1.
  assert (NS : forall r, In r (requests (f_plan (cc c src))) -> r_op r <> STOP).
  { rewrite CC. intros r IR. pose proof (ClientIoTheorems.plan_no_stop _ _ _ _ _ _ _ T H IR) as X.
    unfold ClientIoSched.is_stop in X. destruct (r_op r); congruence. }
  assert (W : (ClientIoTheorems.copy_workers n <= QUEUE_DEPTH)%nat)
    by (unfold ClientIoTheorems.copy_workers, QUEUE_DEPTH; lia).
  destruct (ClientIoTheorems.copy_no_deadlock_partial _ _ _ _ _ _ NS W X1 NE) as (l & y & FL & _ & ST).
  pose proof (tstep_enabled c total src _ F l s y I1 ST) as EN.
  destruct l as [k| |i k a]; [left; eauto|contradiction|right; eauto].
Qed.
Print Assumptions transfer_never_stuck.

(* And it ends: the number of steps is bounded. *)
Theorem transfer_steps_bounded :
  forall id total envs n c s0, (forall i, usable id total (envs i)) ->
  transfer id total envs n c s0 ->
  exists bound, forall tr s, texec c tr s0 = Some s -> zlen tr <= bound.
Proof.
  intros id total envs n c s0 U TR.
  destruct (transfer_start _ _ _ _ _ _ U TR)
    as (src & F & d & buf & dirty & zero & hole & exts & B & T & H & CC & U' & PS & I & A & TI1 & TI2).
  assert (L1 : forall r, In r (requests (f_plan (cc c src))) -> 0 <= r_length r).
  { rewrite CC. intros r IR.
    destruct (ClientIoTheorems.plan_in _ _ _ _ _ _ _ _ T H IR) as (e & _ & _ & _ & _ & X & _). exact X. }
  assert (L2 : 0 < f_buffer (cc c src)) by (rewrite CC; cbn; unfold MAX_BUFFER_SIZE; lia).
  destruct (ClientIoTheorems.copy_steps_bounded (cc c src) QUEUE_DEPTH n d L1 L2) as [bound BD].
  exists bound. intros tr s E.
  destruct (texec_sim c total src _ F U' PS tr s0 s I E) as (t1 & _ & X1 & _ & L & _). rewrite A in X1.
  specialize (BD _ _ X1). unfold zlen in *. lia.
Qed.
Print Assumptions transfer_steps_bounded.

(* It fails only if something raised. *)
Theorem transfer_no_false_failure :
  forall id total envs n c s0, (forall i, usable id total (envs i)) ->
  transfer id total envs n c s0 ->
  forall tr s, texec c tr s0 = Some s -> ended s -> ~ succeeded s ->
  exists tr1 l tr2 s1 s2, tr = tr1 ++ l :: tr2 /\
    texec c tr1 s0 = Some s1 /\ tstep c l s1 = Some s2 /\ texception l s1 s2.
Proof.
  intros id total envs n c s0 U TR tr s E [ok M] NS.
  destruct (transfer_start _ _ _ _ _ _ U TR)
    as (src & F & d & buf & dirty & zero & hole & exts & B & T & H & CC & U' & PS & I & A & TI1 & TI2).
  destruct (texec_sim c total src _ F U' PS tr s0 s I E) as (t1 & _ & X1 & _ & _ & _ & [X|X]); [|exact X].
  rewrite A in X1. elim NS. unfold succeeded. rewrite M. f_equal.
  exact (ClientIoTheorems.no_false_failure _ _ _ _ _ _ _ X X1 M).
Qed.
Print Assumptions transfer_no_false_failure.

Lemma transfer_fits id total envs n c s0 :
  (forall i, usable id total (envs i)) -> transfer id total envs n c s0 ->
  (tc_dir c = Up -> zlen (local_image s0) <= total) ->
  exists src F, (forall i, usable (tc_id c) total (tc_envs c i)) /\
    (forall r, In r (requests (tc_plan c)) -> sane c r) /\
    TI c total src (ClientIoTheorems.copy_workers n) F s0 /\ 0 < tc_buffer c /\
    tc_id c = id /\ tc_envs c = envs /\
    forall r, In r (requests (tc_plan c)) ->
      0 < r_length r /\ 0 <= r_start r /\ r_start r + r_length r <= total /\
      r_start r + r_length r <= zlen src.
Proof.
  intros U TR FI. destruct (transfer_start _ _ _ _ _ _ U TR)
    as (src & F & d & buf & dirty & zero & hole & exts & B & T & H & CC & U' & PS & I & A & TI1 & TI2).
  exists src, F. do 3 (split; auto).
  assert (BF : tc_buffer c = Z.min buf MAX_BUFFER_SIZE) by (injection CC; auto).
  assert (PL : tc_plan c = plan dirty zero hole exts) by (injection CC; auto).
  split; [rewrite BF; unfold MAX_BUFFER_SIZE; lia|]. do 2 (split; auto). intros r R.
  assert (ZS : zlen src <= total).
  { pose proof (ti_source _ _ _ _ _ _ I) as SS. pose proof (ti_size _ _ _ _ _ _ I) as SZ.
    unfold source, source_of in SS. destruct (tc_dir c).
    - unfold local_image in FI. rewrite SS in FI. auto.
    - rewrite SS in SZ. lia. }
  pose proof R as R'. rewrite PL in R.
  destruct (ClientIoTheorems.plan_in _ _ _ _ _ _ _ _ T H R) as (e & E & _ & _ & B1 & B2 & B3).
  pose proof (plan_pos _ _ _ _ _ _ _ T R) as P.
  pose proof (ClientIoTheorems.tiles_within _ _ _ _ (r_start r) T E ltac:(unfold within; lia)).
  pose proof (ClientIoTheorems.tiles_within _ _ _ _ (r_start r + r_length r - 1) T E ltac:(unfold within; lia)).
  lia.
Qed.

(* A transfer that fits, in which nothing goes wrong, with a server that does
   what it is asked, does not fail. *)
Theorem calm_transfer_succeeds :
  forall id total envs n c s0, id <> [] ->
  (forall i, willing id total (envs i)) -> (forall i, patient total (envs i)) ->
  transfer id total envs n c s0 -> (tc_dir c = Up -> zlen (local_image s0) <= total) ->
  forall tr s, Forall calm tr -> texec c tr s0 = Some s -> ended s -> succeeded s.
Proof.
  intros id total envs n c s0 ID Wi Pa TR FI tr s C E EN.
  assert (U : forall i, usable id total (envs i)) by (intros i; apply (Wi i)).
  assert (DEC : succeeded s \/ ~ succeeded s).
  { destruct EN as [ok M]. unfold succeeded. rewrite M. destruct ok; auto. right. discriminate. }
  destruct DEC as [|NS]; auto. exfalso.
  destruct (transfer_no_false_failure _ _ _ _ _ _ U TR tr s E EN NS)
    as (tr1 & l & tr2 & s1 & s2 & -> & X1 & X2 & X3).
  destruct (transfer_fits _ _ _ _ _ _ U TR FI) as (src & F & U' & PS & I & B & TI1 & TI2 & FF).
  destruct (texec_sim c total src _ F U' PS tr1 s0 s1 I X1) as (t1 & _ & _ & I1 & _).
  apply Forall_app in C as [_ C]. inversion C; subst.
  eapply calm_no_exception; eauto.
Qed.
Print Assumptions calm_transfer_succeeds.

(* And it can always go on until it succeeded, with the schedule free but for
   the threads that wait. *)
Theorem calm_transfer_completes :
  forall id total envs n c s0, id <> [] ->
  (forall i, willing id total (envs i)) -> (forall i, patient total (envs i)) ->
  transfer id total envs n c s0 -> (tc_dir c = Up -> zlen (local_image s0) <= total) -> n <= 32 ->
  forall tr s, Forall calm tr -> texec c tr s0 = Some s ->
  exists tr2 s2, Forall calm tr2 /\ texec c tr2 s = Some s2 /\ succeeded s2.
Proof.
  intros id total envs n c s0 ID Wi Pa TR FI N tr s C E.
  assert (U : forall i, usable id total (envs i)) by (intros i; apply (Wi i)).
  destruct (transfer_steps_bounded _ _ _ _ _ _ U TR) as [bound BD].
  remember (Z.to_nat (bound - zlen tr)) as m eqn:M.
  revert tr s C E M. induction m as [m IH] using lt_wf_ind. intros tr s C E M.
  assert (DEC : ended s \/ ~ ended s).
  { unfold ended. destruct (main (t_core s)); eauto; right; intros [ok X]; discriminate. }
  destruct DEC as [EN|NE].
  { exists [], s. split; auto. split; auto.
    exact (calm_transfer_succeeds _ _ _ _ _ _ ID Wi Pa TR FI _ _ C E EN). }
  assert (ST : exists l s1, calm l /\ tstep c l s = Some s1).
  { destruct (transfer_never_stuck _ _ _ _ _ _ U TR N tr s E NE) as [[k K]|[i K]].
    - destruct (tstep c (TMain k) s) as [s1|] eqn:X; [|tauto]. exists (TMain k), s1. split; auto. exact Logic.I.
    - set (a := TAnswer true (Net (fun _ => Some 1) (fun _ => SendOk) (fun _ => Some 1) (fun _ => Some 1)) None).
      specialize (K O a). destruct (tstep c (TWorker i 0 a) s) as [s1|] eqn:X; [|tauto].
      exists (TWorker i 0 a), s1. split; auto. cbn. repeat split; try discriminate. exists 1. split; auto. lia. }
  destruct ST as (l & s1 & CL & ST).
  assert (E1 : texec c (tr ++ [l]) s0 = Some s1) by (eapply tstep_exec; eauto; reflexivity).
  pose proof (BD _ _ E1) as L1. pose proof (BD _ _ E) as L0.
  rewrite zlen_app in L1. change (zlen [l]) with 1 in L1.
  destruct (IH (Z.to_nat (bound - zlen (tr ++ [l])))) with (tr := tr ++ [l]) (s := s1) as (tr2 & s2 & X1 & X2 & X3);
    auto.
  - rewrite zlen_app. change (zlen [l]) with 1. lia.
  - apply Forall_app. auto.
  - exists (l :: tr2), s2. split; auto. split; auto. cbn. rewrite ST. auto.
Qed.
Print Assumptions calm_transfer_completes.

(* ---- Concrete cases ---- *)

Import HttpBackendTheorems.

(* The threads take turns. *)
Fixpoint tdrive (c : tconfig) (ls : list tlabel) (fuel : nat) (s : tst) : list tlabel :=
  match fuel with
  | O => []
  | S fuel =>
    match find (fun l => match tstep c l s with Some _ => true | None => false end) ls with
    | Some l => l :: match tstep c l s with Some s' => tdrive c (tl ls ++ firstn 1 ls) fuel s' | None => [] end
    | None => []
    end
  end.

Definition good : tanswer := TAnswer true net_ex None.
Definition both : list tlabel := [TWorker 1 0 good; TMain 0; TWorker 0 0 good].

(* The image of the server is 10 bytes, the source 8: data, zeros, data, a
   hole. *)
Definition up_src : list byte := ClientIoTheorems.case_src.
Definition up_exts : list image_extent := ClientIoTheorems.case_exts.
Definition up_config := upload_config (lit "id") (fun _ => senv_ex) 4.
Definition up_start : tst := tinit Up 2 back_ex up_src.

Example fresh_ex : fresh 10 back_ex.
Proof. repeat split; vm_compute; reflexivity. Qed.

Example an_upload_ex :
  transfer (lit "id") 10 (fun _ => senv_ex) 2 (up_config true false up_exts) up_start.
Proof.
  apply an_upload; [lia|exact fresh_ex|exact ClientIoTheorems.case_tiles|exact ClientIoTheorems.case_honest].
Qed.

(* The whole source, by two workers; the end of the disk is not changed. *)
Example upload_ex :
  let c := up_config true false up_exts in
  exists s, texec c (tdrive c both 200 up_start) up_start = Some s /\ succeeded s /\
    server_image s = [x01; x02; x00; x00; x05; x06; x00; x00; x09; x0a] /\
    progress (t_core s) = 8 /\ durable (server_log s) /\ (List.length (server_log s) > 5)%nat.
Proof.
  intros c. destruct (texec c (tdrive c both 200 up_start) up_start) as [s|] eqn:E.
  2: { revert E. vm_compute. discriminate. }
  exists s. split; auto.
  assert (F : succeeded s /\ server_image s = [x01; x02; x00; x00; x05; x06; x00; x00; x09; x0a] /\
              progress (t_core s) = 8 /\ (List.length (server_log s) > 5)%nat).
  { revert E. vm_compute. intros [= <-]. repeat split; vm_compute; lia. }
  destruct F as (F1 & F2 & F3 & F4). do 3 (split; auto). split; auto.
  refine (upload_durable _ _ _ (fun _ => usable_ex) 4 true false _ _ _ _ _ _ _ fresh_ex
    ClientIoTheorems.case_tiles ClientIoTheorems.case_honest _ E F1); [lia|].
  intros a f b X. exfalso. revert X. vm_compute. destruct a; discriminate.
Qed.

(* Without the backing chain holes are not zeroed on the server; with a disk
   said to be zero no zeros are. *)
Example upload_flags_ex :
  (let c := up_config false false up_exts in
   exists s, texec c (tdrive c both 200 up_start) up_start = Some s /\ succeeded s /\
     server_image s = [x01; x02; x00; x00; x05; x06; x07; x08; x09; x0a]) /\
  (let c := up_config true true up_exts in
   exists s, texec c (tdrive c both 200 up_start) up_start = Some s /\ succeeded s /\
     server_image s = [x01; x02; x03; x04; x05; x06; x07; x08; x09; x0a]).
Proof. split; (eexists; split; [vm_compute; reflexivity|]; split; vm_compute; reflexivity). Qed.

(* A source of 12 bytes: the last request is refused by the server. *)
Definition long_src : list byte := up_src ++ [x0b; x0c; x0d; x0e].
Definition long_exts : list image_extent := up_exts ++ [ZeroExtent 8 4 false false].

Example upload_does_not_fit_ex :
  let c := up_config true false long_exts in
  let s0 := tinit Up 2 back_ex long_src in
  transfer (lit "id") 10 (fun _ => senv_ex) 2 c s0 /\
  exists s, texec c (tdrive c both 200 s0) s0 = Some s /\ ended s /\ ~ succeeded s /\
    take 8 (server_image s) = up_src.
Proof.
  split.
  - apply an_upload; [lia|exact fresh_ex| |].
    + repeat (apply tiles_one; [reflexivity|reflexivity|]). apply tiles_end.
    + intros e [<-|[<-|[<-|[<-|[<-|[]]]]]]; (split; [reflexivity|]); intros Z0 i W; try discriminate;
        unfold within in W; cbn in W.
      * assert (C : i = 2 \/ i = 3) by lia. destruct C as [->| ->]; reflexivity.
      * assert (C : i = 6 \/ i = 7) by lia. destruct C as [->| ->]; reflexivity.
  - eexists. split; [vm_compute; reflexivity|]. split; [eexists; vm_compute; reflexivity|].
    split; [discriminate|vm_compute; reflexivity].
Qed.

(* The connection of worker 0 breaks while it sends: the upload fails. *)
Example transfer_failure_ex :
  let c := up_config true false up_exts in
  let bad := TWorker 0 0 (TAnswer true (Net (fun _ => Some 3) (fun _ => SendFail 1) (fun _ => Some 5)
                                          (fun _ => Some 100)) None) in
  let tr1 := tdrive c both 15 up_start in
  exists s1 s2 s3, texec c tr1 up_start = Some s1 /\ tstep c bad s1 = Some s2 /\
    texception bad s1 s2 /\ texec c (tdrive c both 200 s2) s2 = Some s3 /\
    ended s3 /\ main (t_core s3) = MDone false.
Proof.
  eexists. eexists. eexists. split; [vm_compute; reflexivity|]. split; [vm_compute; reflexivity|].
  split; [|split; [vm_compute; reflexivity|split; [eexists; reflexivity|reflexivity]]].
  eexists. eexists. split; [reflexivity|]. split; [exact I|]. split; reflexivity.
Qed.

(* ---- downloads ---- *)

Lemma truthful_ex : truthful false 10 (fun _ => senv_ex).
Proof.
  intros _ img l L [= <-].
  assert (Z : 0 <= leading img <= zlen img /\ forall i, 0 <= i < leading img -> getb img i = x00).
  { clear L. induction img as [|b img [IH1 IH2]]; [cbn; split; lia|].
    rewrite zlen_cons. destruct b; cbn [leading]; (split; [lia|]); intros i I; try lia.
    destruct (Z.eq_dec i 0) as [->|]; [reflexivity|].
    change (x00 :: img) with ([x00] ++ img). rewrite getb_app by lia.
    change (zlen [x00]) with 1. destruct (Z.ltb_spec i 1); [lia|]. apply IH2. lia. }
  destruct Z as [Z ZZ].
  assert (T1 : forall a b z h, a < b -> tiles a b [ZeroExtent a (b - a) z h]).
  { intros a b z h I. apply tiles_one; cbn; [auto|lia|]. replace (a + (b - a)) with b by lia. apply tiles_end. }
  split.
  - rewrite <- L. destruct (Z.ltb_spec 0 (leading img)), (Z.ltb_spec (leading img) (zlen img)); cbn [app].
    + apply tiles_one; cbn; auto.
    + replace (zlen img) with (leading img) by lia. replace (leading img) with (leading img - 0) at 2 by lia. auto.
    + replace 0 with (leading img) at 1 by lia. auto.
    + lia.
  - intros e I. assert (C : e = ZeroExtent 0 (leading img) true false \/
                           e = ZeroExtent (leading img) (zlen img - leading img) false false).
    { apply in_app_iff in I. destruct (_ <? _), (_ <? _), I as [[]|[]]; auto; contradiction. }
    destruct C as [->| ->]; (split; [reflexivity|]); [|discriminate].
    intros _ i W. apply ZZ. unfold within in W. cbn in W. lia.
Qed.

(* What can be seen of a run. *)
Definition observe (o : option tst) : option (mstate * list byte * Z) :=
  match o with Some s => Some (main (t_core s), local_image s, progress (t_core s)) | None => None end.
Definition run_download (envs : nat -> senv) (qcow2 : bool) (buf : Z) (incremental : bool) (bf : option str)
  (b : hb iworld) (n : Z) (new : list byte) (ls : list tlabel) : option (tconfig * hb iworld * Z) * option tst :=
  match download_start (lit "id") envs qcow2 buf incremental bf b with
  | Some (c, b1, size) =>
      (Some (c, b1, size), texec c (tdrive c ls 200 (tinit Down n b1 new)) (tinit Down n b1 new))
  | None => (None, None)
  end.

Lemma run_download_inv envs qcow2 buf inc bf b n new ls m img p :
  observe (snd (run_download envs qcow2 buf inc bf b n new ls)) = Some (m, img, p) ->
  exists c b1 size, download_start (lit "id") envs qcow2 buf inc bf b = Some (c, b1, size) /\
    exists tr s, texec c tr (tinit Down n b1 new) = Some s /\ main (t_core s) = m /\
      local_image s = img /\ progress (t_core s) = p.
Proof.
  unfold run_download. destruct (download_start _ _ _ _ _ _ _) as [[[c b1] size]|]; [|discriminate].
  cbn [snd]. remember (tdrive _ _ _ _) as tr. destruct (texec c tr _) as [s|] eqn:X; [|discriminate].
  cbn [observe]. intros [= O1 O2 O3]. eauto 12.
Qed.

(* Three workers download the whole image. *)
Example a_download_ex :
  exists c b1, download_start (lit "id") (fun _ => senv_ex) false 4 false None back_ex = Some (c, b1, 10) /\
    transfer (lit "id") 10 (fun _ => senv_ex) 3 c (tinit Down 3 b1 (zeros 10)) /\
    exists tr s, texec c tr (tinit Down 3 b1 (zeros 10)) = Some s /\ succeeded s /\
      local_image s = [x00; x00; x03; x04; x05; x06; x07; x08; x09; x0a] /\
      progress (t_core s) = 10.
Proof.
  destruct (run_download_inv (fun _ => senv_ex) false 4 false None back_ex 3 (zeros 10)
              (TWorker 2 0 good :: both) (MDone true) [x00; x00; x03; x04; x05; x06; x07; x08; x09; x0a] 10)
    as (c & b1 & size & E & R); [vm_compute; reflexivity|].
  destruct (download_start_ok _ 10 _ (fun _ => usable_ex) _ _ _ _ _ _ _ _ E fresh_ex ltac:(lia) truthful_ex)
    as (_ & -> & _).
  exists c, b1. split; [exact E|]. split; [|exact R].
  refine (a_download _ _ _ _ 4 false false None _ _ _ _ _ _ fresh_ex _ truthful_ex E); lia.
Qed.

(* An incremental download, to an overlay: the server reports [2, 5) as dirty. *)
Definition dirty_senv : senv :=
  SEnv ienv_ex (fun d img =>
      Some (if d then [DirtyExtent 0 2 false false; DirtyExtent 2 3 true false; DirtyExtent 5 5 false false]
            else [ZeroExtent 0 10 false false]))
    true (fun _ => true) (8, 1) None false.
Definition dirty_back : hb iworld :=
  snd (connect (imageio (lit "id") (fun _ => dirty_senv)) (new world_ex)).

Example dirty_usable : usable (lit "id") 10 dirty_senv.
Proof.
  split; [|split; [|split]].
  - intros bs buf [= <- <-]. vm_compute. repeat split; discriminate.
  - split; reflexivity.
  - intros op n [= <-]. auto.
  - intros img l L [= <-]. reflexivity.
Qed.

Example dirty_truthful : truthful true 10 (fun _ => dirty_senv).
Proof.
  intros _ img l L [= <-]. split.
  - repeat (apply tiles_one; [reflexivity|reflexivity|]). apply tiles_end.
  - intros e [<-|[<-|[<-|[]]]]; (split; [reflexivity|]); discriminate.
Qed.

Example incremental_ex :
  fresh 10 dirty_back /\
  exists c b1, download_start (lit "id") (fun _ => dirty_senv) true 4 true (Some (lit "base")) dirty_back
                 = Some (c, b1, 10) /\
    exists tr s, texec c tr (tinit Down 2 b1 (repeat xff 10)) = Some s /\ succeeded s /\
      local_image s = [xff; xff; x03; x04; x05; xff; xff; xff; xff; xff].
Proof.
  assert (FR : fresh 10 dirty_back) by (repeat split; vm_compute; reflexivity).
  split; auto.
  destruct (run_download_inv (fun _ => dirty_senv) true 4 true (Some (lit "base")) dirty_back 2
              (repeat xff 10) both (MDone true) [xff; xff; x03; x04; x05; xff; xff; xff; xff; xff] 10)
    as (c & b1 & size & E & tr & s & R1 & R2 & R3 & _); [vm_compute; reflexivity|].
  destruct (download_start_ok _ 10 _ (fun _ => dirty_usable) _ _ _ _ _ _ _ _ E FR ltac:(lia) dirty_truthful)
    as (_ & -> & _).
  exists c, b1. split; [exact E|]. exists tr, s. auto.
Qed.

(* A server without extents refuses it. *)
Example incremental_refused_ex :
  h_can_extents (set_caps back_ex false true true) = false /\
  download_start (lit "id") (fun _ => senv_ex) true 4 true None (set_caps back_ex false true true) = None /\
  download_start (lit "id") (fun _ => dirty_senv) false 4 true None dirty_back = None.
Proof.
  split; [vm_compute; reflexivity|]. split; apply incremental_refused; [right|left]; vm_compute; reflexivity.
Qed.

(* A server that reported a start that is a string. *)
Definition malformed_back : hb iworld :=
  HttpBackendModel.set_extents back_ex false
    [JExt (JInt 0) (JInt 4) (JBool false) (JBool false);
     JExt (JStr (lits "4")) (JInt 6) (JBool false) (JBool false);
     JExt (JInt 4) (JInt 6) (JBool false) (JBool false)].
Example malformed_extents_ex :
  download_start (lit "id") (fun _ => senv_ex) false 4 false None malformed_back = None /\
  exists n b1 l b2 x,
    HttpBackendModel.size (imageio (lit "id") (fun _ => senv_ex)) malformed_back = (inl n, b1) /\
    HttpBackendModel.extents (imageio (lit "id") (fun _ => senv_ex)) false b1 = (inl l, b2) /\
    In x l /\ forall k, x_start x <> JInt k.
Proof.
  assert (X : exists n b1 l b2 x,
    HttpBackendModel.size (imageio (lit "id") (fun _ => senv_ex)) malformed_back = (inl n, b1) /\
    HttpBackendModel.extents (imageio (lit "id") (fun _ => senv_ex)) false b1 = (inl l, b2) /\
    In x l /\ forall k, x_start x <> JInt k).
  { exists 10, (snd (HttpBackendModel.size (imageio (lit "id") (fun _ => senv_ex)) malformed_back)).
    eexists _, _, (JExt (JStr (lits "4")) (JInt 6) (JBool false) (JBool false)).
    split; [vm_compute; reflexivity|]. split; [vm_compute; reflexivity|].
    split; [right; left; reflexivity|discriminate]. }
  split; [|exact X]. destruct X as (n & b1 & l & b2 & x & S & E & I & N).
  eapply malformed_extents_refused; eauto.
Qed.

(* The runs above are calm. *)
Lemma tdrive_calm c : forall fuel ls s, Forall calm ls -> Forall calm (tdrive c ls fuel s).
Proof.
  induction fuel as [|fuel IH]; intros ls s H; cbn [tdrive]; [constructor|].
  destruct (find _ ls) as [l|] eqn:X; [|constructor]. apply find_some in X as [X _].
  pose proof (proj1 (Forall_forall _ _) H) as H'. constructor; [auto|].
  destruct (tstep c l s); [|constructor]. apply IH. apply Forall_app. split.
  - destruct ls; [constructor|]. inversion H; auto.
  - destruct ls; constructor; [|constructor]. inversion H; auto.
Qed.

Example calm_ex : Forall calm both.
Proof.
  assert (G : forall i, calm (TWorker i 0 good)).
  { intros i. cbn. repeat split; try discriminate. exists 5. split; auto. lia. }
  unfold both. repeat constructor; auto; apply (G O).
Qed.

Example calm_transfer_ex :
  let c := up_config true false up_exts in
  lit "id" <> [] /\ (forall i : nat, willing (lit "id") 10 senv_ex) /\ (forall i : nat, patient 10 senv_ex) /\
  transfer (lit "id") 10 (fun _ => senv_ex) 2 c up_start /\ zlen (local_image up_start) <= 10 /\
  Forall calm (tdrive c both 200 up_start) /\
  exists s, texec c (tdrive c both 200 up_start) up_start = Some s /\ ended s.
Proof.
  intros c. split; [discriminate|]. split; [intros _; exact willing_ex|]. split; [intros _; exact patient_ex|].
  split; [exact an_upload_ex|]. split; [vm_compute; discriminate|].
  split; [apply tdrive_calm; exact calm_ex|].
  destruct upload_ex as (s & E & S & _). exists s. split; auto. exists true. exact S.
Qed.
