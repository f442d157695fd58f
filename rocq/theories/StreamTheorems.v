From Coq Require Import ZArith List Bool Lia String.
From Verif Require Import BytesLib HeaderModel HeaderSpec HttpModel OpsModel OpsTheorems ImagesModel ImagesSpec ExtentsModel ExtentsSpec
  ClientIoSpec HttpBackendModel HttpBackendSpec HttpBackendProofs HttpBackendTheorems ApiModel ApiSpec ApiProofs ApiTheorems
  TransferSpec TransferProofs StreamModel StreamSpec StreamProofs.
Import ListNotations.
Open Scope Z_scope.

(* ---- C83: sparse streams ---- *)

(* Every number of 64 bits is written as its 16 digits, and read back. *)
Theorem numbers_round_trip :
  forall n, small n -> fmt16 n = number n /\ int16 (number n) = Some n.
Proof. intros n N. split; [apply fmt16_number|apply int16_number]; auto. Qed.
Print Assumptions numbers_round_trip.

Lemma frame_of_valid total im l fs : Forall2 (frame_of im) l fs ->
  (forall e, In e l -> small (start_of e) /\ small (length_of e) /\ length_of e <= total) -> Forall valid fs.
Proof.
  induction 1 as [|e f l fs F _ IH]; intros B; constructor.
  - destruct F as (F1 & F2 & _). destruct (B e (or_introl eq_refl)) as (B1 & B2 & _).
    split; congruence.
  - apply IH. intros y Y. apply B. right. auto.
Qed.

Lemma sum_data_bytes im : forall l fs, Forall2 (frame_of im) l fs -> sum_data l = data_bytes fs.
Proof.
  induction 1 as [|e f l fs F F2 IH]; auto. cbn [sum_data]. rewrite IH.
  destruct F as (F1 & FL & F3). destruct f as [a d|a n]; cbn [data_bytes flength] in *; destruct F3 as (-> & _); lia.
Qed.

Lemma all_wanted inc im l : inc = false -> honest_extents inc im l -> filter wanted l = l.
Proof.
  intros -> H. induction l as [|e l IH]; auto. cbn [filter].
  assert (wanted e = true). { specialize (H e (or_introl eq_refl)). destruct e; auto. destruct H; discriminate. }
  rewrite H0. f_equal. apply IH. intros y Y. apply H. right. auto.
Qed.

(* A backup does not change the image.  If it succeeds, the output is a stream
   as documented: the metadata, a frame for every extent of the image or, when
   incremental, for every dirty one, with the bytes of the image, and the
   stop frame.  The metadata has the size of the image and, if the backup is
   not incremental, the number of bytes in data frames. *)
Theorem download_writes_a_stream :
  forall id total envs, (forall i, usable id total (envs i)) -> 0 < total < 2 ^ 64 ->
  forall nets dumps incremental fails c r out c',
  TransferSpec.fresh total (c_back c) -> c_closed c = false -> truthful incremental total envs ->
  takes_all total nets -> (forall n m b, small (zlen (dumps n m b))) ->
  download (imageio id envs) nets dumps incremental fails c = (r, out, c') ->
  (r = inl tt -> exists l fs size,
     (exists i, se_ext (envs i) incremental (img c) = Some l \/
                h_can_extents (c_back c) = false /\ incremental = false /\ l = [ZeroExtent 0 total false false]) /\
     tiles 0 total l /\ Forall2 (frame_of (img c)) (filter wanted l) fs /\ Forall valid fs /\
     out = stream_of (dumps total size incremental) fs /\
     (incremental = false -> size = data_bytes fs) /\ c_closed c' = true) /\
  img c' = img c.
Proof.
  intros id total envs U TP nets dumps inc fails c r out c' F CL T TA SM E. unfold download in E.
  destruct (download_body _ _ _ _ _) as [[r1 out1] c1] eqn:B. destruct (leave _ _ _) as [x c2] eqn:L.
  injection E as <- <- <-. apply leave_ok in L as (CB & LR & _). unfold img at 3. rewrite CB. fold (img c1).
  unfold download_body in B.
  destruct (cl_extents _ _ _) as [[xs|e] c3] eqn:X.
  2:{ injection B as <- <- <-. split; [intros R; apply LR in R as (R & _); discriminate|].
      unfold cl_extents, serve_of in X. rewrite CL in X.
      destruct (HttpBackendModel.extents _ _ _) as [y s1] eqn:Y. injection X as -> <-.
      unfold img. cbn [c_back with_back].
      assert (I : Inv total (c_back c)) by (destruct F as (Z & N1 & N2 & _); split; auto; rewrite N1, N2; split; discriminate).
      unfold HttpBackendModel.extents in Y. destruct (h_can_extents (c_back c)); cbn [negb] in Y.
      - unfold cached_extents in Y. destruct (if inc then _ else _); [discriminate|].
        destruct (get_extents _ _ _) as [[ys|e1] s2] eqn:G; [discriminate|]. injection Y as _ <-.
        unfold get_extents in G. destruct (HttpBackendModel.request _ _ _) as [z s3] eqn:R.
        apply request_eq in R as (p & w & S & -> & ->). apply srv_extents in S as (S1 & _). injection G as _ <-. exact S1.
      - destruct inc; [injection Y as _ <-; auto|]. destruct (size _ _) as [z s2] eqn:S. injection Y as _ <-.
        eapply size_imageio in S; eauto. tauto. }
  eapply extents_good in X as ((l & S & TL & HE & i & RP) & I3 & IM3 & CL3); eauto; [|lia].
  destruct (dump_metadata _ _ _) as [m|e] eqn:D.
  2:{ injection B as <- <- <-. split; [intros R; apply LR in R as (R & _); discriminate|auto]. }
  assert (DM : m = dumps total (sum_data l) inc) by (eapply dump_ok; eauto).
  remember (FRAME META 0 (zlen m)) as fm eqn:FM. remember (FRAME STOP 0 0) as fs0 eqn:FS.
  destruct (download_loop _ _ _ _ _ _) as [[r2 out2] c4] eqn:DL.
  assert (HW : honest_extents inc (img c) (filter wanted l)).
  { intros y Y. apply filter_In in Y as (Y & _). apply HE; auto. }
  eapply download_loop_ok in DL as (I4 & IM4 & CL4 & DL); eauto using filter_same.
  destruct r2 as [[]|e].
  2:{ injection B as <- <- <-. split; [intros R; apply LR in R as (R & _); discriminate|auto]. }
  injection B as <- <- <-. split; [|auto]. intros R.
  apply LR in R as (_ & _ & CC).
  assert (BD : forall e, In e (filter wanted l) -> small (start_of e) /\ small (length_of e) /\ length_of e <= total).
  { intros e Y. apply filter_In in Y as (Y & _). eapply tiles_bounds in Y; eauto; [|lia].
    unfold small. lia. }
  destruct DL as (fs & FF & ->); auto.
  exists l, fs, (sum_data l). split.
  { exists i. destruct RP as [RP|(RP & ->)]; [auto|]. right. apply negb_true_iff in RP. split; auto. split; auto.
    specialize (HE _ (or_introl eq_refl)). cbn in HE. tauto. }
  split; auto. split; auto. split; [eapply frame_of_valid; eauto|]. split.
  - unfold stream_of. rewrite <- DM. rewrite FM, FS, <- text_meta, <- text_stop, !frame_header
      by (try rewrite DM; auto; vm_compute; split; congruence).
    rewrite <- !app_assoc. auto.
  - split; auto. intros ->. rewrite (all_wanted false (img c)) in FF by auto. eapply sum_data_bytes; eauto.
Qed.
Print Assumptions download_writes_a_stream.

Lemma fresh_st_ok total (c : client iworld) : ApiTheorems.fresh c -> zlen (img c) = total ->
  durable (iw_log (h_world (c_back c))) -> st_ok total c.
Proof.
  intros F L D. split; [apply fresh_client_inv; auto|]. split; [apply F|]. intros _. exact D.
Qed.

(* Restoring a stream as documented, with anything after it.  Whatever happens,
   nothing outside of the ranges of its frames changes, and nothing at all if
   the image is smaller than the size in the metadata.  If it succeeds, the
   frames were written to the image in their order, and flushed. *)
Theorem upload_restores_the_frames :
  forall id total envs, (forall i, usable id total (envs i)) ->
  forall nets loads fails meta fs junk c r c',
  ApiTheorems.fresh c -> zlen (img c) = total -> durable (iw_log (h_world (c_back c))) ->
  Forall valid fs -> small (zlen meta) ->
  upload (imageio id envs) nets loads fails (stream_of meta fs ++ junk) c = (r, c') ->
  zlen (img c') = total /\
  (forall i, (forall f, In f fs -> ~ inside f i) -> getb (img c') i = getb (img c) i) /\
  (forall size, loads meta = Some size -> total < size -> r <> inl tt /\ img c' = img c) /\
  (r = inl tt ->
     (exists size, loads meta = Some size /\ size <= total) /\ restored fs (img c) (img c') /\
     durable (iw_log (h_world (c_back c'))) /\ c_closed c' = true).
Proof.
  intros id total envs U nets loads fails meta fs junk c r c' F L D V SM E.
  assert (OK : st_ok total c) by (apply fresh_st_ok; auto).
  rewrite upload_whole in E by auto. destruct (loads meta) as [v|].
  2:{ injection E as <- <-. split; auto. split; auto. split; discriminate. }
  destruct (upload_body _ _ _ _ _) as [x c1] eqn:B. eapply body_stream in B as ((L1 & _) & O & T & S); eauto.
  apply leave_ok in E as (CB & LR & LE). unfold img in *. rewrite CB. split; auto. split; auto. split.
  - intros n [= <-] N. split; auto. intros R. apply LR in R as (R & _). apply S in R. lia.
  - intros R. apply LR in R as (R & _ & CC). apply S in R as (S1 & S2 & S3). split; eauto.
Qed.
Print Assumptions upload_restores_the_frames.

(* A stream that was cut is never restored successfully, unless only the last
   17 bytes or less are missing: those are digits and the end of the stop
   frame. *)
Theorem truncated_stream_fails :
  forall id total envs, (forall i, usable id total (envs i)) ->
  forall nets loads fails meta fs p q c r c',
  ApiTheorems.fresh c -> zlen (img c) = total -> durable (iw_log (h_world (c_back c))) ->
  Forall valid fs -> small (zlen meta) ->
  stream_of meta fs = p ++ q -> 17 < zlen q ->
  upload (imageio id envs) nets loads fails p c = (r, c') -> r <> inl tt.
Proof.
  intros id total envs U nets loads fails meta fs p q c r c' F L D V SM P Q E.
  eapply upload_cut in E as (e & ->); eauto; [discriminate|]. apply fresh_st_ok; auto.
Qed.
Print Assumptions truncated_stream_fails.

Lemma is_kind4 k : is_kind k -> kind4 k.
Proof.
  intros [L N]. split; auto. intros b I E. apply N. replace x20 with b; auto.
  unfold ord in E. assert (X : Byte.to_N b = 32%N) by lia. apply (f_equal Byte.of_N) in X.
  rewrite Byte.of_to_N in X. cbn in X. congruence.
Qed.

Lemma text_inj a b : text a = text b -> a = b.
Proof.
  unfold text. intros H. rewrite <- (string_of_list_byte_of_string a), <- (string_of_list_byte_of_string b). congruence.
Qed.

(* Only streams beginning with a meta frame are restored: otherwise the client
   is not used at all.  A stream with a frame of an unknown kind fails. *)
Theorem unknown_frames_fail :
  forall id total envs, (forall i, usable id total (envs i)) ->
  forall nets loads fails kind start length junk c r c',
  is_kind kind -> small start -> small length ->
  (kind <> "meta"%string ->
   upload (imageio id envs) nets loads fails (header kind start length ++ junk) c = (r, c') ->
   r = inr SRuntime /\ c' = c) /\
  (forall meta fs,
   ApiTheorems.fresh c -> zlen (img c) = total -> durable (iw_log (h_world (c_back c))) ->
   Forall valid fs -> small (zlen meta) ->
   ~ In kind ["data"; "zero"; "stop"]%string ->
   upload (imageio id envs) nets loads fails
     (header "meta" 0 (zlen meta) ++ meta ++ CRLF ++ flat_map frame_bytes fs ++ header kind start length ++ junk) c
     = (r, c') ->
   r <> inl tt /\ forall i, (forall f, In f fs -> ~ inside f i) -> getb (img c') i = getb (img c) i).
Proof.
  intros id total envs U nets loads fails kind start length junk c r c' K A N. apply is_kind4 in K. split.
  - intros NM E. unfold upload in E. rewrite read_header in E by auto.
    destruct (beq (text kind) META) eqn:B; [|injection E as <- <-; auto].
    apply beq_true in B. rewrite <- text_meta in B. apply text_inj in B. contradiction.
  - intros meta fs F L D V SM NI E. assert (OK : st_ok total c) by (apply fresh_st_ok; auto).
    unfold upload in E. rewrite read_header in E by (auto using kind4_meta; vm_compute; split; congruence).
    rewrite text_meta, beq_refl in E. cbn [negb] in E. unfold read in E. pose proof (zlen_nonneg meta).
    destruct (Z.eqb_spec (zlen meta) (-1)); [lia|]. destruct (Z.ltb_spec (zlen meta) 0); [lia|].
    destruct (take_app_eq meta (CRLF ++ flat_map frame_bytes fs ++ header kind start length ++ junk) (zlen meta) eq_refl) as (T1 & T2).
    rewrite T1, T2, read_term_ok in E. destruct (loads meta) as [v|]; [|injection E as <- <-; split; [discriminate|auto]].
    destruct (upload_body _ _ _ _ _) as [x c1] eqn:B. apply leave_ok in E as (CB & LR & LE).
    unfold img. rewrite CB. fold (img c1) (img c).
    eapply body_ok in B as [((e & ->) & _ & O & _)|(_ & fuel & k & c2 & y & c3 & E & _ & _ & O & FU & X)]; eauto.
    { rewrite (LE e eq_refl). split; [discriminate|auto]. }
    destruct fuel as [|fuel]; [lia|]. cbn [upload_loop] in E. rewrite read_header in E by auto.
    assert (Q : forall k, In k ["data"; "zero"; "stop"]%string -> beq (text kind) (text k) = false).
    { intros k0 I. destruct (beq (text kind) (text k0)) eqn:B; auto. apply beq_true, text_inj in B. subst. contradiction. }
    rewrite <- text_zero, <- text_data, <- text_stop, !Q in E by (cbn; auto).
    injection E as <- <-. destruct X as (-> & ->). rewrite (LE _ eq_refl). split; [discriminate|auto].
Qed.
Print Assumptions unknown_frames_fail.

Lemma tiles_start : forall a b l x, tiles a b l -> In x l -> a <= start_of x.
Proof.
  induction 1 as [a|a b e l S L T IH]; intros []; subst; [lia|]. apply IH in H. lia.
Qed.

Lemma tiles_cover : forall a b l, tiles a b l -> forall i, a <= i < b -> exists e, In e l /\ within e i.
Proof.
  induction 1 as [a|a b e l S L T IH]; intros i I; [lia|].
  destruct (Z_lt_le_dec i (a + length_of e)).
  - exists e. split; [left; auto|]. unfold within. lia.
  - destruct (IH i) as (x & X & W); [lia|]. exists x. split; [right; auto|auto].
Qed.

Lemma restored_from img l : forall a b, tiles a b l -> 0 <= a -> 
  forall fs t t', Forall2 (frame_of img) (filter wanted l) fs -> restored fs t t' ->
  (forall i, i < a \/ b <= i -> getb t' i = getb t i) /\
  (forall e i, In e l -> within e i -> getb t' i = if wanted e then getb img i else getb t i).
Proof.
  induction l as [|e l IH]; intros a b T A fs t t' F R.
  - cbn in F. inv F. cbn in R. subst. split; auto. intros e i [].
  - inv T. cbn [filter] in F. set (n := length_of e) in *.
    assert (M : start_of e + n <= b).
    { clear -H5. remember (start_of e + n) as x. clear Heqx. induction H5; lia. }
    assert (OUT : forall x i, In x l -> within x i -> start_of e + n <= i).
    { intros x i X W. eapply tiles_start in X; eauto. unfold within in W. lia. }
    destruct (wanted e) eqn:WE.
    + inv F. destruct R as (t1 & W & R). destruct H1 as (F1 & F2 & F3).
      destruct (IH _ _ H5 ltac:(lia) _ _ _ H3 R) as (R1 & R2).
      assert (W1 : forall i, start_of e <= i < start_of e + n -> getb t1 i = getb img i).
      { intros i I. destruct y as [s d|s k]; cbn in F1, F2, F3, W; destruct F3 as (_ & F3); destruct W as (W & _).
        - rewrite W by lia. destruct F3 as (_ & F3). destruct (F3 (i - s)) as (_ & ->); [lia|]. f_equal. lia.
        - rewrite W, F3 by lia. auto. }
      assert (W2 : forall i, i < start_of e \/ start_of e + n <= i -> getb t1 i = getb t i).
      { intros i I. destruct y as [s d|s k]; cbn in F1, F2, W; destruct W as (_ & W & _); apply W; lia. }
      split.
      * intros i I. rewrite R1, W2 by lia. auto.
      * intros x i [<-|X] WI.
        -- rewrite WE, R1 by (unfold within in WI; lia). apply W1. exact WI.
        -- rewrite (R2 x i X WI). destruct (wanted x); auto. apply W2. right. eapply OUT; eauto.
    + destruct (IH _ _ H5 ltac:(lia) _ _ _ F R) as (R1 & R2). split.
      * intros i I. apply R1. lia.
      * intros x i [<-|X] WI; [|apply R2; auto]. rewrite WE. apply R1. unfold within in WI. lia.
Qed.

(* ---- restoring backups ---- *)

(* A backup of an image, restored to another one, of any size: if both
   programs succeed the other image is not smaller, begins with the bytes of
   the first image, and has the bytes it had after them; all of it is flushed.
   An incremental backup does this if the other image had the same bytes
   outside of the dirty extents. *)
Theorem backup_and_restore :
  forall id1 total1 envs1, (forall i, usable id1 total1 (envs1 i)) -> 0 < total1 < 2 ^ 64 ->
  forall id2 total2 envs2, (forall i, usable id2 total2 (envs2 i)) ->
  forall dumps loads, (forall n m b, small (zlen (dumps n m b)) /\ (small n -> loads (dumps n m b) = Some n)) ->
  forall incremental nets1 fails1 c1 out c1' nets2 fails2 c2 c2',
  TransferSpec.fresh total1 (c_back c1) -> c_closed c1 = false -> truthful incremental total1 envs1 ->
  takes_all total1 nets1 ->
  ApiTheorems.fresh c2 -> zlen (img c2) = total2 -> durable (iw_log (h_world (c_back c2))) ->
  (incremental = true -> tracked envs1 (img c1) (img c2)) ->
  download (imageio id1 envs1) nets1 dumps incremental fails1 c1 = (inl tt, out, c1') ->
  upload (imageio id2 envs2) nets2 loads fails2 out c2 = (inl tt, c2') ->
  total1 <= total2 /\ zlen (img c2') = total2 /\
  (forall i, getb (img c2') i = if (0 <=? i) && (i <? total1) then getb (img c1) i else getb (img c2) i) /\
  durable (iw_log (h_world (c_back c2'))).
Proof.
  intros id1 total1 envs1 U1 TP id2 total2 envs2 U2 dumps loads DL inc nets1 fails1 c1 out c1' nets2 fails2 c2 c2'
    F1 CL1 T1 TA F2 Z2 D2 TR DO UP.
  eapply download_writes_a_stream in DO as (DO & _); eauto; [|intros; apply DL].
  destruct (DO eq_refl) as (l & fs & sz & (k & RP) & TL & FF & V & -> & _ & _). clear DO.
  assert (SM : small (zlen (dumps total1 sz inc))) by apply DL.
  rewrite <- (app_nil_r (stream_of _ _)) in UP.
  eapply upload_restores_the_frames in UP as (Z & _ & _ & UP); eauto.
  destruct (UP eq_refl) as ((n & N & LE) & RS & DU & _).
  destruct (DL total1 sz inc) as (_ & LD). rewrite LD in N by (unfold small; lia). injection N as <-.
  split; auto. split; auto. split; auto. intros i.
  destruct (restored_from (img c1) l _ _ TL ltac:(lia) _ _ _ FF RS) as (R1 & R2).
  destruct (Z.leb_spec 0 i); [destruct (Z.ltb_spec i total1)|]; cbn [andb]; [|apply R1; lia|apply R1; lia].
  destruct (tiles_cover _ _ _ TL i) as (e & E & W); [lia|]. rewrite (R2 e i E W).
  destruct (wanted e) eqn:WE; auto.
  destruct RP as [RP|(_ & _ & ->)].
  - destruct inc.
    + eapply TR; eauto.
    + destruct (T1 k (img c1) l) as (_ & HE); auto; [apply F1|]. specialize (HE e E). destruct e; [discriminate|].
      destruct HE; discriminate.
  - destruct E as [<-|[]]. discriminate.
Qed.
Print Assumptions backup_and_restore.

(* ---- programs that succeed ---- *)

Section Live.
Variables (id : str) (total : Z) (envs : nat -> senv) (nets : nat -> net).
Hypothesis ID : id <> [].
Hypothesis Wi : forall i, willing id total (envs i).
Hypothesis Pa : forall i, patient total (envs i).
Hypothesis WN : forall k, working (nets k).
Notation srv := (imageio id envs).

Lemma U_of : forall i, usable id total (envs i).
Proof using Wi. intros i. apply Wi. Qed.

Lemma zero_live o a n c : working o -> st_ok total c -> 0 < n -> 0 <= a -> a + n <= total ->
  exists c1, cl_zero srv o a n c = (inl 0, c1) /\ c_buflen c1 = c_buflen c.
Proof using ID Wi Pa.
  intros (NR & NS & _) ((L & _) & CL & _) N A T. unfold cl_zero, at_offset, serve_of. rewrite CL. cbn [seek snd Z.eqb].
  assert (Z : exists s2, zero srv o n (set_pos (c_back c) a) = (inl n, s2)).
  { destruct (h_can_zero (c_back c)) eqn:CZ.
    - eapply zero_over_http_succeeds; eauto. cbn. lia.
    - eapply emulated_zero_succeeds; eauto. }
  destruct Z as (s2 & ->). eauto.
Qed.

Lemma read_from_live o src a n c : working o -> st_ok total c -> 0 < n -> 0 <= a -> a + n <= total ->
  n <= zlen src -> 0 < c_buflen c ->
  exists s c1, cl_read_from srv o src a n c = (inl 0, s, c1) /\ c_buflen c1 = c_buflen c.
Proof using ID Wi Pa.
  intros (NR & NS & NI & ND) ((L & _) & CL & _) N A T S B. unfold cl_read_from, at_offset, serve_of. rewrite CL. cbn [seek snd Z.eqb].
  destruct (read_from_over_http_succeeds id total envs o src n (c_buflen c) (set_pos (c_back c) a))
    as (lf & s2 & ->); eauto.
Qed.

Lemma write_to_live o a n c : working o -> Inv total (c_back c) -> c_closed c = false -> 0 < n -> 0 <= a -> a + n <= total ->
  0 < c_buflen c ->
  exists s c1, cl_write_to srv o a n c = (inl 0, s, c1) /\ c_buflen c1 = c_buflen c.
Proof using ID Wi Pa.
  intros (NR & NS & NI & ND) (L & _) CL N A T B. unfold cl_write_to, at_offset, serve_of. rewrite CL. cbn [seek snd Z.eqb].
  destruct (write_to_over_http_succeeds id total envs o n (c_buflen c) (set_pos (c_back c) a))
    as (lf & s2 & ->); eauto.
Qed.

Definition fits (f : frame) : Prop := 0 <= fstart f /\ 0 < flength f /\ fstart f + flength f <= total.

Lemma frames_live : forall fs fuel k s c,
  Forall valid fs -> Forall fits fs -> st_ok total c -> 0 < c_buflen c ->
  (List.length (flat_map frame_bytes fs ++ s) < fuel)%nat ->
  exists fuel' k' c1, upload_loop srv nets fuel k (flat_map frame_bytes fs ++ s) c = upload_loop srv nets fuel' k' s c1 /\
    st_ok total c1 /\ c_buflen c1 = c_buflen c /\ (List.length s < fuel')%nat.
Proof using ID Wi Pa WN.
  induction fs as [|f fs IH]; intros fuel k s c V FT OK B F.
  { exists fuel, k, c. cbn [flat_map app]. auto. }
  inv V. inv FT. destruct H1 as [VA VN], H3 as (F1 & F2 & F3). cbn [flat_map] in F |- *.
  destruct fuel as [|fuel]; [lia|]. cbn [upload_loop].
  destruct f as [a d|a n]; cbn [frame_bytes fstart flength] in *; rewrite <- !app_assoc in F |- *.
  - rewrite read_header by (auto using kind4_data). rewrite text_data.
    change (beq DATA ZERO) with false. rewrite beq_refl.
    destruct (read_from_live (nets k) (d ++ CRLF ++ flat_map frame_bytes fs ++ s) a (zlen d) c) as (s1 & c1 & R & BL); auto.
    { rewrite zlen_app. pose proof (zlen_nonneg (CRLF ++ flat_map frame_bytes fs ++ s)). lia. }
    rewrite R. eapply read_from_ok in R as (_ & _ & _ & R); eauto using U_of; [|lia].
    destruct (R 0 eq_refl) as (OK1 & _ & _ & ->).
    destruct (take_app_eq d (CRLF ++ flat_map frame_bytes fs ++ s) (zlen d) eq_refl) as (_ & ->).
    rewrite read_term_ok. destruct (IH fuel (S k) s c1) as (f' & k' & c2 & E & OK2 & B2 & L); auto; [lia| |].
    { pose proof (header_length "data" a (zlen d) kind4_data) as HL.
      remember (header "data" a (zlen d)) as h. clear -HL F. unfold zlen in HL. rewrite !app_length in *. lia. }
    exists f', k', c2. split; auto. split; auto. split; [congruence|auto].
  - rewrite read_header by (auto using kind4_zero). rewrite text_zero, beq_refl.
    destruct (zero_live (nets k) a n c) as (c1 & R & BL); auto. rewrite R.
    eapply zero_ok in R as (_ & _ & _ & R); eauto using U_of; [|lia]. destruct (R 0 eq_refl) as (OK1 & _).
    destruct (IH fuel (S k) s c1) as (f' & k' & c2 & E & OK2 & B2 & L); auto; [lia| |].
    { pose proof (header_length "zero" a n kind4_zero) as HL.
      clear -HL F. unfold zlen in HL. rewrite !app_length in *. lia. }
    exists f', k', c2. split; auto. split; auto. split; [congruence|auto].
Qed.
End Live.

(* Restoring succeeds if the server does what it is asked and told the size,
   the image is large enough, and the frames are inside of it and not empty. *)
Theorem upload_succeeds :
  forall id total envs nets loads meta size fs junk c,
  id <> [] -> (forall i, willing id total (envs i)) -> (forall i, patient total (envs i)) ->
  (forall k, working (nets k)) ->
  ApiTheorems.fresh c -> zlen (img c) = total -> durable (iw_log (h_world (c_back c))) -> 0 < c_buflen c ->
  fst (cl_size (imageio id envs) c) = inl total ->
  loads meta = Some size -> size <= total -> small (zlen meta) -> Forall valid fs -> Forall (fits total) fs ->
  fst (upload (imageio id envs) nets loads None (stream_of meta fs ++ junk) c) = inl tt.
Proof.
  intros id total envs nets loads meta size fs junk c ID Wi Pa WN F L D B SZ LM LE SM V FT.
  assert (U := U_of id total envs Wi).
  assert (OK : st_ok total c) by (apply fresh_st_ok; auto).
  rewrite upload_whole, LM by auto. unfold upload_body.
  destruct (cl_size _ _) as [x c1] eqn:S. cbn [fst] in SZ. subst x.
  assert (BL : c_buflen c1 = c_buflen c).
  { unfold cl_size in S. destruct (HttpBackendModel.size _ _). injection S as _ <-. auto. }
  eapply size_ok in S as (OK1 & _); eauto.
  destruct (Z.ltb_spec total size); [lia|].
  match goal with |- context [upload_loop _ _ ?f ?k _ _] =>
    destruct (frames_live id total envs nets ID Wi Pa WN fs f k (header "stop" 0 0 ++ junk) c1) as (f' & k' & c2 & E & OK2 & B2 & LL) end;
    auto; try lia.
  rewrite E, loop_stop by (auto; vm_compute; split; congruence).
  unfold cl_flush, serve_of. destruct OK2 as (_ & CL2 & _). rewrite CL2.
  destruct (flush_over_http_succeeds id total envs (c_back c2)) as (s' & ->); auto.
  unfold leave, cl_close. cbn [with_back c_closed]. rewrite CL2. auto.
Qed.
Print Assumptions upload_succeeds.

(* A backup succeeds if the server does what it is asked and told the
   extents. *)
Theorem download_succeeds :
  forall id total envs nets dumps incremental c,
  id <> [] -> (forall i, willing id total (envs i)) -> (forall i, patient total (envs i)) ->
  (forall k, working (nets k)) -> 0 < total ->
  TransferSpec.fresh total (c_back c) -> c_closed c = false -> 0 < c_buflen c -> truthful incremental total envs ->
  (exists xs, fst (cl_extents (imageio id envs) incremental c) = inl xs) ->
  fst (fst (download (imageio id envs) nets dumps incremental None c)) = inl tt.
Proof.
  intros id total envs nets dumps inc c ID Wi Pa WN TP F CL B T (xs & X).
  assert (U := U_of id total envs Wi).
  unfold download, download_body. destruct (cl_extents _ _ _) as [y c1] eqn:E. cbn [fst] in X. subst y.
  assert (BL : c_buflen c1 = c_buflen c).
  { unfold cl_extents in E. destruct (HttpBackendModel.extents _ _ _). injection E as _ <-. auto. }
  eapply extents_good in E as ((l & S & TL & HE & _) & I1 & IM1 & CL1); eauto.
  assert (DM : exists m, dump_metadata dumps inc xs = inl m).
  { unfold dump_metadata. rewrite (data_size_ok _ _ _ _ S HE).
    destruct (tiles_last _ _ _ TL) as (l' & e & -> & EN). { intros ->. inv TL. lia. }
    apply Forall2_app_inv_l in S as (x1 & x2 & S1 & S2 & ->). inv S2. inv H3. rewrite rev_app_distr. cbn [rev app].
    assert (IE : In e (l' ++ [e])) by (apply in_or_app; right; left; auto).
    destruct (same_fields _ _ _ _ _ H1 HE IE) as (G1 & G2 & _). rewrite G1, G2. cbn. eauto. }
  destruct DM as (m & ->).
  assert (DL : forall l xs k c1, Forall2 same_extent l xs -> honest_extents inc (img c) l ->
    (forall e, In e l -> 0 <= start_of e /\ 0 < length_of e /\ start_of e + length_of e <= total) ->
    Inv total (c_back c1) -> c_closed c1 = false -> 0 < c_buflen c1 ->
    exists out c2, download_loop (imageio id envs) nets inc k xs c1 = (inl tt, out, c2) /\ c_closed c2 = false).
  { clear -ID Wi Pa WN U. intros l xs k c1 S. revert k c1. induction S as [|e x l xs S1 S IH]; intros k c1 HE BD I CL B.
    - cbn. eauto.
    - assert (H' : honest_extents inc (img c) l) by (intros y Y; apply HE; right; auto).
      destruct (same_fields _ _ _ _ _ S1 HE (or_introl eq_refl)) as (F1 & F2 & F3 & _).
      cbn [download_loop]. unfold extent_frame. rewrite F1, F2, F3. cbn [as_int].
      destruct (BD e (or_introl eq_refl)) as (B1 & B2 & B3).
      assert (BD' : forall y, In y l -> 0 <= start_of y /\ 0 < length_of y /\ start_of y + length_of y <= total)
        by (intros y Y; apply BD; right; auto).
      destruct (extent_zero e).
      + destruct (IH k c1) as (out & c2 & -> & C2); auto. eauto.
      + destruct (write_to_live id total envs ID Wi Pa (nets k) (start_of e) (length_of e) c1)
          as (out & c2 & W & BW); auto.
        rewrite W. eapply write_to_ok in W as (I2 & _ & C2 & _); eauto.
        destruct (IH (Datatypes.S k) c2) as (out2 & c3 & -> & C3); auto; [congruence|lia|]. eauto. }
  destruct (DL (filter wanted l) (if inc then filter x_dirty xs else xs) O c1) as (out & c2 & E & C2); auto.
  { eapply filter_same; eauto. }
  { intros y Y. apply filter_In in Y as (Y & _). apply HE; auto. }
  { intros e Y. apply filter_In in Y as (Y & _). eapply tiles_bounds; eauto; lia. }
  { lia. }
  rewrite E. unfold leave, cl_close. rewrite C2. auto.
Qed.
Print Assumptions download_succeeds.

(* ---- examples ---- *)

(* A server with an image of n bytes, of which the first 4 are not dirty. *)
Definition ienv_of (n : Z) : ienv :=
  IEnv (Some 4300) (fun _ _ => Some n) (Backend 2 (repeat xee 4)) false false
    (fun _ => RAns (Some 4) None false)
    (WOracle (fun _ => Some 3) (fun _ => WOk 2) (fun _ => false) true) 40.
Definition senv_of (n : Z) : senv :=
  SEnv (ienv_of n) (fun d img =>
      if d then Some [DirtyExtent 0 4 false false; DirtyExtent 4 (n - 4) true false]
      else let z := leading img in
           Some ((if 0 <? z then [ZeroExtent 0 z true false] else [])
              ++ (if z <? zlen img then [ZeroExtent z (zlen img - z) false false] else [])))
    true (fun _ => true) (8, 1) None false.
Definition srv_of (n : Z) := imageio (lit "id") (fun _ => senv_of n).
Definition client_of (n : Z) (im : list byte) : client iworld :=
  Client (snd (connect (srv_of n) (new (IW im 0 [])))) 4 false.
Definition dumps_ex (n m : Z) (b : bool) : list byte := number n ++ number m ++ (if b then text "+" else []).
Definition loads_ex (l : list byte) : option Z := int16 (take 16 l).
Definition image_ex : list byte := [x00; x00; x03; x04; x05; x06; x07; x08; x09; x0a].

Lemma leading_bounds im : 0 <= leading im <= zlen im /\ forall i, 0 <= i < leading im -> getb im i = x00.
Proof.
  induction im as [|b im (IH & IHz)]; [cbn; split; [lia|]; intros; lia|].
  rewrite zlen_cons.
  assert (C : leading (b :: im) = 0 \/ b = x00 /\ leading (b :: im) = 1 + leading im) by (destruct b; cbn; auto).
  destruct C as [->|(-> & ->)]; [split; [lia|]; intros; lia|]. split; [lia|]. intros i I.
  unfold getb in *. destruct (Z.ltb_spec i 0); [lia|]. destruct (Z.to_nat i) as [|k] eqn:K; auto.
  cbn [nth]. specialize (IHz (Z.of_nat k)). destruct (Z.ltb_spec (Z.of_nat k) 0); [lia|].
  rewrite Nat2Z.id in IHz. apply IHz. lia.
Qed.

Lemma usable_ex n : 4 < n -> usable (lit "id") n (senv_of n).
Proof.
  intros N. split; [|split; [|split]].
  - intros bs buf [= <- <-]. vm_compute. repeat split; discriminate.
  - split; reflexivity.
  - intros op m [= <-]. auto.
  - intros im l L [= <-]. unfold extents_end. pose proof (leading_bounds im) as (Z & _).
    destruct (Z.ltb_spec 0 (leading im)), (Z.ltb_spec (leading im) (zlen im)); cbn; f_equal; lia.
Qed.

Lemma willing_ex n : 4 < n < 2 ^ 64 -> willing (lit "id") n (senv_of n).
Proof.
  intros N. split; [apply usable_ex; lia|].
  split; [eexists _, _; reflexivity|]. do 5 (split; [reflexivity|]).
  split.
  { intros m [= <-]. assert (Z.log2 n <= Z.log2 (2 ^ 64)) by (apply Z.log2_le_mono; lia).
    change (Z.log2 (2 ^ 64)) with 64 in *. lia. }
  split; [intros bs buf [= <- <-] i; exists 4; vm_compute; auto|].
  split; [intros i; exists 3; vm_compute; auto|].
  split; [intros i; exists 2; reflexivity|reflexivity].
Qed.

Lemma truthful_ex n d : 4 < n -> truthful d n (fun _ => senv_of n).
Proof.
  intros N i im l L E. destruct d; injection E as <-.
  - split.
    + econstructor; cbn [start_of length_of]; [auto|lia|].
      econstructor; cbn [start_of length_of]; [auto|lia|]. replace (0 + 4 + (n - 4)) with n by lia. constructor.
    + intros e [<-|[<-|[]]]; (split; [auto|discriminate]).
  - pose proof (leading_bounds im) as (Z & LZ). subst n.
    assert (Z' : 0 < zlen im) by lia. split.
    + destruct (Z.ltb_spec 0 (leading im)), (Z.ltb_spec (leading im) (zlen im)); cbn [app].
      * econstructor; cbn [start_of length_of]; [auto|lia|]. econstructor; cbn [start_of length_of]; [lia|lia|].
        replace (0 + leading im + (zlen im - leading im)) with (zlen im) by lia. constructor.
      * econstructor; cbn [start_of length_of]; [auto|lia|]. replace (0 + leading im) with (zlen im) by lia. constructor.
      * econstructor; cbn [start_of length_of]; [lia|lia|].
        replace (0 + (zlen im - leading im)) with (zlen im) by lia. constructor.
      * lia.
    + intros e I. apply in_app_or in I as [I|I].
      * destruct (0 <? leading im); [|destruct I]. destruct I as [<-|[]]. split; auto.

      * destruct (leading im <? zlen im); [|destruct I]. destruct I as [<-|[]]. split; auto. discriminate.
Qed.

Lemma net_ok n : n <= 100 -> takes_all n (fun _ => net_ex) /\ working net_ex.
Proof.
  intros N. split.
  - intros k i. exists 100. auto.
  - split; [discriminate|]. split; [reflexivity|]. split; [|discriminate]. intros i. exists 5. split; [reflexivity|lia].
Qed.

(* A backup of an image with leading zeros, byte by byte, restored to a larger
   image. *)
Example backup_ex :
  exists out c1 c2,
  download (srv_of 10) (fun _ => net_ex) dumps_ex false None (client_of 10 image_ex) = (inl tt, out, c1) /\
  out = text "meta 0000000000000000 0000000000000020" ++ CRLF ++
        text "000000000000000a0000000000000008" ++ CRLF ++
        text "zero 0000000000000000 0000000000000002" ++ CRLF ++
        text "data 0000000000000002 0000000000000008" ++ CRLF ++
        [x03; x04; x05; x06; x07; x08; x09; x0a] ++ CRLF ++
        text "stop 0000000000000000 0000000000000000" ++ CRLF /\
  upload (srv_of 12) (fun _ => net_ex) loads_ex None out (client_of 12 (repeat xff 12)) = (inl tt, c2) /\
  img c2 = image_ex ++ [xff; xff] /\ iw_log (h_world (c_back c2)) <> [] /\
  TransferSpec.fresh 10 (c_back (client_of 10 image_ex)) /\ ApiTheorems.fresh (client_of 12 (repeat xff 12)).
Proof.
  eexists _, _, _. split; [vm_compute; reflexivity|]. split; [vm_compute; reflexivity|].
  split; [vm_compute; reflexivity|]. repeat split. vm_compute. discriminate.
Qed.

(* An incremental backup, restored to the old image. *)
Example incremental_ex :
  exists out c1 c2,
  let old := [x00; x00; x03; x04] ++ repeat xaa 6 in
  download (srv_of 10) (fun _ => net_ex) dumps_ex true None (client_of 10 image_ex) = (inl tt, out, c1) /\
  upload (srv_of 10) (fun _ => net_ex) loads_ex None out (client_of 10 old) = (inl tt, c2) /\
  img c2 = image_ex /\ tracked (fun _ => senv_of 10) image_ex old.
Proof.
  eexists _, _, _. split; [vm_compute; reflexivity|]. split; [vm_compute; reflexivity|]. split; [reflexivity|].
  intros i l e [= <-] [<-|[<-|[]]] W; [|discriminate]. intros j J. unfold within in J. cbn in J.
  assert (C : j = 0 \/ j = 1 \/ j = 2 \/ j = 3) by lia. destruct C as [->|[->|[->| ->]]]; reflexivity.
Qed.

Example downloads_ex :
  (forall i, usable (lit "id") 10 ((fun _ : nat => senv_of 10) i)) /\ truthful true 10 (fun _ => senv_of 10) /\
  takes_all 10 (fun _ => net_ex) /\ working net_ex /\ (forall n m b, small (zlen (dumps_ex n m b))) /\
  (forall n m b, small n -> loads_ex (dumps_ex n m b) = Some n) /\
  (exists xs, fst (cl_extents (srv_of 10) true (client_of 10 image_ex)) = inl xs) /\
  fst (cl_size (srv_of 12) (client_of 12 (repeat xff 12))) = inl 12 /\
  willing (lit "id") 12 (senv_of 12) /\ patient 12 (senv_of 12).
Proof.
  split; [intros i; apply usable_ex; lia|]. split; [apply truthful_ex; lia|]. split; [apply net_ok; lia|].
  split; [apply (net_ok 10); lia|]. split.
  { intros n m b. unfold dumps_ex. rewrite !zlen_app, !number_length. destruct b; vm_compute; split; congruence. }
  split.
  { intros n m b N. unfold loads_ex, dumps_ex.
    destruct (take_app_eq (number n) (number m ++ (if b then text "+" else [])) 16 (number_length n)) as (-> & _).
    apply int16_number. auto. }
  split; [eexists; vm_compute; reflexivity|]. split; [vm_compute; reflexivity|].
  split; [apply willing_ex; lia|]. intros bs buf [= <- <-]. vm_compute. congruence.
Qed.

(* The stream of an interrupted backup: no prefix that misses more than 17
   bytes is restored, here all of them. *)
Example truncated_ex :
  let s := stream_of (dumps_ex 10 8 false) [FZero 0 2; FData 2 [x03; x04; x05; x06; x07; x08; x09; x0a]] in
  zlen s = 204 /\
  forallb (fun n => match fst (upload (srv_of 10) (fun _ => net_ex) loads_ex None (take (Z.of_nat n) s)
                                      (client_of 10 (repeat xff 10))) with inl _ => false | inr _ => true end)
    (seq 0 187) = true.
Proof. vm_compute. split; reflexivity. Qed.

(* ---- findings ---- *)

(* A stream whose stop frame is not complete is accepted. *)
Theorem incomplete_stop_frame_refused_refuted :
  exists id total envs nets loads meta fs p q (c : client iworld) c',
  (forall i, usable id total (envs i)) /\ ApiTheorems.fresh c /\ zlen (img c) = total /\
  Forall valid fs /\ stream_of meta fs = p ++ q /\ zlen q = 17 /\
  upload (imageio id envs) nets loads None p c = (inl tt, c').
Proof.
  exists (lit "id"), 10, (fun _ => senv_of 10), (fun _ => net_ex), loads_ex, (dumps_ex 10 0 false), [FZero 0 10].
  exists (take 137 (stream_of (dumps_ex 10 0 false) [FZero 0 10])), (drop 137 (stream_of (dumps_ex 10 0 false) [FZero 0 10])).
  eexists (client_of 10 (repeat xff 10)), _.
  split; [intros i; apply usable_ex; lia|]. split; [repeat split|]. split; [reflexivity|].
  split; [repeat constructor; vm_compute; congruence|]. split; [vm_compute; reflexivity|].
  split; vm_compute; reflexivity.
Qed.
Print Assumptions incomplete_stop_frame_refused_refuted.

(* Documented is "data-size: number of bytes in data frames".  In an
   incremental backup it counts data that was not changed and is not in the
   stream. *)
Theorem data_size_of_incremental_backup_refuted :
  exists id total envs nets (c : client iworld) out c' size fs,
  (forall i, usable id total (envs i)) /\ truthful true total envs /\ takes_all total nets /\
  TransferSpec.fresh total (c_back c) /\ c_closed c = false /\
  download (imageio id envs) nets dumps_ex true None c = (inl tt, out, c') /\
  out = stream_of (dumps_ex total size true) fs /\ small size /\ size <> data_bytes fs.
Proof.
  exists (lit "id"), 10, (fun _ => senv_of 10), (fun _ => net_ex).
  eexists (client_of 10 image_ex), _, _, 10, [FData 4 (drop 4 image_ex)].
  split; [intros i; apply usable_ex; lia|]. split; [apply truthful_ex; lia|]. split; [apply net_ok; lia|].
  split; [repeat split|]. split; [reflexivity|]. split; [vm_compute; reflexivity|].
  split; [vm_compute; reflexivity|]. split; [vm_compute; split; congruence|]. vm_compute. discriminate.
Qed.
Print Assumptions data_size_of_incremental_backup_refuted.

Example unknown_ex : is_kind "hole" /\ small 5 /\ "hole"%string <> "meta"%string /\ ~ In "hole"%string ["data"; "zero"; "stop"]%string.
Proof.
  split; [split; [reflexivity|intros [H|[H|[H|[H|[]]]]]; discriminate]|].
  split; [vm_compute; split; congruence|]. split; [discriminate|]. intros [H|[H|[H|[]]]]; discriminate.
Qed.

(* Too small, and not a stream. *)
Example refused_ex :
  let s := stream_of (dumps_ex 10 8 false) [FZero 0 2; FData 2 [x03; x04]] in
  fst (upload (srv_of 8) (fun _ => net_ex) loads_ex None s (client_of 8 (repeat xff 8))) = inr SRuntime /\
  fst (upload (srv_of 12) (fun _ => net_ex) loads_ex None (take 20 s) (client_of 12 (repeat xff 12))) = inr SValue /\
  fst (upload (srv_of 12) (fun _ => net_ex) loads_ex None (drop 74 s) (client_of 12 (repeat xff 12))) = inr SRuntime.
Proof. vm_compute. repeat split. Qed.
