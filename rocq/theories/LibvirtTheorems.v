From Coq Require Import ZArith List Bool Lia String.
From Verif Require Import BytesLib HeaderModel HeaderSpec HttpModel OpsModel OpsTheorems ImagesModel ImagesSpec ExtentsModel ExtentsSpec
  ClientIoSpec HttpBackendModel HttpBackendSpec HttpBackendProofs HttpBackendTheorems ApiModel ApiSpec ApiProofs ApiTheorems
  TransferSpec TransferProofs StreamSpec StreamProofs StreamTheorems LibvirtModel LibvirtSpec LibvirtProofs.
Import ListNotations.
Open Scope Z_scope.

(* ---- C84: copying a libvirt volume ---- *)

(* Any stream.  Nothing changes if the image is smaller than the volume, and
   nothing outside of the runs of data, the holes and the rest of the image
   changes in any case.  If the copy succeeds, every run of data and every hole
   was written in their order, at the number of bytes of data before it; then
   the rest was zeroed, all was flushed, and the progress is complete if the
   stream had the size of the volume. *)
Theorem libvirt_copy_writes :
  forall id total envs, (forall i, usable id total (envs i)) ->
  forall nets answers src_size s fails unfinished c r done c',
  ApiTheorems.fresh c -> zlen (img c) = total -> durable (iw_log (h_world (c_back c))) -> sound s ->
  copy (imageio id envs) nets answers src_size s fails unfinished c = (r, done, c') ->
  zlen (img c') = total /\
  (total < src_size -> r <> inl tt /\ img c' = img c) /\
  (forall i, i < src_size -> (forall f, In f (packed 0 [] s) -> ~ inside f i) -> getb (img c') i = getb (img c) i) /\
  (r = inl tt ->
     unfinished = false /\ fails = None /\ c_closed c' = true /\
     src_size <= total /\ durable (iw_log (h_world (c_back c'))) /\ done = zlen (contents s) + (total - src_size) /\
     exists im, restored (packed 0 [] s) (img c) im /\
       replaced im (img c') src_size (total - src_size) (fun _ => x00)).
Proof.
  intros id total envs U nets answers src s fails unf c r done c' F L D S E.
  assert (OK : st_ok total c) by (apply fresh_st_ok; auto).
  unfold copy in E. destruct (copy_body _ _ _ _ _ _) as [[r1 d1] c1] eqn:B.
  assert (CF : c_closed c1 = false).
  { unfold copy_body in B. destruct (cl_size (imageio id envs) c) as [x c2] eqn:SZ.
    eapply size_ok in SZ as (OK1 & _ & _); eauto.
    destruct x as [dst|e]; [|injection B as <- <- <-; apply OK1].
    destruct (dst <? src); [injection B as <- <- <-; apply OK1|].
    destruct (iter_frames answers buffer_size s) as [fs e] eqn:IF. unfold iter_frames in IF.
    apply iter_ok in IF as (G & _ & _ & _); auto; [|reflexivity|lia|split; [lia|reflexivity]].
    destruct (copy_loop (imageio id envs) nets 0 fs 0 c2) as [[r2 d2] c3] eqn:C.
    eapply copy_ok in C as (I2 & C2 & O2 & R2); eauto.
    destruct r2 as [[]|y]; [destruct e as [[]|z]|]; try (injection B as <- <- <-; auto; fail).
    destruct (R2 eq_refl) as (OK2 & _ & _).
    assert (FL : forall c4 c5 r4, st_ok total c4 -> cl_flush (imageio id envs) c4 = (r4, c5) -> c_closed c5 = false).
    { intros c4 c5 r4 OK4 X. eapply (flush_ok id total envs nets) in X as (_ & _ & X & _); eauto. }
    destruct (Z.ltb_spec src dst).
    - destruct (cl_zero _ _ _ _ _) as [y c4] eqn:W. eapply zero_ok in W as (I3 & C3 & O3 & R3); eauto; [|lia].
      destruct y as [z|y]; [|injection B as <- <- <-; auto]. destruct (R3 z eq_refl) as (OK4 & _).
      destruct (cl_flush _ _) as [y c5] eqn:X. apply FL in X; auto. destruct y; injection B as <- <- <-; auto.
    - destruct (cl_flush _ _) as [y c5] eqn:X. apply FL in X; auto. destruct y; injection B as <- <- <-; auto. }
  eapply copy_body_ok in B as ((L1 & _) & O1 & T1 & R1); eauto.
  unfold cl_close in E. rewrite CF in E.
  assert (X : img c' = img c1 /\ c_back c' = c_back c1 /\ done = d1 /\
     (r = inl tt -> r1 = inl tt /\ unf = false /\ fails = None /\ c_closed c' = true)).
  { destruct fails, r1 as [[]|], unf; injection E as <- <- <-; (split; [auto|split; [auto|split; [auto|]]]);
      intros H; try discriminate; auto. }
  destruct X as (IM & CB & -> & X). rewrite IM, CB. split; auto. split.
  { intros H. split; auto. intros R. apply X in R as (R & _). apply R1 in R. lia. }
  split; auto. intros R. destruct (X R) as (R0 & -> & -> & CC). destruct (R1 R0) as (A & A1 & A2 & A3). auto 10.
Qed.
Print Assumptions libvirt_copy_writes.

(* A stream with the contents of the volume, and no data after a hole: after a
   copy that succeeded the image has the contents of the volume and zeros after
   them, on storage, and the progress is complete. *)
Theorem libvirt_copy_is_right :
  forall id total envs, (forall i, usable id total (envs i)) ->
  forall nets answers s fails unfinished c done c',
  ApiTheorems.fresh c -> zlen (img c) = total -> durable (iw_log (h_world (c_back c))) ->
  sound s -> hole_last s ->
  copy (imageio id envs) nets answers (zlen (contents s)) s fails unfinished c = (inl tt, done, c') ->
  img c' = contents s ++ repeat x00 (Z.to_nat (total - zlen (contents s))) /\
  durable (iw_log (h_world (c_back c'))) /\ done = total /\ c_closed c' = true.
Proof.
  intros id total envs U nets answers s fails unf c done c' F L D S H E.
  destruct (libvirt_copy_writes _ _ _ U _ _ _ _ _ _ _ _ _ _ F L D S E) as (LL & _ & _ & R).
  destruct (R eq_refl) as (_ & _ & CC & LE & DU & -> & im & RS & RZ).
  split; [|split; [auto|split; [lia|auto]]].
  apply packed_last in RS; auto; [|lia]. cbn [app] in RS. pose proof (zlen_nonneg (contents s)) as P.
  destruct RS as (A1 & A2 & A3), RZ as (B1 & B2 & B3).
  assert (Z : zlen (repeat x00 (Z.to_nat (total - zlen (contents s)))) = total - zlen (contents s))
    by (unfold zlen at 1; rewrite repeat_length; lia).
  apply bytes_ext; [rewrite zlen_app; lia|]. intros i I. rewrite getb_app by lia.
  destruct (Z.ltb_spec i (zlen (contents s))).
  - rewrite B2 by lia. rewrite A1 by lia. f_equal. lia.
  - rewrite B1 by lia. rewrite getb_nonneg by lia. symmetry. apply nth_repeat.
Qed.
Print Assumptions libvirt_copy_is_right.

(* ---- a copy succeeds ---- *)

Lemma send_size {W} o (s : hb W) sent data a l s1 : send o s sent data = (a, l, s1) -> h_size s1 = h_size s.
Proof. unfold send. destruct (n_send o (h_si s)); intros [= <- <- <-]; auto. Qed.

Lemma request_size {W} srv m (s : hb W) r s1 : request srv m s = (r, s1) -> h_size s1 = h_size s.
Proof. unfold request. destruct (srv _ _). intros [= <- <-]. auto. Qed.

Lemma put_finish_size {W} srv n b (s : hb W) r s1 : put_finish srv n b s = (r, s1) -> h_size s1 = h_size s.
Proof.
  unfold put_finish. destruct (request _ _ _) as [x s2] eqn:R. apply request_size in R.
  destruct x as [p|e]; [destruct (negb _)|]; intros [= <- <-]; auto.
Qed.

Lemma put_abort_size {W} srv n b e (s : hb W) r s1 : put_abort srv n b e s = (r, s1) -> h_size s1 = h_size s.
Proof.
  unfold put_abort. destruct (request _ _ _) as [x s2] eqn:R. apply request_size in R. intros [= <- <-]. auto.
Qed.

Lemma write_size {W} srv o b (s : hb W) r s1 : write srv o b s = (r, s1) -> h_size s1 = h_size s.
Proof.
  unfold write. destruct (send _ _ _ _) as [[a l] s2] eqn:S. apply send_size in S.
  destruct a; intros E; rewrite <- S; eauto using put_finish_size, put_abort_size.
Qed.

Lemma zero_loop_size {W} srv o : forall fuel n todo sent (s : hb W) r s1,
  zero_loop srv o fuel n todo sent s = (r, s1) -> h_size s1 = h_size s.
Proof.
  induction fuel as [|fuel IH]; intros n todo sent s r s1 E; cbn [zero_loop] in E; [injection E as <- <-; auto|].
  destruct (CHUNK <? todo).
  - destruct (send _ _ _ _) as [[a l] s2] eqn:S. apply send_size in S.
    destruct a; rewrite <- S; eauto using put_abort_size.
  - destruct (send _ _ _ _) as [[a l] s2] eqn:S. apply send_size in S.
    destruct a; rewrite <- S; eauto using put_abort_size, put_finish_size.
Qed.

Lemma zero_size {W} srv o n (s : hb W) r s1 : zero srv o n s = (r, s1) -> h_size s1 = h_size s.
Proof.
  unfold zero. destruct (negb _); [apply zero_loop_size|]. unfold patch_request.
  destruct (request _ _ _) as [x s2] eqn:R. apply request_size in R.
  destruct (cbind _ _); intros [= <- <-]; auto.
Qed.

Section Live.
Variables (id : str) (total : Z) (envs : nat -> senv) (nets : nat -> net).
Hypothesis ID : id <> [].
Hypothesis Wi : forall i, willing id total (envs i).
Hypothesis Pa : forall i, patient total (envs i).
Hypothesis WN : forall k, working (nets k).
Notation srv := (imageio id envs).

Lemma write_live o a d c : working o -> st_ok total c -> h_size (c_back c) = Some total -> d <> [] -> 0 <= a -> a + zlen d <= total ->
  exists c1, cl_write srv o a d c = (inl 0, c1) /\ h_size (c_back c1) = Some total.
Proof using ID Wi Pa.
  intros (NR & NS & _) ((L & _) & CL & _) HS N A T. unfold cl_write, cl_size, size. rewrite HS.
  destruct (Z.ltb_spec total (a + zlen d)); [lia|]. unfold at_offset, serve_of. cbn [with_back c_closed c_back]. rewrite CL.
  cbn [seek snd Z.eqb].
  destruct (write_over_http_succeeds id total envs o d (set_pos (c_back c) a)) as (s2 & E); auto.
  rewrite E. eexists. split; [reflexivity|]. apply write_size in E. cbn [c_back with_back]. rewrite E. auto.
Qed.

Lemma zero_live' o a n c : working o -> st_ok total c -> h_size (c_back c) = Some total -> 0 < n -> 0 <= a -> a + n <= total ->
  exists c1, cl_zero srv o a n c = (inl 0, c1) /\ h_size (c_back c1) = Some total.
Proof using ID Wi Pa.
  intros WO OK HS N A T. destruct (zero_live id total envs ID Wi Pa o a n c) as (c1 & E & _); auto. exists c1. split; auto.
  unfold cl_zero in E. destruct (zero _ _ _ _) as [x s] eqn:Z. injection E as _ <-. apply zero_size in Z.
  cbn [c_back with_back]. rewrite Z. auto.
Qed.

Lemma copy_live : forall fs k done c,
  Forall good fs -> Forall (fun f => fstart (vf f) + flength (vf f) <= total) fs ->
  st_ok total c -> h_size (c_back c) = Some total ->
  exists done' c', copy_loop srv nets k fs done c = (inl tt, done', c') /\ st_ok total c' /\ h_size (c_back c') = Some total.
Proof using ID Wi Pa WN.
  assert (U := U_of id total envs Wi).
  induction fs as [|f fs IH]; intros k done c G T OK HS; [cbn; eauto|].
  inversion G as [|? ? G1 G2]; inversion T as [|? ? T1 T2]; subst. destruct f as [[a n] [d|]]; cbn [copy_loop].
  - destruct G1 as (-> & DN & A). destruct d as [|b d]; [congruence|]. remember (b :: d) as l.
    destruct (write_live (nets k) a l c) as (c1 & E & HS1); auto. rewrite E.
    eapply write_ok in E as (_ & _ & _ & R); eauto. destruct (R 0 eq_refl) as (OK1 & _).
    destruct (IH (S k) (done + zlen l) c1) as (d' & c' & -> & X); eauto.
  - destruct G1 as (N & A). destruct (zero_live' (nets k) a n c) as (c1 & E & HS1); auto. rewrite E.
    eapply zero_ok in E as (_ & _ & _ & R); eauto; [|lia]. destruct (R 0 eq_refl) as (OK1 & _).
    destruct (IH (S k) (done + n) c1) as (d' & c' & -> & X); eauto.
Qed.
End Live.

Lemma packed_bound : forall s off run f i, sound s -> 0 <= off -> In f (packed off run s) -> inside f i ->
  i < off + zlen run + zlen (contents s).
Proof.
  induction s as [|[d|n] s IH]; intros off run f i S O I F; cbn [packed contents] in *.
  - destruct I as [<-|[]]. unfold inside in F. cbn [fstart flength] in F. change (zlen (@nil byte)) with 0. lia.
  - apply IH with (i := i) in I; auto.
    + rewrite zlen_app in *. lia.
    + intros z J. apply S. right. auto.
  - assert (N : 0 < n) by (apply S; left; auto). rewrite zlen_app.
    assert (Z : zlen (repeat x00 (Z.to_nat n)) = n) by (unfold zlen; rewrite repeat_length; lia). rewrite Z.
    pose proof (zlen_nonneg (contents s)). pose proof (zlen_nonneg run).
    destruct I as [<-|[<-|I]]; try (unfold inside in F; cbn [fstart flength] in F; lia).
    apply IH with (i := i) in I; auto; [|intros z J; apply S; right; auto|lia].
    change (zlen (@nil byte)) with 0 in I. lia.
Qed.

(* A copy succeeds if the stream and the server do what they are asked, the
   server told the size, and the image is large enough. *)
Theorem libvirt_copy_succeeds :
  forall id total envs nets answers src_size s c,
  id <> [] -> (forall i, willing id total (envs i)) -> (forall i, patient total (envs i)) ->
  (forall k, working (nets k)) -> flowing answers ->
  ApiTheorems.fresh c -> zlen (img c) = total -> durable (iw_log (h_world (c_back c))) ->
  fst (cl_size (imageio id envs) c) = inl total ->
  sound s -> zlen (contents s) <= src_size -> src_size <= total ->
  exists done c', copy (imageio id envs) nets answers src_size s None false c = (inl tt, done, c').
Proof.
  intros id total envs nets answers src s c ID Wi Pa WN FL F L D SZ S C T.
  assert (U := U_of id total envs Wi).
  assert (OK : st_ok total c) by (apply fresh_st_ok; auto).
  unfold copy, copy_body. destruct (cl_size _ _) as [x c1] eqn:E. cbn [fst] in SZ. subst x.
  assert (HS : h_size (c_back c1) = Some total).
  { unfold cl_size in E. destruct (size _ _) as [y s1] eqn:Z. injection E as -> <-.
    apply size_eq in Z as (_ & _ & _ & _ & _ & _ & _ & HS). cbn [c_back with_back]. auto. }
  eapply size_ok in E as (OK1 & _); eauto.
  destruct (Z.ltb_spec total src); [lia|].
  destruct (iter_frames answers buffer_size s) as [fs e] eqn:IF. unfold iter_frames in IF.
  apply iter_ok in IF as (G & FI & _ & EN); auto; [|reflexivity|lia|split; [lia|reflexivity]].
  rewrite (EN FL) by lia.
  assert (B : Forall (fun f => fstart (vf f) + flength (vf f) <= total) fs).
  { apply Forall_forall. intros f I. rewrite Forall_forall in G. specialize (G f I).
    assert (P : 0 < flength (vf f)).
    { destruct f as [[a n] [d|]]; cbn [vf flength good] in *; [|lia]. destruct G as (_ & DN & _).
      destruct d; [congruence|]. rewrite zlen_cons. pose proof (zlen_nonneg d). lia. }
    destruct (FI (fstart (vf f) + flength (vf f) - 1)) as (g & Ig & Hg).
    { exists (vf f). split; [apply in_map; auto|]. unfold inside. lia. }
    pose proof (packed_bound s 0 [] g _ S (Z.le_refl 0) Ig Hg) as PB. change (zlen (@nil byte)) with 0 in PB. lia. }
  destruct (copy_live id total envs nets ID Wi Pa WN fs 0 0 c1) as (d1 & c2 & -> & OK2 & HS2); auto.
  assert (FLU : forall c3, st_ok total c3 -> exists c4, cl_flush (imageio id envs) c3 = (inl 0, c4) /\ c_closed c4 = false).
  { intros c3 (_ & CL3 & _). unfold cl_flush, serve_of. rewrite CL3.
    destruct (flush_over_http_succeeds id total envs (c_back c3)) as (s' & ->); auto. eexists. split; [reflexivity|]. auto. }
  destruct (Z.ltb_spec src total).
  - pose proof (zlen_nonneg (contents s)).
    destruct (zero_live' id total envs ID Wi Pa (nets (List.length fs)) src (total - src) c2) as (c3 & Z & HS3); auto; try lia.
    rewrite Z. eapply zero_ok in Z as (_ & _ & _ & Z); eauto; [|lia]. destruct (Z 0 eq_refl) as (OK3 & _).
    destruct (FLU c3 OK3) as (c4 & -> & CL4). unfold cl_close. rewrite CL4. eauto.
  - destruct (FLU c2 OK2) as (c4 & -> & CL4). unfold cl_close. rewrite CL4. eauto.
Qed.
Print Assumptions libvirt_copy_succeeds.

(* ---- examples ---- *)

Definition answers_ex : nat -> answer := fun k => AGives (Z.of_nat k + 1).
Definition volume_ex : list segment := [SegData [x01; x02; x03]; SegData []; SegData [x04; x05]; SegHole 3].

Example volume_ok : sound volume_ex /\ hole_last volume_ex /\ flowing answers_ex /\
  contents volume_ex = [x01; x02; x03; x04; x05; x00; x00; x00].
Proof.
  split; [|split; [reflexivity|split; [|reflexivity]]].
  - intros n [H|[H|[H|[H|[]]]]]; try discriminate. injection H as <-. lia.
  - intros k. eexists. reflexivity.
Qed.

(* The example meets the hypotheses of the theorems. *)
Example libvirt_copy_ex :
  exists c', copy (srv_of 10) (fun _ => net_ex) answers_ex 8 volume_ex None false (client_of 10 (repeat xff 10))
    = (inl tt, 10, c') /\
  img c' = [x01; x02; x03; x04; x05; x00; x00; x00; x00; x00] /\
  iw_log (h_world (c_back c')) = [EWrite 0 2; EWrite 2 2; EWrite 4 1; EZero 5 2; EZero 7 1; EZero 8 2; EFlush].
Proof. eexists. split; [vm_compute; reflexivity|]. split; reflexivity. Qed.

Example libvirt_copy_can_succeed :
  exists done c', copy (srv_of 10) (fun _ => net_ex) answers_ex 8 volume_ex None false (client_of 10 (repeat xff 10))
    = (inl tt, done, c').
Proof.
  apply libvirt_copy_succeeds with (total := 10).
  - discriminate.
  - intros i. apply willing_ex. lia.
  - intros i bs buf [= <- <-]. vm_compute. discriminate.
  - intros k. apply (net_ok 10). lia.
  - apply volume_ok.
  - repeat split.
  - reflexivity.
  - intros [|? ?] f b H; discriminate.
  - vm_compute. reflexivity.
  - apply volume_ok.
  - vm_compute. discriminate.
  - lia.
Qed.

(* A stream that fails in the middle, an image that is too small, and errors
   of libvirt and the client in the end. *)
Example libvirt_fails_ex :
  (exists c', copy (srv_of 10) (fun _ => net_ex) (fun k => if (k <? 2)%nat then AGives 2 else AFails) 8 volume_ex None false
     (client_of 10 (repeat xff 10)) = (inr LLibvirt, 0, c') /\ img c' = repeat xff 10) /\
  fst (fst (copy (srv_of 10) (fun _ => net_ex) answers_ex 11 volume_ex None false (client_of 10 (repeat xff 10)))) = inr LRuntime /\
  fst (fst (copy (srv_of 10) (fun _ => net_ex) answers_ex 8 volume_ex None true (client_of 10 (repeat xff 10)))) = inr LLibvirt /\
  fst (fst (copy (srv_of 10) (fun _ => net_ex) answers_ex 8 volume_ex (Some XConn) false (client_of 10 (repeat xff 10))))
    = inr (LClient XConn).
Proof. split; [eexists; split; vm_compute; reflexivity|]. split; [|split]; vm_compute; reflexivity. Qed.

(* ---- findings ---- *)

(* The offset is not advanced by a hole: data after a hole is written at the
   start of the hole, and the copy succeeds. *)
Theorem data_after_holes_refuted :
  exists id total envs nets answers s (c c' : client iworld),
  (forall i, usable id total (envs i)) /\ ApiTheorems.fresh c /\ zlen (img c) = total /\
  sound s /\ flowing answers /\ zlen (contents s) = total /\
  copy (imageio id envs) nets answers total s None false c = (inl tt, total, c') /\
  img c' <> contents s.
Proof.
  exists (lit "id"), 10, (fun _ => senv_of 10), (fun _ => net_ex), answers_ex.
  exists [SegData [x01; x02; x03]; SegHole 3; SegData [x04; x05; x06; x07]].
  eexists (client_of 10 (repeat xff 10)), _.
  split; [intros i; apply usable_ex; lia|]. split; [repeat split|]. split; [reflexivity|].
  split; [intros n [H|[H|[H|[]]]]; try discriminate; injection H as <-; lia|].
  split; [apply volume_ok|]. split; [reflexivity|]. split; [vm_compute; reflexivity|]. vm_compute. discriminate.
Qed.
Print Assumptions data_after_holes_refuted.
