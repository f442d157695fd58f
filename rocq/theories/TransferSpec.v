(* What the properties of uploads and downloads mean. *)
From Coq Require Import ZArith List Bool.
From Coq.Strings Require Import Byte.
From Verif Require Import BytesLib HeaderModel OpsModel ImagesModel ExtentsModel ExtentsSpec ClientIoModel
  ClientIoSpec HttpBackendModel HttpBackendSpec TransferModel.
Import ListNotations.
Open Scope Z_scope.

(* A backend connected to a server with an image of [total] bytes, that did
   not ask for the size or the extents yet. *)
Definition fresh (total : Z) (b : hb iworld) : Prop :=
  zlen (iw_img (h_world b)) = total /\ h_size b = None /\ h_zero b = None /\ h_dirty b = None.

(* The images at both ends. *)
Definition server_image (s : tst) : list byte := iw_img (t_world s).
Definition local_image (s : tst) : list byte := t_local s.
Definition server_log (s : tst) : list effect := iw_log (t_world s).

(* copy() returned: without an exception, or in any way. *)
Definition succeeded (s : tst) : Prop := main (t_core s) = MDone true.
Definition ended (s : tst) : Prop := exists ok, main (t_core s) = MDone ok.

(* The server reports extents that cover its image, and what it reports as
   zero is zero. *)
Definition truthful (dirty : bool) (total : Z) (envs : nat -> senv) : Prop :=
  forall i img l, zlen img = total -> se_ext (envs i) dirty img = Some l ->
  tiles 0 total l /\ honest_extents dirty img l.

(* In this step a call of a backend raised in a worker, or something raised in
   the main thread while it added workers and went over the extents. *)
Definition raised (i : nat) (s s' : tst) : Prop :=
  exists w w', nth_error (workers (t_core s)) i = Some w /\ uses_backend (w_state w) /\
    nth_error (workers (t_core s')) i = Some w' /\ w_state w' = WError.
Definition texception (l : tlabel) (s s' : tst) : Prop :=
  match l with
  | TMain _ => False
  | TMainFail => True
  | TWorker i _ _ => raised i s s'
  end.

(* The starts of transfers with a usable server. *)
Inductive transfer (id : str) (total : Z) (envs : nat -> senv) (n : Z) : tconfig -> tst -> Prop :=
| an_upload : forall buffer_size backing_chain disk_is_zero exts b src,
    0 < buffer_size -> fresh total b ->
    tiles 0 (zlen src) exts -> honest_extents false src exts ->
    transfer id total envs n
      (upload_config id envs buffer_size backing_chain disk_is_zero exts) (tinit Up n b src)
| a_download : forall buffer_size qcow2 incremental backing_file b c b1 size new,
    0 < buffer_size -> fresh total b -> 0 < total ->
    truthful incremental total envs ->
    download_start id envs qcow2 buffer_size incremental backing_file b = Some (c, b1, size) ->
    transfer id total envs n c (tinit Down n b1 new).

(* Nothing goes wrong in this step: no exceptions, reads from the connection and
   from the local image give something, everything is sent. *)
Definition calm (l : tlabel) : Prop :=
  match l with
  | TMain _ => True
  | TMainFail => False
  | TWorker _ _ a =>
      ta_ok a = true /\ ta_zero a = None /\
      (forall i, n_read (ta_net a) i <> None) /\ (forall i, n_send (ta_net a) i = SendOk) /\
      (forall i, exists k, n_src (ta_net a) i = Some k /\ 0 < k) /\
      (forall i, n_dst (ta_net a) i <> None)
  end.
