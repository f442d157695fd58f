(* Model of upload() and download() of ovirt_imageio/client/_api.py: the copy
   of client/_io.py (ClientIoModel) with the HTTP backend on one side
   (HttpBackendModel), connected to the imageio server (ImagesModel), and a
   local image served by qemu-nbd on the other side.

   The worker threads, the queue and the main thread are those of
   ClientIoModel; what a worker does for a request are the calls of the
   backends.  One request of a worker is one step: the requests of several
   workers are served in any order, but one after the other (simplified; the
   server handles connections in parallel).  The NBD backend is the array that
   it was proved to be (NbdBackendTheorems), its calls can raise.
   Not modelled: starting qemu-nbd (_api.py:485-511), tar members, the choice
   of the proxy (514-526), and closing the backends when copy() returned. *)
From Coq Require Import ZArith List Bool String Ascii.
From Coq.Strings Require Import Byte.
From Verif Require Import BytesLib HeaderModel HttpModel OpsModel ImagesModel ExtentsModel
  ClientIoModel HttpBackendModel.
From Verif Require HttpBackendSpec.
Import ListNotations.
Open Scope Z_scope.

(* ---- the options of copy() ---- *)

(* _api.py:103-113: dirty, zero and hole for upload(). *)
Definition upload_flags (backing_chain disk_is_zero : bool) : bool * bool * bool :=
  (false, negb (disk_is_zero && backing_chain), backing_chain).

(* _api.py:182-191: dirty, zero and hole for download(). *)
Definition download_flags (incremental : bool) (backing_file : option str) : bool * bool * bool :=
  (incremental, match backing_file with Some _ => true | None => false end, false).

(* ---- extents from the server ---- *)

(* extent.py:33-38 and 78-83 (ext.data is not ext.zero), and the uses of an
   extent in _io.py:79-90, 111-121.  Simplified: an extent whose start or
   length is not an integer makes the copy fail; in Python some other values
   would fail later. *)
Definition extent_of (dirty : bool) (x : jext) : option image_extent :=
  match x_start x, x_length x with
  | JInt start, JInt length =>
      Some (if dirty then DirtyExtent start length (truthy (x_third x)) (truthy (x_fourth x))
            else ZeroExtent start length (truthy (x_third x)) (truthy (x_fourth x)))
  | _, _ => None
  end.
Fixpoint extents_of_json (dirty : bool) (l : list jext) : option (list image_extent) :=
  match l with
  | [] => Some []
  | x :: l =>
      match extent_of dirty x, extents_of_json dirty l with
      | Some e, Some r => Some (e :: r)
      | _, _ => None
      end
  end.

(* ---- the workers ---- *)

(* client/_api.py:35-115 upload, 118-193 download. *)
Inductive direction := Up | Down.

Record tconfig := TConfig {
  tc_id : str;                    (* the ticket in the transfer URL *)
  tc_envs : nat -> senv;          (* what happens in the server *)
  tc_dir : direction;
  tc_buffer : Z;                  (* len(handler._buf), _io.py:40, 271 *)
  tc_plan : list action           (* what the main thread does, ClientIoModel.plan *)
}.
Definition serve (c : tconfig) := imageio (tc_id c) (tc_envs c).

(* What happens while a worker handles a request. *)
(* For the calls of client/_io.py:258-323. *)
Record tanswer := TAnswer {
  ta_ok : bool;            (* false: check_terminated() raises, or making,
                              flushing or closing a backend *)
  ta_net : net;            (* the connection to the server; n_src and n_dst are
                              the calls of the NBD backend *)
  ta_zero : option Z       (* NBD backend: None: zero() succeeds, Some n: it
                              raises, and n bytes were zeroed *)
}.

(* backends/nbd.py:111-118 write: all the data, or an exception. *)
Definition nbd_writer (length : Z) (o : net) : net :=
  Net (n_read o) (n_send o) (n_src o)
      (fun i => match n_dst o i with None => None | Some _ => Some length end).

(* _io.py:281-293 Handler.copy, the backend calls: whether they succeed, the
   HTTP backend after them, and the local image.  Uploading uses
   dst.read_from (286) with the NBD backend as reader at position start;
   downloading src.write_to (288), with the NBD backend as writer. *)
Definition handler_copy (c : tconfig) (a : tanswer) (start length : Z) (b : hb iworld)
  (local : list byte) : bool * hb iworld * list byte :=
  match seek (serve c) start 0 b with                                (* 282-283 *)
  | (inr _, b) => (false, b, local)
  | (inl _, b) =>
    match tc_dir c with
    | Up =>
        let '(r, _, b) := read_from (serve c) (ta_net a) (drop start local) length (tc_buffer c) b in
        (match r with inl _ => true | inr _ => false end, b, local)
    | Down =>
        let '(r, out, b) := write_to (serve c) (nbd_writer length (ta_net a)) length (tc_buffer c) b in
        (match r with inl _ => true | inr _ => false end, b, splice local start out)
    end
  end.

(* _io.py:274-279 Handler.zero, the backend calls. *)
Definition handler_zero (c : tconfig) (a : tanswer) (start length : Z) (b : hb iworld)
  (local : list byte) : bool * hb iworld * list byte :=
  match tc_dir c with
  | Up =>
      match seek (serve c) start 0 b with
      | (inr _, b) => (false, b, local)
      | (inl _, b) =>
          let (r, b) := HttpBackendModel.zero (serve c) (ta_net a) length b in
          (match r with inl _ => true | inr _ => false end, b, local)
      end
  | Down =>
      let n := done_of length (ta_zero a) in
      (match ta_zero a with None => true | Some _ => false end, b,
       splice local start (zeros n))
  end.

(* _io.py:295-296 Handler.flush: dst.flush(). *)
Definition handler_flush (c : tconfig) (b : hb iworld) (local : list byte)
  : bool * hb iworld * list byte :=
  match tc_dir c with
  | Up =>
      let (r, b) := HttpBackendModel.flush (serve c) b in
      (match r with inl _ => true | inr _ => false end, b, local)
  | Down => (true, b, local)      (* failing is ta_ok = false *)
  end.

(* The threads, with the HTTP backend of each worker: the field h_world of a
   backend is not used, the server is t_world.  The field dst of t_core is not
   used: the destination is the image of the server, or t_local. *)
(* The threads of client/_io.py:36-70 and 233-256 and their backends. *)
Record tst := TSt {
  t_core : ClientIoModel.st;
  t_backends : list (hb iworld);
  t_world : iworld;
  t_local : list byte
}.

(* The threads do not see the content. *)
(* No code: links to ClientIoModel.v. *)
Definition core_config (c : tconfig) : config := Config [] Own (tc_buffer c) (tc_plan c).

(* No code: links to ClientIoModel.v. *)
Definition set_worker (i : nat) (w : worker) (s : ClientIoModel.st) : ClientIoModel.st :=
  St (main s) (set_nth i w (workers s)) (q s) (errors s) (dst s) (done s) (progress s).

(* The end of a request: the handler method returned (progress, 278-279 and
   292-293), or raised. *)
Definition finish_request (i : nat) (w : worker) (r : ClientIoModel.request) (ok : bool)
  (s : ClientIoModel.st) : ClientIoModel.st :=
  if ok then
    St (main s) (set_nth i (Wrk WIdle (w_buf w) true) (workers s)) (q s) (errors s) (dst s)
       (done s ++ [r]) (progress s + r_length r)
  else set_worker i (Wrk WError (w_buf w) true) s.

(* Worker i runs: _io.py:233-255.  In the states without backend calls the step
   is that of ClientIoModel. *)
Definition tworker_step (c : tconfig) (i k : nat) (a : tanswer) (s : tst) : option tst :=
  match nth_error (workers (t_core s)) i, nth_error (t_backends s) i with
  | Some w, Some b =>
      let b := HttpBackendSpec.put_world b (t_world s) in
      let handled (r : ClientIoModel.request) (x : bool * hb iworld * list byte) :=
        let '(ok, b, local) := x in
        Some (TSt (finish_request i w r ok (t_core s)) (set_nth i b (t_backends s)) (h_world b) local) in
      match w_state w with
      | WZero r =>
          handled r (if ta_ok a then handler_zero c a (r_start r) (r_length r) b (t_local s)
                     else (false, b, t_local s))                     (* 240 *)
      | WCopy r _ _ _ =>
          handled r (if ta_ok a then handler_copy c a (r_start r) (r_length r) b (t_local s)
                     else (false, b, t_local s))
      | WFlush =>
          let '(ok, b, local) := if ta_ok a then handler_flush c b (t_local s)
                                 else (false, b, t_local s) in
          Some (TSt (set_worker i (if ok : bool then Wrk WClosing (w_buf w) false
                                   else Wrk WError (w_buf w) (w_dirty w)) (t_core s))
                    (set_nth i b (t_backends s)) (h_world b) local)
      | _ =>
          match worker_step (core_config c) i k (Answer (ta_ok a) 0 None None) (t_core s) with
          | Some s' => Some (TSt s' (t_backends s) (t_world s) (t_local s))
          | None => None
          end
      end
  | _, _ => None
  end.

(* No code: which thread runs, and the answers it gets. *)
Inductive tlabel :=
| TMain (k : nat)
| TMainFail
| TWorker (i k : nat) (a : tanswer).

(* No code: links to ClientIoModel.v. *)
Definition with_core (s : tst) (x : option ClientIoModel.st) : option tst :=
  match x with
  | Some s' => Some (TSt s' (t_backends s) (t_world s) (t_local s))
  | None => None
  end.

(* client/_io.py:36-70 and 233-256, over the HTTP backend. *)
Definition tstep (c : tconfig) (l : tlabel) (s : tst) : option tst :=
  match l with
  | TMain k => if blocked Main (q (t_core s)) then None
               else with_core s (main_step (core_config c) k (t_core s))
  | TMainFail => if blocked Main (q (t_core s)) then None
                 else with_core s (main_fail (t_core s))
  | TWorker i k a => if blocked (Worker i) (q (t_core s)) then None else tworker_step c i k a s
  end.

(* No code: any sequence of steps. *)
Fixpoint texec (c : tconfig) (tr : list tlabel) (s : tst) : option tst :=
  match tr with
  | [] => Some s
  | l :: tr =>
    match tstep c l s with
    | Some s' => texec c tr s'
    | None => None
    end
  end.

(* _io.py:49-56: the backends of the workers: uploading, the first one uses
   dst, the others clones of it; downloading, all use clones of src.  A clone
   is made when its worker starts; the copied attributes (http.py:97-107) do
   not change before. *)
Definition backends_for (dir : direction) (n : Z) (b : hb iworld) : list (hb iworld) :=
  match dir with
  | Up => b :: repeat (HttpBackendModel.clone b) (Z.to_nat (n - 1))
  | Down => repeat (HttpBackendModel.clone b) (1 + Z.to_nat (n - 1))
  end.

(* _io.py:36-56: the state in which copy() starts; [b] is the HTTP backend. *)
Definition tinit (dir : direction) (n : Z) (b : hb iworld) (local : list byte) : tst :=
  TSt (init QUEUE_DEPTH n []) (backends_for dir n b) (h_world b) local.

(* _api.py:76-115 upload: the configuration of the copy; [exts] are the extents
   of the source, src.extents("zero"). *)
Definition upload_config (id : str) (envs : nat -> senv) (buffer_size : Z)
  (backing_chain disk_is_zero : bool) (exts : list image_extent) : tconfig :=
  let '(dirty, zero, hole) := upload_flags backing_chain disk_is_zero in
  TConfig id envs Up (Z.min buffer_size MAX_BUFFER_SIZE) (plan dirty zero hole exts).

(* _api.py:151-193 download, until the copy starts, for the connected HTTP
   backend [b]: the configuration of the copy, the state of the backend, and
   the size of the new local image.  The extents are asked for by the main
   thread of the copy, when the workers have nothing to do yet; here they are
   asked for before.  None is an exception. *)
Definition download_start (id : str) (envs : nat -> senv) (qcow2 : bool) (buffer_size : Z)
  (incremental : bool) (backing_file : option str) (b : hb iworld)
  : option (tconfig * hb iworld * Z) :=
  if incremental && negb qcow2 then None                             (* 151-154 *)
  else match HttpBackendModel.size (imageio id envs) b with          (* 168 *)
  | (inr _, _) => None
  | (inl n, b) =>
      let '(dirty, zero, hole) := download_flags incremental backing_file in
      match HttpBackendModel.extents (imageio id envs) dirty b with
      | (inr _, _) => None
      | (inl l, b) =>
          match extents_of_json dirty l with
          | None => None
          | Some exts =>
              Some (TConfig id envs Down (Z.min buffer_size MAX_BUFFER_SIZE)
                      (plan dirty zero hole exts), b, n)
          end
      end
  end.
