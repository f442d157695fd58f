(* Model of qemu_nbd.py, sockutil.wait_for_socket, qemu_img.create, and of the
   parts of client/_api.py that open and close things: _open_http, _open_nbd,
   upload, download, checksum, extents.  Paths are relative to
   /repo/ovirt_imageio/_internal, client/ is /repo/ovirt_imageio/client.

   A program makes calls, the environment answers; the calls and the answers
   are logged.  Times are integers (simplified: floats in the code).  Options are
   structured values, not the text of the command line; logging is not modelled.
   Exceptions are those of the calls: an exception raised by a signal handler
   between two calls is not modelled. *)
From Coq Require Import ZArith List Bool String.
From Verif Require ClientIoModel.
Import ListNotations.
Open Scope Z_scope.

(* ---- command line ---- *)

(* sockutil.py, nbd.py:289-310 addresses; OtherAddress has another transport. *)
Inductive address := Unix (path : string) | Tcp (host : string) (port : Z) | OtherAddress.

(* Block nodes of QEMU, as described by json:{...}.  [no_backing] is true for
   "backing": null. *)
(* The arguments built in qemu_nbd.py:90-170. *)
Inductive node :=
| NProtocol (driver filename : string)
| NRange (file : node) (offset size : option Z)
| NFormat (driver : string) (file : node) (no_backing : bool).

(* The arguments built in qemu_nbd.py:90-170. *)
Inductive opt :=
| OExportName (name : string) | OPersistent | OShared (n : Z)
| OSocket (path : string) | OBind (host : string) | OPort (port : Z)
| OReadOnly | OCache (mode : string) | OAio (mode : string) | ODiscard (mode : string)
| ODetectZeroes (mode : string) | OBitmap (name : string) | OAllocationDepth
| OImage (n : node).

(* qemu_nbd.py:27-83 Server.__init__; None is None. *)
Record server := Server {
  v_image : string; v_fmt : string; v_sock : address; v_export_name : string;
  v_read_only : bool; v_shared : Z;
  v_cache : option string; v_aio : option string;
  v_discard : string; v_detect_zeroes : string;
  v_bitmap : option string; v_backing_chain : bool;
  v_offset : option Z; v_size : option Z; v_timeout : Z
}.

(* Comparing tuples of integers, a >= b. *)
(* Python semantics, for qemu_nbd.py:90-170. *)
Fixpoint tuple_ge (a b : list Z) : bool :=
  match a, b with
  | _, [] => true
  | [], _ :: _ => false
  | x :: a, y :: b => if x =? y then tuple_ge a b else y <? x
  end.

(* A string that is not empty is true. *)
(* Python semantics, for qemu_nbd.py:90-170. *)
Definition truthy (s : string) : bool := negb (String.eqb s "").
(* Python semantics, for qemu_nbd.py:90-170. *)
Definition given (f : string -> opt) (s : string) : list opt := if truthy s then [f s] else [].

(* qemu_nbd.py:92-94, 96-98; [direct]: the image can be opened with O_DIRECT. *)
Definition cache_of (v : server) (direct : bool) : string :=
  match v_cache v with Some c => c | None => if direct then "none" else "writeback" end.
Definition aio_of (v : server) (direct : bool) : string :=
  match v_aio v with
  | Some a => a
  | None => if String.eqb (cache_of v direct) "none" then "native" else "threads"
  end.

Definition socket_options (a : address) : option (list opt) :=            (* 107-113 *)
  match a with
  | Unix p => Some [OSocket p]
  | Tcp h p => Some [OBind h; OPort p]
  | OtherAddress => None
  end.

(* qemu_nbd.py:136-146; None is RuntimeError. *)
Definition depth_options (v : server) (version : list Z) : option (list opt) :=
  if tuple_ge version [5; 2; 0]
  then Some (if String.eqb (v_fmt v) "raw" then [] else [OAllocationDepth])
  else if String.eqb (v_fmt v) "qcow2" && negb (v_backing_chain v) then None
  else Some [].

(* qemu_nbd.py:151-171 *)
Definition image_node (v : server) (block_device : bool) : node :=
  let file := NProtocol (if block_device then "host_device" else "file") (v_image v) in
  match v_offset v, v_size v with
  | None, None =>                                                          (* 166-171 *)
      NFormat (v_fmt v) file (String.eqb (v_fmt v) "qcow2" && negb (v_backing_chain v))
  | _, _ =>                                                                (* 154-165 *)
      let image := NRange file (v_offset v) (v_size v) in
      if String.eqb (v_fmt v) "qcow2" then NFormat "qcow2" image false else image
  end.

(* qemu_nbd.py:100-105, 115-131, 173: the command, for the socket and depth
   options. *)
Definition command (v : server) (direct block_device : bool) (sock depth : list opt) : list opt :=
  [OExportName (v_export_name v); OPersistent; OShared (v_shared v)] ++ sock ++
  (if v_read_only v then [OReadOnly] else []) ++
  given OCache (cache_of v direct) ++ given OAio (aio_of v direct) ++
  given ODiscard (v_discard v) ++ given ODetectZeroes (v_detect_zeroes v) ++
  (match v_bitmap v with Some b => given OBitmap b | None => [] end) ++
  depth ++ [OImage (image_node v block_device)].

(* ---- calls ---- *)

Inductive call :=
| CMkdtemp | CRmtree                     (* util.py:115-121 tmp_dir *)
| CVersion | CStat | CPopen (cmd : list opt)
| CConnect | CSleep (t : Z)
| CTerminate | CKill
| CReap (killed : bool)                  (* communicate(timeout) *)
| COpenHttp (proxy : bool) | CCloseHttp
| CInfo                                  (* info(): the tar file and qemu-img info *)
| CCreate                                (* src.size() and qemu-img create *)
| COpenNbd
| CWork.                                 (* the block of the with statement *)

(* AOk; ARefused: ECONNREFUSED or ENOENT; ATimeout: TimeoutExpired; AOs:
   another OSError; AError: any other exception. *)
(* The outcomes of the calls below, no code of its own. *)
Inductive answer := AOk | ARefused | ATimeout | AOs | AError.

(* The outcomes of the calls below, no code of its own. *)
Inductive exn := RuntimeError | ValueError | TimeoutExpired | OSError | OtherError.
(* The outcomes of the calls below, no code of its own. *)
Definition exn_of (a : answer) : exn :=
  match a with AOk | AError => OtherError | ARefused | AOs => OSError | ATimeout => TimeoutExpired end.

Record env := Env {
  e_answer : nat -> answer;              (* to the i-th call *)
  e_now : nat -> Z;                      (* the i-th reading of the clock *)
  e_version : list Z;
  e_direct : bool;                       (* 232-241 _can_use_direct_io *)
  e_block : bool                         (* 243-244 _is_block_device *)
}.

(* State and exception monad, no code of its own. *)
Record st := St {
  s_calls : nat;
  s_clock : nat;
  s_log : list (call * answer);          (* newest first *)
  s_proc : bool                          (* server.proc is not None *)
}.

(* State and exception monad, no code of its own. *)
Definition M (A : Type) := st -> (A + exn) * st.
(* State and exception monad, no code of its own. *)
Definition ret {A} (a : A) : M A := fun s => (inl a, s).
(* State and exception monad, no code of its own. *)
Definition raise {A} (e : exn) : M A := fun s => (inr e, s).
(* State and exception monad, no code of its own. *)
Definition bind {A B} (m : M A) (f : A -> M B) : M B :=
  fun s => match m s with (inl a, s') => f a s' | (inr e, s') => (inr e, s') end.
Notation "x <- m ;; k" := (bind m (fun x => k)) (at level 61, m at next level, right associativity).
Notation "m ;; k" := (bind m (fun _ => k)) (at level 61, right associativity).
(* try: m finally: f *)
(* State and exception monad, no code of its own. *)
Definition finally {A} (m : M A) (f : M unit) : M A :=
  fun s => let '(r, s1) := m s in
    match f s1 with (inl _, s2) => (r, s2) | (inr e, s2) => (inr e, s2) end.

Section Run.
Variable e : env.

(* No code: a call to the environment. *)
Definition ask (c : call) : M answer := fun s =>
  let a := e_answer e (s_calls s) in
  (inl a, St (S (s_calls s)) (s_clock s) ((c, a) :: s_log s) (s_proc s)).
(* A call that raises unless it succeeds. *)
(* No code: a call to the environment. *)
Definition do_ (c : call) : M unit :=
  a <- ask c ;; match a with AOk => ret tt | a => raise (exn_of a) end.
(* A call that cannot raise. *)
(* No code: a call to the environment. *)
Definition note (c : call) : M unit := fun s =>
  (inl tt, St (s_calls s) (s_clock s) ((c, AOk) :: s_log s) (s_proc s)).
(* No code: a call to the environment. *)
Definition now : M Z := fun s =>
  (inl (e_now e (s_clock s)), St (s_calls s) (S (s_clock s)) (s_log s) (s_proc s)).
(* No code: setting self._proc, qemu_nbd.py:90-205. *)
Definition set_proc (b : bool) : M unit := fun s =>
  (inl tt, St (s_calls s) (s_clock s) (s_log s) b).

(* ---- sockutil.py:66-102 wait_for_socket ---- *)

(* None: out of fuel.  check_connection (105-114) is one call. *)
Fixpoint wait_loop (fuel : nat) (deadline step : Z) : M (option bool) :=
  match fuel with
  | O => ret None
  | S fuel =>
      a <- ask CConnect ;;                                                 (* 85 *)
      match a with
      | AOk => ret (Some true)                                             (* 99-102 *)
      | ARefused =>
          t <- now ;;                                                      (* 91 *)
          if deadline <=? t then ret (Some false)                          (* 92-93 *)
          else note (CSleep (Z.min step (deadline - t))) ;;                (* 97-98 *)
               wait_loop fuel deadline step
      | a => raise (exn_of a)                                              (* 86-88 *)
      end
  end.
Definition wait_for_socket (fuel : nat) (timeout step : Z) : M (option bool) :=
  start <- now ;; wait_loop fuel (start + timeout) step.                   (* 78-79 *)

(* sockutil.py:66: step=0.02, in milliseconds here. *)
Definition STEP : Z := 20.

(* ---- qemu_nbd.py:187-205 Server.stop ---- *)

Definition stop : M unit := fun s =>
  (if s_proc s then
     note CTerminate ;;                                                    (* 190 *)
     a <- ask (CReap false) ;;                                             (* 193 *)
     match a with
     | AOk => set_proc false                                               (* 205 *)
     | ATimeout => note CKill ;; do_ (CReap true) ;; set_proc false        (* 194-197, 205 *)
     | a => raise (exn_of a)
     end
   else ret tt) s.

(* qemu_nbd.py:90-185 Server.start; None: out of fuel in wait_for_socket. *)
Definition start (fuel : nat) (v : server) : M (option unit) :=
  match socket_options (v_sock v) with
  | None => raise RuntimeError                                             (* 113 *)
  | Some sock =>
      do_ CVersion ;;                                                      (* 136 *)
      match depth_options v (e_version e) with
      | None => raise RuntimeError                                         (* 145-146 *)
      | Some depth =>
          do_ CStat ;;                                                     (* 151 *)
          do_ (CPopen (command v (e_direct e) (e_block e) sock depth)) ;;  (* 176-179 *)
          set_proc true ;;
          r <- wait_for_socket fuel (v_timeout v) STEP ;;                  (* 181 *)
          match r with
          | None => ret None
          | Some true => ret (Some tt)
          | Some false => stop ;; raise RuntimeError                       (* 182-183 *)
          end
      end
  end.

(* qemu_nbd.py:254-278 run *)
Definition run (fuel : nat) (v : server) (body : M unit) : M (option unit) :=
  r <- start fuel v ;;
  match r with
  | None => ret None
  | Some _ => finally (body ;; ret (Some tt)) stop
  end.

(* util.py:115-121 tmp_dir *)
Definition tmp_dir {A} (body : M A) : M A := do_ CMkdtemp ;; finally body (do_ CRmtree).

(* client/_api.py:485-511 _open_nbd.  The socket is in the new directory; the
   name of the directory is not modelled. *)
Definition open_nbd (fuel : nat) (filename fmt : string) (read_only : bool) (shared : Z)
  (bitmap : option string) (offset size : option Z) (backing_chain : bool) (body : M unit) : M (option unit) :=
  tmp_dir (run fuel (Server filename fmt (Unix "sock") "" read_only shared None None "unmap" "unmap"
                       bitmap backing_chain offset size 10000)
             (do_ COpenNbd ;; body)).

(* client/_api.py:514-526 _open_http; the answer AOs is OSError. *)
Definition open_http (proxy_url : bool) : M unit :=
  a <- ask (COpenHttp false) ;;
  match a with
  | AOk => ret tt
  | AOs | ARefused => if proxy_url then do_ (COpenHttp true) else raise OSError   (* 519-526 *)
  | a => raise (exn_of a)
  end.
(* backends/http.py:345-355: with on an http backend; an error in close() is
   raised unless there is another one. *)
Definition with_http {A} (proxy_url : bool) (body : M A) : M A :=
  open_http proxy_url ;;
  fun s => let '(r, s1) := body s in
    match ask CCloseHttp s1 with
    | (inl AOk, s2) => (r, s2)
    | (inl a, s2) => (match r with inl _ => inr (exn_of a) | inr x => inr x end, s2)
    | (inr x, s2) => (inr x, s2)
    end.

(* What qemu-img info tells, and the place of the member in the tar file,
   client/_api.py:196-212. *)
Record image_info := Info { i_format : string; i_offset : option Z; i_size : option Z }.

(* client/_api.py:35-115 upload; [max_writers] is that of the server. *)
Definition upload (fuel : nat) (filename : string) (proxy_url : bool) (max_writers max_workers : Z)
  (info : image_info) (backing_chain : bool) : M (option unit) :=
  with_http proxy_url (
    do_ CInfo ;;                                                           (* 86 *)
    open_nbd fuel filename (i_format info) true (Z.min max_writers max_workers + 1) None
      (i_offset info) (i_size info) backing_chain                          (* 90-97 *)
      (do_ CWork)).                                                        (* 100-115 *)

(* client/_api.py:118-193 download *)
Definition download (fuel : nat) (filename fmt : string) (incremental proxy_url : bool)
  (max_readers max_workers : Z) : M (option unit) :=
  if incremental && negb (String.eqb fmt "qcow2") then raise ValueError    (* 151-154 *)
  else with_http proxy_url (
    do_ CCreate ;;                                                         (* 165-171 *)
    open_nbd fuel filename fmt false (Z.min max_readers max_workers) None None None true   (* 176 *)
      (do_ CWork)).                                                        (* 179-193 *)

(* client/_api.py:233-262 checksum, 265-289 extents *)
Definition local (fuel : nat) (filename : string) (info : image_info) (bitmap : option string) : M (option unit) :=
  do_ CInfo ;;
  open_nbd fuel filename (i_format info) true 1 bitmap (i_offset info) (i_size info) true (do_ CWork).

End Run.

(* ---- connections during a copy ---- *)

(* client/_io.py:236, 260-272, 298-308: a worker connects when its handler is
   created and closes when it ends.  Simplified: it counts until it ended, also
   when it failed and closed already. *)
Definition connected (w : ClientIoModel.worker) : bool :=
  match ClientIoModel.w_state w with ClientIoModel.WNew | ClientIoModel.WDone => false | _ => true end.
Definition number_connected (l : list ClientIoModel.worker) : Z :=
  Z.of_nat (List.length (List.filter connected l)).

(* client/_io.py:42-56: src is used for the extents, and every worker clones it;
   the first worker uses dst, the others clone it. *)
Definition source_connections (s : ClientIoModel.st) : Z := 1 + number_connected (ClientIoModel.workers s).
Definition destination_connections (s : ClientIoModel.st) : Z :=
  1 + number_connected (List.tl (ClientIoModel.workers s)).
