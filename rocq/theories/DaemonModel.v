(* Model of the daemon: server.py main and Server, services.py, the parts of
   uhttp.py about the socket file.  Paths are relative to
   /repo/ovirt_imageio/_internal.

   Two parts: starting (Server.__init__), a program making system calls, and
   the main thread with signals and the threads of the services, a transition
   system.  Not modelled: the configuration and the logger (server.py:30-39, see
   ConfigModel for the configuration), TLS contexts (services.py:92-102) except
   for the check of the files, choosing the address to bind to, logging,
   connections and their threads (see HttpModel). *)
From Coq Require Import ZArith List Bool String Arith.
Import ListNotations.
Open Scope Z_scope.

(* ---- processes and files (POSIX) ---- *)

(* credentials(7): user ids, group ids and supplementary groups.  Simplified:
   privileged means that the effective user is 0, not by capabilities. *)
(* The kernel, no line of /repo. *)
Record cred := Cred {
  ruid : Z; euid : Z; suid : Z;
  rgid : Z; egid : Z; sgid : Z;
  groups : list Z
}.
(* The kernel, no line of /repo. *)
Definition privileged (c : cred) : bool := euid c =? 0.

(* setuid(2); None is EPERM. *)
(* The kernel; called in server.py:164-194. *)
Definition setuid (u : Z) (c : cred) : option cred :=
  if privileged c then Some (Cred u u u (rgid c) (egid c) (sgid c) (groups c))
  else if (u =? ruid c) || (u =? suid c)
       then Some (Cred (ruid c) u (suid c) (rgid c) (egid c) (sgid c) (groups c))
       else None.
(* setgid(2) *)
(* The kernel; called in server.py:164-194. *)
Definition setgid (g : Z) (c : cred) : option cred :=
  if privileged c then Some (Cred (ruid c) (euid c) (suid c) g g g (groups c))
  else if (g =? rgid c) || (g =? sgid c)
       then Some (Cred (ruid c) (euid c) (suid c) (rgid c) g (sgid c) (groups c))
       else None.
(* setgroups(2), used by initgroups(3) *)
(* The kernel; called in server.py:164-194. *)
Definition setgroups (l : list Z) (c : cred) : option cred :=
  if privileged c then Some (Cred (ruid c) (euid c) (suid c) (rgid c) (egid c) (sgid c) l)
  else None.

(* Owner, group and mode of a file. *)
(* The kernel, no line of /repo. *)
Record meta := Meta { m_uid : Z; m_gid : Z; m_mode : Z }.

(* ---- configuration ---- *)

(* config.local.socket, config.control.socket: the empty string (a random
   abstract address), an abstract address, or a path. *)
(* config.py:126-169, read in services.py:105-174. *)
Inductive sockaddr := Random | Abstract (name : string) | Path (path : string).
(* services.py:146, 157, 164 *)
Inductive transport := Tcp | Unix | OtherTransport.

(* config.py, the options used here; and the arguments. *)
Record config := Config {
  c_remote_port : Z;
  c_tls : bool; c_tls_files : bool;       (* neither cert_file nor key_file is "" *)
  c_local : bool; c_local_socket : sockaddr;
  c_control : bool; c_transport : transport; c_control_port : Z; c_control_socket : sockaddr;
  c_drop : bool; c_user : string; c_group : string; c_run_dir : string;
  c_logs : list string;                   (* log files, logging.root.handlers *)
  c_ticket : option string                (* --ticket *)
}.

(* Databases of users and groups, answers of the system. *)
(* For server.py:119-194 and services.py:55-174. *)
Record system := System {
  y_user : string -> option Z;            (* pwd.getpwnam(name).pw_uid, None is KeyError *)
  y_group : string -> option Z;           (* grp.getgrnam(name).gr_gid *)
  y_members : string -> list Z;           (* the groups of a user, getgrouplist(3) *)
  y_umask : Z;                            (* mode of a new socket file, 0o777 & ~umask *)
  y_fail : nat -> bool                    (* the i-th call fails for another reason *)
}.

(* ---- starting ---- *)

(* What server.py:119-194 and services.py:55-174 raise. *)
Inductive failure := InvalidConfig | TlsConfigurationError | KeyError | OSError | ValueError | InvalidTicket.

(* What the process does; the credentials are those at that time. *)
(* No code: the effects of server.py:119-194 and services.py:55-174. *)
Inductive event :=
| EBindTcp (port : Z)
| EBindAbstract
| EBindPath (path : string)
| EChmod (path : string) (mode : Z)
| EChown (path : string) (uid gid : Z)
| ESetgroups (l : list Z)
| ESetgid (gid : Z)
| ESetuid (uid : Z)
| ETicket (path : string).

(* No code: the effects of server.py:119-194 and services.py:55-174. *)
Record st := St {
  s_cred : cred;
  s_files : string -> option meta;
  s_calls : nat;                          (* calls made, next answer *)
  s_log : list (event * cred)             (* newest first *)
}.

(* State and exception monad, no code of its own. *)
Definition M (A : Type) := st -> (A + failure) * st.
(* State and exception monad, no code of its own. *)
Definition ret {A} (a : A) : M A := fun s => (inl a, s).
(* State and exception monad, no code of its own. *)
Definition fail {A} (e : failure) : M A := fun s => (inr e, s).
(* State and exception monad, no code of its own. *)
Definition bind {A B} (m : M A) (f : A -> M B) : M B :=
  fun s => match m s with (inl a, s') => f a s' | (inr e, s') => (inr e, s') end.
(* State and exception monad, no code of its own. *)
Definition seq {A B} (m : M A) (k : M B) : M B := bind m (fun _ => k).
Notation "x <- m ;; k" := (bind m (fun x => k)) (at level 61, m at next level, right associativity).
Notation "m ;; k" := (seq m k) (at level 61, right associativity).
(* State and exception monad, no code of its own. *)
Definition when (b : bool) (m : M unit) : M unit := if b then m else ret tt.

Section Start.
Variable y : system.

(* No code: the kernel, for server.py:121-140. *)
Definition set_file (p : string) (m : meta) (f : string -> option meta) : string -> option meta :=
  fun q => if String.eqb p q then Some m else f q.

(* A system call: it fails when it is not allowed or for another reason. *)
(* No code: the kernel, for server.py:121-140. *)
Definition call (ev : event) (eff : cred -> (string -> option meta) -> option (cred * (string -> option meta))) : M unit :=
  fun s =>
    let log := (ev, s_cred s) :: s_log s in
    let n := S (s_calls s) in
    match (if y_fail y (s_calls s) then None else eff (s_cred s) (s_files s)) with
    | None => (inr OSError, St (s_cred s) (s_files s) n log)
    | Some (c, f) => (inl tt, St c f n log)
    end.

(* http.py:84-98, 137-147 Server.__init__ of a TCP server. *)
Definition bind_tcp (port : Z) : M unit := call (EBindTcp port) (fun c f => Some (c, f)).

(* uhttp.py:55-81 create_socket, server_bind: an existing file is removed, the
   new one belongs to the process. *)
Definition bind_unix (a : sockaddr) : M unit :=
  match a with
  | Random | Abstract _ => call EBindAbstract (fun c f => Some (c, f))
  | Path p => call (EBindPath p) (fun c f => Some (c, set_file p (Meta (euid c) (egid c) (y_umask y)) f))
  end.

(* os.chmod, os.chown.  An abstract address starts with a null character, which
   is not allowed in a path (ValueError). *)
(* The kernel and Python's os module; called in services.py:143-174 and server.py:164-194. *)
Definition chmod (a : sockaddr) (mode : Z) : M unit :=
  match a with
  | Random | Abstract _ => fail ValueError
  | Path p => call (EChmod p mode) (fun c f =>
      match f p with
      | Some m => if privileged c || (m_uid m =? euid c)
                  then Some (c, set_file p (Meta (m_uid m) (m_gid m) mode) f) else None
      | None => None
      end)
  end.
(* The kernel and Python's os module; called in services.py:143-174 and server.py:164-194. *)
Definition chown (a : sockaddr) (uid gid : Z) : M unit :=
  match a with
  | Random | Abstract _ => fail ValueError
  | Path p => call (EChown p uid gid) (fun c f =>
      match f p with
      | Some m => if privileged c then Some (c, set_file p (Meta uid gid (m_mode m)) f) else None
      | None => None
      end)
  end.

(* services.py:23 *)
Definition DEFAULT_SOCKET_MODE := 432.    (* 0o660 *)
(* services.py:68, 149 *)
Definition valid_port (port : Z) : bool := (0 <=? port) && (port <? 65535).

(* services.py:65-86, 88-102 RemoteService.__init__; the routes are in HttpModel. *)
Definition remote_service (c : config) : M unit :=
  if negb (valid_port (c_remote_port c)) then fail InvalidConfig        (* 68-69 *)
  else
    bind_tcp (c_remote_port c) ;;                                       (* 71 *)
    (if c_tls c && negb (c_tls_files c) then fail TlsConfigurationError (* 76-77, 89-90 *)
     else ret tt).

(* services.py:115-130 LocalService.__init__ *)
Definition local_service (c : config) : M unit := bind_unix (c_local_socket c).

(* services.py:143-173 ControlService.__init__ *)
Definition control_service (c : config) : M unit :=
  match c_transport c with
  | Tcp =>
      if negb (valid_port (c_control_port c)) then fail InvalidConfig   (* 149-150 *)
      else bind_tcp (c_control_port c)                                  (* 151-154 *)
  | Unix =>
      bind_unix (c_control_socket c) ;;                                 (* 160 *)
      chmod (c_control_socket c) DEFAULT_SOCKET_MODE                    (* 161-163 *)
  | OtherTransport => fail InvalidConfig                                (* 164-165 *)
  end.

(* No code: a for loop, for server.py:142-158. *)
Fixpoint each {A} (l : list A) (f : A -> M unit) : M unit :=
  match l with [] => ret tt | a :: l => f a ;; each l f end.

(* server.py:164-194 Server._drop_privileges *)
Definition drop_privileges (c : config) : M unit :=
  match y_user y (c_user c), y_group y (c_group c) with                 (* 165-166 *)
  | Some uid, Some gid =>
      (fun s => when (match s_files s (c_run_dir c) with Some _ => true | None => false end)
                     (chown (Path (c_run_dir c)) uid gid) s) ;;         (* 169-173 *)
      each (c_logs c) (fun p => chown (Path p) uid gid) ;;              (* 176-182 *)
      when (c_control c && match c_transport c with Unix => true | _ => false end)
           (chown (c_control_socket c) uid gid) ;;                      (* 185-188 *)
      call (ESetgroups (gid :: y_members y (c_user c)))
           (fun k f => option_map (fun k => (k, f)) (setgroups (gid :: y_members y (c_user c)) k)) ;;  (* 192 *)
      call (ESetgid gid) (fun k f => option_map (fun k => (k, f)) (setgid gid k)) ;;                   (* 193 *)
      call (ESetuid uid) (fun k f => option_map (fun k => (k, f)) (setuid uid k))                      (* 194 *)
  | _, _ => fail KeyError
  end.

(* server.py:196-208 _add_ticket: reading the file, parsing it, and auth.add
   (see ControlModel); it fails with InvalidTicket or OSError. *)
Definition add_ticket (path : string) : M unit := call (ETicket path) (fun c f => Some (c, f)).

(* server.py:121-140 Server.__init__ *)
Definition init (c : config) : M unit :=
  remote_service c ;;                                                   (* 125 *)
  when (c_local c) (local_service c) ;;                                 (* 127-129 *)
  when (c_control c) (control_service c) ;;                             (* 131-134 *)
  (fun s => when (privileged (s_cred s) && c_drop c) (drop_privileges c) s) ;;   (* 136-137 *)
  match c_ticket c with Some t => add_ticket t | None => ret tt end.    (* 139-140 *)

End Start.

(* ---- running ---- *)

(* Threads of the services, services.py:32-52.  The loop is that of the Python
   library (socketserver.py, serve_forever and shutdown):
       is_shut_down.clear()
       while not shutdown_request: wait for a connection; if shutdown_request: break; accept
       shutdown_request = False; is_shut_down.set() *)
Inductive tstate := TNone | TReady | TServing | TAccept | TDone.
Record svc := Svc {
  v_unix : bool;                 (* uhttp.Server with a path *)
  v_thread : tstate;
  v_request : bool;              (* shutdown_request *)
  v_down : bool                  (* is_shut_down *)
}.
Definition new_svc (u : bool) : svc := Svc u TNone false false.

(* The main thread, server.py:42-56; [i] is the service, [failed] says that an
   exception is propagating. *)
Inductive pc :=
| MInstallInt | MInstallTerm               (* 42, 43 *)
| MStart                                   (* 45, 143-144 *)
| MStartSvc (i : nat)                      (* 146-150 *)
| MNotify                                  (* 47 *)
| MCheck                                   (* 49 *)
| MPause                                   (* 50, before the process sleeps *)
| MBlocked                                 (* 50, in pause(2) *)
| MWoken                                   (* 50, pause(2) was interrupted *)
| MStop (i : nat) (failed : bool)          (* 52, 154-158 *)
| MWait (i : nat) (failed : bool)          (* shutdown() waits for is_shut_down *)
| MExit (code : Z)                         (* 53-56 *)
| MKilled.                                 (* by a signal without a handler *)

(* The process of server.py:29-56. *)
Record state := State {
  s_pc : pc;
  s_running : bool;              (* server.running *)
  s_pending : bool;              (* a signal was delivered, terminate() did not run yet *)
  s_int : bool; s_term : bool;   (* the handlers are installed *)
  s_svcs : list svc;             (* remote, local, control, when enabled *)
  s_signals : nat                (* signals delivered to the handlers *)
}.

(* The signals of server.py:41-42. *)
Inductive signal := SIGINT | SIGTERM.
(* What a thread does in services.py:48-52 (serve_forever). *)
Inductive taction := Enter | Poll | Accept | Leave.
(* No code: which thread runs, and how its calls end. *)
Inductive label :=
| LMain (ok : bool)              (* a step of the main thread; ok = false: the call raises *)
| LHandler                       (* the interpreter runs terminate() in the main thread *)
| LSignal (sig : signal)
| LThread (i : nat) (a : taction).

(* No code: updates a component of the state. *)
Definition set_pc (p : pc) (s : state) : state :=
  State p (s_running s) (s_pending s) (s_int s) (s_term s) (s_svcs s) (s_signals s).
(* No code: updates a component of the state. *)
Fixpoint update {A} (i : nat) (a : A) (l : list A) : list A :=
  match i, l with
  | O, _ :: l => a :: l
  | S i, x :: l => x :: update i a l
  | _, [] => []
  end.
(* No code: updates a component of the state. *)
Definition set_svc (i : nat) (v : svc) (s : state) : state :=
  State (s_pc s) (s_running s) (s_pending s) (s_int s) (s_term s) (update i v (s_svcs s)) (s_signals s).

(* server.py:160-162 terminate *)
Definition terminate (s : state) : state :=
  State (s_pc s) false false (s_int s) (s_term s) (s_svcs s) (s_signals s).

(* One step of the main thread. *)
Definition main_step (ok : bool) (s : state) : option state :=
  match s_pc s with
  | MInstallInt => Some (State MInstallTerm (s_running s) (s_pending s) true (s_term s) (s_svcs s) (s_signals s))
  | MInstallTerm => Some (State MStart (s_running s) (s_pending s) (s_int s) true (s_svcs s) (s_signals s))
  | MStart =>
      if s_running s then Some (set_pc (MExit 1) s)                     (* 143 *)
      else Some (State (MStartSvc 0) true (s_pending s) (s_int s) (s_term s) (s_svcs s) (s_signals s))
  | MStartSvc i =>
      match nth_error (s_svcs s) i with
      | None => Some (set_pc MNotify s)
      | Some v =>                                                       (* services.py:32-34 *)
          if ok then Some (set_pc (MStartSvc (S i)) (set_svc i (Svc (v_unix v) TReady (v_request v) (v_down v)) s))
          else Some (set_pc (MExit 1) s)                                (* 54-56, no stop *)
      end
  | MNotify => Some (set_pc (if ok then MCheck else MStop 0 true) s)
  | MCheck => Some (set_pc (if s_running s then MPause else MStop 0 false) s)
  | MPause => Some (set_pc MBlocked s)
  | MBlocked => None
  | MWoken => Some (set_pc MCheck (terminate s))       (* signal.pause() runs the handler *)
  | MStop i failed =>
      match nth_error (s_svcs s) i with
      | None => Some (set_pc (MExit (if failed then 1 else 0)) s)
      | Some v =>
          if negb ok && v_unix v                                        (* uhttp.py:91-93, unlink *)
          then Some (set_pc (MExit 1) s)
          else Some (set_pc (MWait i failed) (set_svc i (Svc (v_unix v) (v_thread v) true (v_down v)) s))
      end
  | MWait i failed =>
      match nth_error (s_svcs s) i with
      | Some v => if v_down v then Some (set_pc (MStop (S i) failed) s) else None
      | None => None
      end
  | MExit _ | MKilled => None
  end.

(* After server.py:53-56. *)
Definition over (p : pc) : bool := match p with MExit _ | MKilled => true | _ => false end.

(* A step of the thread of a service; the threads are daemon threads, they end
   with the process. *)
(* services.py:48-52 and the standard library's serve_forever. *)
Definition thread_step (i : nat) (a : taction) (s : state) : option state :=
  if over (s_pc s) then None
  else match nth_error (s_svcs s) i with
  | None => None
  | Some v =>
      match a, v_thread v with
      | Enter, TReady => Some (set_svc i (Svc (v_unix v) TServing (v_request v) false) s)
      | Poll, TServing =>
          if v_request v then None else Some (set_svc i (Svc (v_unix v) TAccept (v_request v) (v_down v)) s)
      | Accept, TAccept => Some (set_svc i (Svc (v_unix v) TServing (v_request v) (v_down v)) s)
      | Leave, TServing =>
          if v_request v then Some (set_svc i (Svc (v_unix v) TDone false true) s) else None
      | _, _ => None
      end
  end.

(* A signal: without a handler the process ends (simplified: SIGINT raises
   KeyboardInterrupt, which nothing catches).  With a handler it is noted, and
   pause(2) returns. *)
(* The kernel and the interpreter, for server.py:40-48 and 160-162. *)
Definition signal_step (sig : signal) (s : state) : option state :=
  if over (s_pc s) then None
  else if (match sig with SIGINT => s_int s | SIGTERM => s_term s end)
  then Some (State (match s_pc s with MBlocked => MWoken | p => p end) (s_running s) true
               (s_int s) (s_term s) (s_svcs s) (S (s_signals s)))
  else Some (set_pc MKilled s).

(* The interpreter runs the handler between two instructions of the main
   thread, not while it is in pause(2). *)
(* The kernel and the interpreter, for server.py:40-48 and 160-162. *)
Definition handler_step (s : state) : option state :=
  match s_pc s with
  | MBlocked | MWoken | MExit _ | MKilled => None
  | _ => if s_pending s then Some (terminate s) else None
  end.

(* No code: any sequence of steps. *)
Definition step (l : label) (s : state) : option state :=
  match l with
  | LMain ok => main_step ok s
  | LHandler => handler_step s
  | LSignal sig => signal_step sig s
  | LThread i a => thread_step i a s
  end.

(* No code: any sequence of steps. *)
Fixpoint exec (tr : list label) (s : state) : option state :=
  match tr with
  | [] => Some s
  | l :: tr => match step l s with Some s' => exec tr s' | None => None end
  end.

(* server.py:125-134, the services of a configuration: remote, local, control. *)
Definition is_path (a : sockaddr) : bool := match a with Path _ => true | _ => false end.
Definition services (c : config) : list svc :=
  [new_svc false] ++
  (if c_local c then [new_svc (is_path (c_local_socket c))] else []) ++
  (if c_control c then [new_svc (match c_transport c with Unix => is_path (c_control_socket c) | _ => false end)] else []).
(* server.py:41, before the handlers are installed. *)
Definition ready (l : list svc) : state := State MInstallInt false false false false l 0.

(* server.py:41-56: Server() raises, and the process exits with 1; otherwise it
   runs. *)
Definition daemon (y : system) (c : config) (s0 : st) (tr : list label) : option state * st :=
  match init y c s0 with
  | (inr _, s) => (None, s)
  | (inl _, s) => (exec tr (ready (services c)), s)
  end.
