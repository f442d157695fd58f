(* Model of where the servers listen and of who reaches them: uhttp.py Server
   and UnixHTTPConnection, http.py Server.create_socket, server_bind and
   find_addresses, and the addresses recorded by services.py.  Paths are
   relative to /repo/ovirt_imageio/_internal. *)
From Coq Require Import ZArith List Bool Arith.
Import ListNotations.
Open Scope Z_scope.

(* ================ servers on unix sockets ================ *)

(* A server_address is a str, a list of code points; uhttp.py:46-53.
   Simplified: no null character after the first one. *)
Definition name := list Z.

(* uhttp.py:70, 92: server_address[0] != "\0" *)
Definition pathname (a : name) : bool := match a with [] => false | c :: _ => negb (c =? 0) end.

(* What the file system has at a path, unix(7): a socket made by bind of a
   server, something else, or a directory.  Used for uhttp.py:70-79. *)
Inductive node := Sock (s : nat) | Other (f : nat) | Dir.

(* What the system calls of uhttp.py:74, 99 raise. *)
Inductive errno := ENOENT | EISDIR | EACCES | EADDRINUSE.

(* A server: before http.py:84, after create_socket (94), after _remove_socket
   (95, uhttp.py:72), after server_activate (http.py:96), between the two lines
   of shutdown (uhttp.py:93, 94), after shutdown, and without a socket: closed
   by http.py:98, or by the end of the process.  Simplified: serving starts with
   listen, clients that connect before serve_forever wait in the queue. *)
Inductive phase := New | Created | Ready | Serving | Stopping | Stopped | Failed (e : errno) | Gone.

(* The file system, the abstract names that are bound, and the servers with
   their server_address; uhttp.py:46-102. *)
Record world := World {
  files : name -> option node;
  abstract : name -> option nat;
  address : nat -> name;
  phase_of : nat -> phase
}.

(* Nothing is running yet, services.py:115-130. *)
Definition init (fs : name -> option node) : world := World fs (fun _ => None) (fun _ => []) (fun _ => New).

(* No code: updates for the steps of uhttp.py:55-102. *)
Definition name_dec := list_eq_dec Z.eq_dec.
(* No code: updates for the steps of uhttp.py:55-102. *)
Definition set_file (w : world) (p : name) (n : option node) : world :=
  World (fun q => if name_dec q p then n else files w q) (abstract w) (address w) (phase_of w).
(* No code: updates for the steps of uhttp.py:55-102. *)
Definition set_abstract (w : world) (a : name) (o : option nat) : world :=
  World (files w) (fun b => if name_dec b a then o else abstract w b) (address w) (phase_of w).
(* No code: updates for the steps of uhttp.py:55-102. *)
Definition set_address (w : world) (s : nat) (a : name) : world :=
  World (files w) (abstract w) (fun t => if Nat.eqb t s then a else address w t) (phase_of w).
(* No code: updates for the steps of uhttp.py:55-102. *)
Definition set_phase (w : world) (s : nat) (p : phase) : world :=
  World (files w) (abstract w) (address w) (fun t => if Nat.eqb t s then p else phase_of w t).

(* uhttp.py:58-66 create_socket; [uuid] is the text of uuid.uuid4() *)
Definition new_address (given uuid : name) : name :=
  match given with [] => 0 :: uuid | _ => given end.

(* os.unlink, uhttp.py:99; [denied]: the directory is not writable, or another
   failure *)
Definition unlink (w : world) (p : name) (denied : bool) : world + errno :=
  if denied then inr EACCES
  else match files w p with
       | None => inr ENOENT
       | Some Dir => inr EISDIR
       | Some _ => inl (set_file w p None)
       end.

(* uhttp.py:96-102 _remove_socket *)
Definition remove_socket (w : world) (s : nat) (denied : bool) : world + errno :=
  match unlink w (address w s) denied with
  | inl w => inl w
  | inr ENOENT => inl w
  | inr e => inr e
  end.

(* socket.bind, uhttp.py:74, see unix(7); getsockname (78) then returns the
   same address *)
Definition bind (w : world) (s : nat) (denied : bool) : world + errno :=
  let a := address w s in
  if denied then inr EACCES
  else if pathname a
  then match files w a with Some _ => inr EADDRINUSE | None => inl (set_file w a (Some (Sock s))) end
  else match abstract w a with Some _ => inr EADDRINUSE | None => inl (set_abstract w a (Some s)) end.

(* socket.close, or the end of the process: the path stays, the abstract name
   does not, unix(7); http.py:98 *)
Definition close (w : world) (s : nat) : world :=
  match abstract w (address w s) with
  | Some t => if Nat.eqb t s then set_abstract w (address w s) None else w
  | None => w
  end.

(* The steps; servers run at the same time, in one process or in several. *)
(* No code: the calls in uhttp.py:55-102, in any order. *)
Inductive label :=
| LCreate (s : nat) (given uuid : name)
| LRemove (s : nat) (denied : bool)
| LBind (s : nat) (denied : bool)
| LShutdownRemove (s : nat) (denied : bool)
| LShutdown (s : nat)
| LExit (s : nat)
| LEnv (p : name) (n : option nat).   (* another program makes or removes a file *)

(* http.py:84-98 __init__ with uhttp.py:55-79, and uhttp.py:91-94 shutdown *)
Definition exec (w : world) (l : label) : option world :=
  match l with
  | LCreate s given uuid =>                                          (* uhttp.py:55-66 *)
      match phase_of w s with
      | New => Some (set_phase (set_address w s (new_address given uuid)) s Created)
      | _ => None
      end
  | LRemove s denied =>                                              (* uhttp.py:70-72 *)
      match phase_of w s with
      | Created =>
          if pathname (address w s)
          then match remove_socket w s denied with
               | inl w => Some (set_phase w s Ready)
               | inr e => Some (set_phase w s (Failed e))            (* http.py:97-99 *)
               end
          else Some (set_phase w s Ready)
      | _ => None
      end
  | LBind s denied =>                                                (* uhttp.py:74-78, http.py:96 *)
      match phase_of w s with
      | Ready =>
          match bind w s denied with
          | inl w => Some (set_phase w s Serving)
          | inr e => Some (set_phase w s (Failed e))                 (* http.py:97-99 *)
          end
      | _ => None
      end
  | LShutdownRemove s denied =>                                      (* uhttp.py:92-93 *)
      match phase_of w s with
      | Serving =>
          if pathname (address w s)
          then match remove_socket w s denied with
               | inl w => Some (set_phase w s Stopping)
               | inr _ => Some w                                     (* raises, still serving *)
               end
          else Some (set_phase w s Stopping)
      | _ => None
      end
  | LShutdown s =>                                                   (* uhttp.py:94; the socket is not closed *)
      match phase_of w s with
      | Stopping => Some (set_phase w s Stopped)
      | _ => None
      end
  | LExit s =>
      match phase_of w s with
      | Serving | Stopping | Stopped => Some (set_phase (close w s) s Gone)
      | _ => Some (set_phase w s Gone)
      end
  | LEnv p n => Some (set_file w p (match n with Some f => Some (Other f) | None => None end))
  end.

(* No code: several steps of uhttp.py:55-102. *)
Fixpoint run (w : world) (tr : list label) : option world :=
  match tr with
  | [] => Some w
  | l :: tr => match exec w l with Some w => run w tr | None => None end
  end.

(* uhttp.py:41-43 connect, unix(7): the request is answered by a server, or waits
   for one that does not accept, or reaches something else, or fails. *)
Inductive reached := Answered (s : nat) | Waits (s : nat) | Elsewhere | Refused | NotFound.
(* unix(7), for uhttp.py:43: a socket that listens, or was left open by shutdown *)
Definition knock (w : world) (s : nat) : reached :=
  match phase_of w s with
  | Serving | Stopping => Answered s
  | Stopped => Waits s
  | _ => Refused
  end.
(* uhttp.py:41-43 connect *)
Definition connect (w : world) (a : name) : reached :=
  if pathname a
  then match files w a with
       | None => NotFound
       | Some (Sock s) => knock w s
       | Some (Other _) => Elsewhere
       | Some Dir => Refused
       end
  else match abstract w a with Some s => knock w s | None => Refused end.

(* services.py:121-122, 161-162: what the configuration says after the start *)
Definition configured (w : world) (s : nat) (given : name) : name :=
  match given with [] => address w s | _ => given end.

(* ================ servers on TCP ================ *)

(* socket.AF_INET, socket.AF_INET6; http.py:115, 118 *)
Inductive family := V4 | V6.
(* comparing families, http.py:115 *)
Definition family_eqb (a b : family) : bool := match a, b with V4, V4 | V6, V6 => true | _, _ => false end.

(* An address of getaddrinfo, http.py:856-860; [ip] as a number.  The port is the
   same for all.  Simplified: no scope. *)
Record ai := AI { fam : family; ip : Z }.

(* ipaddress is_link_local, http.py:861: 169.254.0.0/16, fe80::/10.  Simplified:
   the newest versions of Python also look into mapped IPv4 addresses. *)
Definition is_link_local (a : ai) : bool :=
  match fam a with
  | V4 => ip a / 65536 =? 43518
  | V6 => ip a / 2 ^ 118 =? 1018
  end.

Section Tcp.
(* socket.getaddrinfo of a host that is not empty; [] is gaierror too. *)
Variable resolve : name -> list ai.

(* http.py:853-854 *)
Definition lookup_host (host : name) : name := match host with [] => [48] | _ => host end.

(* http.py:848-864 find_addresses *)
Definition find_addresses (host : name) : list ai :=
  filter (fun a => negb (is_link_local a)) (resolve (lookup_host host)).

(* list.sort with the key family != AF_INET, which is stable; http.py:115 *)
Definition sort_v4 (l : list ai) : list ai :=
  filter (fun a => family_eqb (fam a) V4) l ++ filter (fun a => negb (family_eqb (fam a) V4)) l.

(* http.py:100-135 create_socket: the family; None is IndexError in 118.
   Simplified: creating the socket succeeds. *)
Definition create_socket (host : name) (prefer_ipv4 : bool) : option family :=
  match (if prefer_ipv4 then sort_v4 (find_addresses host) else find_addresses host) with
  | [] => None
  | a :: _ => Some (fam a)
  end.

(* socket.bind((host, port)) of a socket with this family, called by
   socketserver for http.py:141: the empty host is any address, another host is
   resolved again, for the family of the socket, and the first address is used.
   Simplified: the second lookup gives the same addresses in the same order. *)
Definition bind_host (f : family) (host : name) : option ai :=
  match host with
  | [] => Some (AI f 0)
  | _ => find (fun a => family_eqb (fam a) f) (resolve host)
  end.

(* http.py:84-99, 137-149: the address the server is bound to; [kernel_port] is
   chosen by the kernel for port 0.  None is an exception. *)
Definition tcp_server (host : name) (port : Z) (prefer_ipv4 : bool) (kernel_port : Z) : option (ai * Z) :=
  match create_socket host prefer_ipv4 with
  | None => None
  | Some f =>
      match bind_host f host with
      | None => None
      | Some a => Some (a, if port =? 0 then kernel_port else port)
      end
  end.

(* services.py:74-75, 155-156: the port in the configuration after the start,
   where server_port is that of the address *)
Definition configured_port (port : Z) (bound : ai * Z) : Z := if port =? 0 then snd bound else port.
End Tcp.
