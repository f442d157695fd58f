(* The life of an NBD client: _internal/nbd.py class Client, from connecting to
   closing the socket.  What is sent and received in between is in
   HandshakeModel and NbdModel. *)
From Coq Require Import List Bool Arith.
Import ListNotations.

(* The exceptions that nbd.py:406-410, 893-939 and 1248-1255 distinguish. *)
Inductive exc :=
| XSocket        (* socket.error *)
| XError         (* another Exception, for example ProtocolError *)
| XBase          (* not an Exception, for example KeyboardInterrupt *)
| XAttribute.    (* AttributeError of line 1255 *)

(* What is sent, nbd.py:554-557, 828-836, 946-948; [MData] is anything but the
   end of a session. *)
Inductive msg :=
| MAbort              (* OPT_ABORT, 912 *)
| MDisc (handle : nat) (* CMD_DISC, 914-915 *)
| MData (n : nat).

(* The calls of a socket in nbd.py:474-516, 934-939, 1222-1241; sending with its outcome. *)
Inductive event :=
| ECreate
| ESend (m : msg) (ok : bool)
| EShutdown
| EClose.

(* nbd.py:364-367 *)
Inductive state := CONNECTING | HANDSHAKE | TRANSMISSION | CLOSED.

(* The socket of nbd.py:405 and what was done with it; the number of the next
   call, the state of the client and its counter, nbd.py:402-405. *)
Record world := W {
  w_open : bool;
  w_log : list event;
  w_call : nat;
  w_state : state;
  w_counter : nat;
}.

(* A call of nbd.py: its result and the world after it. *)
Definition M (A : Type) : Type := world -> (A + exc) * world.

(* No code: the sequence of statements of nbd.py. *)
Definition ret {A} (a : A) : M A := fun w => (inl a, w).
(* No code: the sequence of statements of nbd.py. *)
Definition bind {A B} (m : M A) (f : A -> M B) : M B := fun w =>
  match m w with (inl a, w) => f a w | (inr e, w) => (inr e, w) end.
(* No code: raise, as in nbd.py:410. *)
Definition throw {A} (e : exc) : M A := fun w => (inr e, w).

Section Client.
(* How the n-th call of the socket goes. *)
Variable sys : nat -> option exc.

(* No code: a call of the system for nbd.py:474-516, 1222-1241. *)
Definition call : M unit := fun w =>
  let w' := W (w_open w) (w_log w) (S (w_call w)) (w_state w) (w_counter w) in
  match sys (w_call w) with None => (inl tt, w') | Some e => (inr e, w') end.

(* No code: the log of the calls of nbd.py:474-516, 934-939, 1222-1223. *)
Definition note (e : event) : M unit := fun w =>
  (inl tt, W (w_open w) (w_log w ++ [e]) (w_call w) (w_state w) (w_counter w)).

(* No code: assigning nbd.py:403, 521, 552, 925, 931 self._state. *)
Definition become (s : state) : M unit := fun w =>
  (inl tt, W (w_open w) (w_log w) (w_call w) s (w_counter w)).

(* nbd.py:943-944 _next_handle *)
Definition next_handle : M nat := fun w =>
  (inl (w_counter w), W (w_open w) (w_log w) (w_call w) (w_state w) (S (w_counter w))).

(* nbd.py:1222-1223 _send; a closed socket raises socket.error *)
Definition send (m : msg) : M unit := fun w =>
  if w_open w then
    match call w with
    | (inl _, w) => note (ESend m true) w
    | (inr e, w) => let (_, w) := note (ESend m false) w in (inr e, w)
    end
  else (inr XSocket, w).

(* nbd.py:1225-1241 _recv, _recv_into, with the errors of the messages
   received: only that it succeeds or raises *)
Definition recv : M unit := fun w => if w_open w then call w else (inr XSocket, w).

(* Python's socket.shutdown() and socket.close() raise socket.error only (or are
   interrupted), for nbd.py:498-516, 934-939. *)
Definition sock_call : M unit := fun w =>
  match call w with
  | (inr XError, w) | (inr XAttribute, w) => (inr XSocket, w)
  | x => x
  end.

(* Python's socket.close(), for nbd.py:498-516, 939: the socket is closed even
   if it raises. *)
Definition close_sock : M unit := fun w =>
  if w_open w then
    let (r, w) := sock_call w in
    (r, W false (w_log w ++ [EClose]) (w_call w) (w_state w) (w_counter w))
  else (inl tt, w).

(* nbd.py:934-939 _close_socket *)
Definition close_socket : M unit := fun w =>
  let (r, w) := bind (fun w => if w_open w then note EShutdown w else (inr XSocket, w)) (fun _ => sock_call) w in
  match r with
  | inl _ | inr XSocket => close_sock w
  | inr e => (inr e, w)
  end.

(* nbd.py:893-926 _soft_disconnect *)
Definition soft_disconnect : M unit := fun w =>
  let (r, w) :=
    match w_state w with
    | HANDSHAKE => send MAbort w                                     (* 911-912 *)
    | TRANSMISSION => bind next_handle (fun h => send (MDisc h)) w   (* 913-915 *)
    | _ => (inr XError, w)                                           (* 917-919 *)
    end in
  match r with
  | inr XBase => (inr XBase, w)
  | _ => bind (become CLOSED) (fun _ => close_socket) w              (* 920-926 *)
  end.

(* nbd.py:928-932 _hard_disconnect *)
Definition hard_disconnect : M unit := fun w =>
  match w_state w with
  | CLOSED => (inl tt, w)
  | _ => bind (become CLOSED) (fun _ => close_socket) w
  end.

(* nbd.py:466-470 close *)
Definition close : M unit := fun w =>
  match w_state w with
  | HANDSHAKE | TRANSMISSION => soft_disconnect w
  | _ => hard_disconnect w
  end.

(* nbd.py:474-516 _connect with its two functions: a call is made with the
   new socket, if it fails the socket is closed.  Simplified: there is one call for
   both kinds of address, connect() or setsockopt(); socket.create_connection
   closes the sockets that it cannot connect. *)
Definition connect : M unit :=
  bind call (fun _ =>
  bind (fun w => (inl tt, W true (w_log w ++ [ECreate]) (w_call w) (w_state w) (w_counter w))) (fun _ w =>
    match call w with                                                (* 496, 511 *)
    | (inl _, w) => (inl tt, w)
    | (inr e, w) => bind close_sock (fun _ => throw e) w             (* 497-499, 512-514 *)
    end)).

(* What a method does with the socket, nbd.py:519-890, 422-464. *)
Inductive io := Sends (n : nat) | Receives.

(* The calls of nbd.py:519-890 or nbd.py:422-464, one after the other until one
   raises.  Simplified: the list says which calls are made. *)
Fixpoint run (l : list io) : M unit :=
  match l with
  | [] => ret tt
  | Sends n :: l => bind (send (MData n)) (fun _ => run l)
  | Receives :: l => bind recv (fun _ => run l)
  end.

(* nbd.py:519-552 _newstyle_handshake *)
Definition handshake (l : list io) : M unit :=
  bind (fun w => match w_state w with CONNECTING => (inl tt, w) | _ => (inr XError, w) end) (fun _ =>
  bind (become HANDSHAKE) (fun _ => bind (run l) (fun _ => become TRANSMISSION))).

(* nbd.py:372-415 __init__ *)
Definition init (l : list io) : M unit :=
  bind (become CONNECTING) (fun _ => bind connect (fun _ w =>
    match handshake l w with
    | (inl _, w) => (inl tt, w)
    | (inr e, w) => bind close (fun _ => throw e) w                  (* 408-410 *)
    end)).

(* nbd.py:422-464: a method sends a command with the next handle. *)
Definition command (l : list io) : M unit := bind next_handle (fun _ => run l).

(* What the code using a client does with it: call a method of nbd.py:422-464
   or close it. *)
Inductive use :=
| UCommand (l : list io)
| UTry (l : list io)     (* its exception is handled *)
| UClose.

(* The body of a with statement, for nbd.py:1245-1255; in the end it may raise. *)
Fixpoint body (us : list use) (raises : option exc) : M unit :=
  match us with
  | [] => match raises with None => ret tt | Some e => throw e end
  | UCommand l :: us => bind (command l) (fun _ => body us raises)
  | UTry l :: us => fun w => let (_, w) := command l w in body us raises w
  | UClose :: us => bind close (fun _ => body us raises)
  end.

(* nbd.py:1248-1255 __exit__; log.exeption raises AttributeError *)
Definition exit_ (t : option exc) : M unit := fun w =>
  match close w with
  | (inl _, w) => (inl tt, w)
  | (inr XBase, w) => (inr XBase, w)
  | (inr e, w) => match t with None => (inr e, w) | Some _ => (inr XAttribute, w) end
  end.

(* with Client(...) as client: body, nbd.py:372-415, 1245-1255 *)
Definition session (hs : list io) (us : list use) (raises : option exc) : M unit :=
  bind (init hs) (fun _ w =>
    match body us raises w with
    | (inl _, w) => exit_ None w
    | (inr e, w) => bind (exit_ (Some e)) (fun _ => throw e) w
    end).

End Client.

(* No code: before nbd.py:372. *)
Definition start : world := W false [] 0 CONNECTING 0.
