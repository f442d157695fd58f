(* Interleavings of control requests and transfers: the store of tickets
   (auth.py:388-451) with the ticket objects of TicketModel.v.
   Paths are relative to /repo/ovirt_imageio/_internal. *)
From Coq Require Import List Bool Arith.
From Verif Require Import TicketModel.
Import ListNotations.

(* A thread serving DELETE /tickets/id, handlers/tickets.py:81-109. A thread
   serves one request; other requests are served by other threads. *)
Inductive dpc :=
| DNew
| DStart (id : nat)                (* before tickets.py:91 *)
| DGot (id : nat)                  (* before auth.py:405 *)
| DFound (id o : nat)              (* in or after cancel(), auth.py:413 *)
| DDone.

(* Visible events. *)
(* What can be seen of auth.py:394-451 and of the ticket's methods. *)
Inductive gevent :=
| GAdd (id o : nat)                (* PUT stored ticket object o *)
| GClear                           (* DELETE /tickets/ *)
| GLookup (c id o : nat)           (* a transfer request of connection c found object o *)
| GDelStart (k id : nat)           (* DELETE /tickets/id starts *)
| GRemoved (k id : nat)            (* it removes the entry of the store *)
| GDelEnd (k id : nat) (code : nat)
| GObj (o : nat) (e : event).      (* an event of ticket object o *)

(* Tickets are numbered by creation. *)
Record gst := Gst {
  store : nat -> option nat;       (* auth.py:392 _tickets, uuid -> object *)
  next : nat;
  objs : nat -> st;
  found : nat -> option nat;       (* the object a connection just looked up *)
  dp : nat -> dpc
}.

(* auth.py:390-392; objects not created yet are as created. *)
Definition ginit : gst := Gst (fun _ => None) 0 (fun _ => init) (fun _ => None) (fun _ => DNew).

(* No code: updates a component of the state. *)
Definition set_dp (s : gst) (k : nat) (p : dpc) : gst :=
  Gst (store s) (next s) (objs s) (found s) (upd (dp s) k p).
(* No code: updates a component of the state. *)
Definition set_found (s : gst) (c : nat) (x : option nat) : gst :=
  Gst (store s) (next s) (objs s) (upd (found s) c x) (dp s).
(* No code: updates a component of the state. *)
Definition set_obj (s : gst) (o : nat) (t : st) : gst :=
  Gst (store s) (next s) (upd (objs s) o t) (found s) (dp s).

Section Config.
(* remove_timeout = 0 in the configuration, auth.py:413 *)
Variable zero : bool.

(* Dictionary operations are atomic. Simplification: the thread of a
   connection may work on requests for several tickets at the same time, which
   adds executions only. *)
(* The methods of auth.py:394-451, one constructor per atomic action. *)
Inductive gstep : gst -> list gevent -> gst -> Prop :=
(* auth.py:394-401 add; tickets.py:37-55. Invalid descriptions do nothing. *)
| g_add s id :
    gstep s [GAdd id (next s)]
      (Gst (upd (store s) id (Some (next s))) (S (next s)) (objs s) (found s) (dp s))
(* auth.py:417-418 clear; tickets.py:105-107 *)
| g_clear s :
    gstep s [GClear] (Gst (fun _ => None) (next s) (objs s) (found s) (dp s))
(* auth.py:431-435 authorize: lookup. When there is none, the request fails. *)
| g_lookup s c id o :
    store s id = Some o ->
    gstep s [GLookup c id o] (set_found s c (Some o))
(* auth.py:439-451 authorize: the other checks; expiration and permission are in
   AuthModel.v, here they are any. *)
| g_authorize s c o :
    found s c = Some o -> pc (objs s o) c = Idle -> canceled (objs s o) = false ->
    gstep s [] (set_obj (set_found s c None) o (set_pc (objs s o) c Authorized))
| g_not_authorized s c :
    gstep s [] (set_found s c None)
(* Everything else done with a ticket object, see TicketModel.v. Authorizing is
   above; cancel() is called by threads which found the object, waiting as
   configured (auth.py:320). *)
| g_obj s o evs t :
    o < next s -> step (objs s o) evs t ->
    (forall c, pc (objs s o) c = Idle -> pc t c <> Authorized) ->
    (forall k, kp (objs s o) k <> kp t k -> exists id, dp s k = DFound id o) ->
    (forall k, kp (objs s o) k = KNew -> kp t k = KWait -> zero = false) ->
    (forall k, kp (objs s o) k = KNew -> kp t k = KRet false -> zero = true) ->
    gstep s (map (GObj o) evs) (set_obj s o t)
(* tickets.py:81-95 *)
| g_delete s k id :
    dp s k = DNew -> gstep s [GDelStart k id] (set_dp s k (DStart id))
| g_get_missing s k id :
    dp s k = DStart id -> store s id = None ->
    gstep s [GDelEnd k id 204] (set_dp s k DDone)
| g_get s k id o :
    dp s k = DStart id -> store s id = Some o ->
    gstep s [] (set_dp s k (DGot id))
(* auth.py:404-408 *)
| g_remove_missing s k id :
    dp s k = DGot id -> store s id = None ->
    gstep s [GDelEnd k id 204] (set_dp s k DDone)
| g_remove_found s k id o :
    dp s k = DGot id -> store s id = Some o ->
    gstep s [] (set_dp s k (DFound id o))
(* auth.py:324; tickets.py:100-104 *)
| g_timeout s k id o :
    dp s k = DFound id o -> kp (objs s o) k = KTimedOut ->
    gstep s [GDelEnd k id 409] (set_dp s k DDone)
(* auth.py:339, 413 cancel() returned False *)
| g_not_removed s k id o :
    dp s k = DFound id o -> kp (objs s o) k = KRet false ->
    gstep s [GDelEnd k id 204] (set_dp s k DDone)
(* auth.py:415 del self._tickets[ticket_id]: what is there now *)
| g_remove s k id o o' :
    dp s k = DFound id o -> kp (objs s o) k = KRet true -> store s id = Some o' ->
    gstep s [GRemoved k id; GDelEnd k id 204]
      (Gst (upd (store s) id None) (next s) (objs s) (found s) (upd (dp s) k DDone))
(* auth.py:415 KeyError, http.py:806-818 *)
| g_remove_key_error s k id o :
    dp s k = DFound id o -> kp (objs s o) k = KRet true -> store s id = None ->
    gstep s [GDelEnd k id 500] (set_dp s k DDone).

(* No code: any sequence of steps. *)
Inductive gexec : list gevent -> gst -> Prop :=
| gexec_init : gexec [] ginit
| gexec_step tr s evs s' : gexec tr s -> gstep s evs s' -> gexec (tr ++ evs) s'.
End Config.
