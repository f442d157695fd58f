(* Interleaving model of one ovirt_imageio/_internal/auth.py Ticket object,
   used by any number of connection threads and any number of threads that
   remove the ticket.

   Every transition is one critical section under Ticket._lock, or one action
   of a thread that does not need the lock.  The labels of a transition are
   the externally visible events, so that properties can be stated about
   traces of events only. *)
From Coq Require Import List Bool Arith.
Import ListNotations.

(* How an operation ended (ops.py:51-55, 118-121; auth.py:171-181). *)
Inductive outcome :=
| Succeeded      (* operation.run() returned *)
| Failed         (* operation.run() raised an error *)
| WasCanceled.   (* operation.run() raised ops.Canceled *)

(* Program counter of a connection thread (http.py connection loop and the
   handlers in handlers/images.py, handlers/extents.py, handlers/checksum.py). *)
Inductive cpc :=
| Idle                              (* between requests *)
| Authorized                        (* after auth.authorize(), images.py:51 *)
| Opened (x : nat)                  (* backends/__init__.py:97-107, not attached *)
| HasCtx (x : nat)                  (* backends.get() returned, images.py:52 *)
| RawIO (x : nat)                   (* inside ctx.backend.extents(), extents.py:46-47 *)
| Running (x : nat)                 (* inside operation.run(), auth.py:177 *)
| Finished (x : nat) (o : outcome)  (* in the finally clause, auth.py:180 *)
| Gone.                             (* connection closed *)

(* Program counter of a thread calling Ticket.cancel (auth.py:280-339). *)
Inductive kpc :=
| KNew                              (* did not call cancel yet *)
| KWait                             (* in self._unused.wait(), auth.py:323 *)
| KWoken                            (* wait returned True, auth.py:323-329 *)
| KTimedOut                         (* raised TransferCancelTimeout, auth.py:324 *)
| KRet (b : bool).                  (* returned b, auth.py:310, 334, 339 *)

(* Visible events. *)
(* What can be seen of auth.py:144-339. *)
Inductive event :=
| EOpen (c x : nat)            (* connection c opened backend context x *)
| EAttach (c x : nat)          (* context x attached to the ticket *)
| EClose (x : nat)             (* context x closed *)
| EOpStart (c : nat)           (* an operation of connection c starts *)
| EOpIO (c x : nat)            (* that operation does I/O on context x *)
| EOpEnd (c : nat)             (* the operation is over *)
| EReport (c : nat) (ok : bool) (* result handed to the handler: true for a
                                  normal return of Ticket.run, false if it raised *)
| ERawBegin (c x : nat)        (* an extents request starts using context x *)
| ERawEnd (c x : nat)          (* ... and stops using it *)
| ECancel (k : nat)            (* removing thread k sets the canceled flag *)
| ECancelRet (k : nat) (b : bool). (* cancel() of thread k returned b *)

(* auth.py:58-77, the attributes of a Ticket used for cancellation, plus the
   state of threads and contexts.  Simplification: connection ids, threads
   and contexts are natural numbers; a connection is served by one thread
   (http.py ThreadingMixIn server). *)
Record st := St {
  canceled : bool;                  (* auth.py:69 _canceled *)
  ongoing : list nat;               (* auth.py:62 _ongoing, by connection *)
  opflag : nat -> bool;             (* ops.py:33 Operation._canceled, of the current op *)
  conns : list (nat * nat);         (* auth.py:73 _connections: con id -> context *)
  is_open : nat -> bool;            (* contexts that are open *)
  next_ctx : nat;                   (* contexts created so far *)
  unused : bool;                    (* auth.py:77 _unused event flag *)
  pc : nat -> cpc;
  kp : nat -> kpc
}.

(* State right after Ticket.__init__ (auth.py:58-77). *)
Definition init : st :=
  St false [] (fun _ => false) [] (fun _ => false) 0 false
     (fun _ => Idle) (fun _ => KNew).

(* Function update, used for the maps of the state above. *)
(* No code: updates a component of the state. *)
Definition upd {A} (f : nat -> A) (i : nat) (v : A) : nat -> A :=
  fun j => if j =? i then v else f j.

(* dict lookup in _connections (auth.py:155, 160). *)
Fixpoint lookup (c : nat) (l : list (nat * nat)) : option nat :=
  match l with
  | [] => None
  | (d, x) :: l' => if d =? c then Some x else lookup c l'
  end.

(* dict deletion in _connections (auth.py:169). *)
Definition del (c : nat) (l : list (nat * nat)) : list (nat * nat) :=
  filter (fun p => negb (fst p =? c)) l.

(* set removal in _ongoing (auth.py:203). *)
Definition rem (c : nat) (l : list nat) : list nat :=
  filter (fun d => negb (d =? c)) l.

(* Closing the given contexts (backends/__init__.py:33-37).
   Simplification: close() does not raise. *)
Definition close_ctxs (xs : list nat) (f : nat -> bool) : nat -> bool :=
  fun x => if existsb (Nat.eqb x) xs then false else f x.

(* auth.py:307-308, 330-331: close the contexts of all connections. *)
Definition attached (s : st) : list nat := map snd (conns s).

(* No code: updates a component of the state. *)
Definition set_pc (s : st) (c : nat) (p : cpc) : st :=
  St (canceled s) (ongoing s) (opflag s) (conns s) (is_open s) (next_ctx s)
     (unused s) (upd (pc s) c p) (kp s).

(* No code: updates a component of the state. *)
Definition set_kp (s : st) (k : nat) (p : kpc) : st :=
  St (canceled s) (ongoing s) (opflag s) (conns s) (is_open s) (next_ctx s)
     (unused s) (pc s) (upd (kp s) k p).

(* auth.py:144-339, one constructor per critical section or action. *)
Inductive step : st -> list event -> st -> Prop :=
(* auth.py:427-451 authorize; the ticket must not be canceled (line 439);
   other reasons to fail leave the thread idle, which needs no step. *)
| s_authorize s c :
    pc s c = Idle -> canceled s = false ->
    step s [] (set_pc s c Authorized)
(* backends/__init__.py:84 with auth.py:154-155: context already attached. *)
| s_get_context s c x :
    pc s c = Authorized -> lookup c (conns s) = Some x ->
    step s [] (set_pc s c (HasCtx x))
(* backends/__init__.py:85-107: open a new backend and buffer. *)
| s_open s c :
    pc s c = Authorized -> lookup c (conns s) = None ->
    step s [EOpen c (next_ctx s)]
      (St (canceled s) (ongoing s) (opflag s) (conns s)
          (upd (is_open s) (next_ctx s) true) (S (next_ctx s)) (unused s)
          (upd (pc s) c (Opened (next_ctx s))) (kp s))
(* backends/__init__.py:86-107: opening fails, the request fails. *)
| s_open_fails s c :
    pc s c = Authorized -> lookup c (conns s) = None ->
    step s [] (set_pc s c Idle)
(* auth.py:144-152 add_context, not canceled. *)
| s_attach s c x :
    pc s c = Opened x -> canceled s = false ->
    step s [EAttach c x]
      (St (canceled s) (ongoing s) (opflag s) ((c, x) :: del c (conns s))
          (is_open s) (next_ctx s) (unused s)
          (upd (pc s) c (HasCtx x)) (kp s))
(* auth.py:146-148 add_context raises; backends/__init__.py:113-117 closes. *)
| s_attach_rejected s c x :
    pc s c = Opened x -> canceled s = true ->
    step s [EClose x]
      (St (canceled s) (ongoing s) (opflag s) (conns s)
          (close_ctxs [x] (is_open s)) (next_ctx s) (unused s)
          (upd (pc s) c Idle) (kp s))
(* images.py:57, 93-98, 113-114: request rejected before running. *)
| s_request_rejected s c x :
    pc s c = HasCtx x ->
    step s [] (set_pc s c Idle)
(* extents.py:44-49: the extents are produced outside of Ticket.run. *)
| s_raw_begin s c x :
    pc s c = HasCtx x ->
    step s [ERawBegin c x] (set_pc s c (RawIO x))
| s_raw_end s c x :
    pc s c = RawIO x ->
    step s [ERawEnd c x] (set_pc s c Idle)
(* auth.py:193-199 _add_operation, not canceled.  ops.py:33: a new
   operation is not canceled. *)
| s_add_operation s c x :
    pc s c = HasCtx x -> canceled s = false ->
    step s [EOpStart c]
      (St (canceled s) (c :: ongoing s) (upd (opflag s) c false) (conns s)
          (is_open s) (next_ctx s) (unused s)
          (upd (pc s) c (Running x)) (kp s))
(* auth.py:195-197 _add_operation raises AuthorizationError. *)
| s_add_operation_rejected s c x :
    pc s c = HasCtx x -> canceled s = true ->
    step s [EReport c false] (set_pc s c Idle)
(* auth.py:177, ops.py:98-118, 167-195, 224-238: one I/O of the operation. *)
| s_op_io s c x :
    pc s c = Running x ->
    step s [EOpIO c x] s
(* operation.run() returns or raises an error. *)
| s_op_done s c x o :
    pc s c = Running x -> o <> WasCanceled ->
    step s [] (set_pc s c (Finished x o))
(* ops.py:120-121, 194-195, 233-234: the operation sees its flag. *)
| s_op_canceled s c x :
    pc s c = Running x -> opflag s c = true ->
    step s [] (set_pc s c (Finished x WasCanceled))
(* auth.py:201-203, 217-222 _remove_operation, ticket not canceled.  The
   result of run() is the one of the operation; ops.Canceled is swallowed
   (auth.py:178-179). *)
| s_remove_operation s c x o :
    pc s c = Finished x o -> canceled s = false ->
    step s [EOpEnd c; EReport c (match o with Failed => false | _ => true end)]
      (St (canceled s) (rem c (ongoing s)) (opflag s) (conns s)
          (is_open s) (next_ctx s) (unused s)
          (upd (pc s) c Idle) (kp s))
(* auth.py:201-215 _remove_operation, ticket canceled: wake up waiters if
   this was the last one, then raise AuthorizationError. *)
| s_remove_operation_canceled s c x o :
    pc s c = Finished x o -> canceled s = true ->
    step s [EOpEnd c; EReport c false]
      (St (canceled s) (rem c (ongoing s)) (opflag s) (conns s)
          (is_open s) (next_ctx s)
          (match rem c (ongoing s) with [] => true | _ => unused s end)
          (upd (pc s) c Idle) (kp s))
(* Connection closed while idle; http.py:600-611 closes the Closer registered
   in backends/__init__.py:123, calling auth.py:157-169 remove_context. *)
| s_disconnect s c x :
    pc s c = Idle -> lookup c (conns s) = Some x ->
    step s [EClose x]
      (St (canceled s) (ongoing s) (opflag s) (del c (conns s))
          (close_ctxs [x] (is_open s)) (next_ctx s) (unused s)
          (upd (pc s) c Gone) (kp s))
| s_disconnect_nothing s c :
    pc s c = Idle -> lookup c (conns s) = None ->
    step s [] (set_pc s c Gone)
(* auth.py:299-310 cancel: no ongoing operation, close and return True. *)
| s_cancel_idle s k :
    kp s k = KNew -> ongoing s = [] ->
    step s (ECancel k :: map EClose (attached s) ++ [ECancelRet k true])
      (St true (ongoing s) (opflag s) (conns s)
          (close_ctxs (attached s) (is_open s)) (next_ctx s) (unused s)
          (pc s) (upd (kp s) k (KRet true)))
(* auth.py:299-318 and 320: ongoing operations are canceled, timeout != 0. *)
| s_cancel_wait s k :
    kp s k = KNew -> ongoing s <> [] ->
    step s [ECancel k]
      (St true (ongoing s)
          (fun c => if existsb (Nat.eqb c) (ongoing s) then true else opflag s c)
          (conns s) (is_open s) (next_ctx s) (unused s)
          (pc s) (upd (kp s) k KWait))
(* auth.py:299-318 and 339: ongoing operations are canceled, timeout == 0. *)
| s_cancel_nowait s k :
    kp s k = KNew -> ongoing s <> [] ->
    step s [ECancel k; ECancelRet k false]
      (St true (ongoing s)
          (fun c => if existsb (Nat.eqb c) (ongoing s) then true else opflag s c)
          (conns s) (is_open s) (next_ctx s) (unused s)
          (pc s) (upd (kp s) k (KRet false)))
(* auth.py:323: wait() returns True when the event is set. *)
| s_wake s k :
    kp s k = KWait -> unused s = true ->
    step s [] (set_kp s k KWoken)
(* auth.py:323-324: the wait times out. *)
| s_timeout s k :
    kp s k = KWait -> unused s = false ->
    step s [] (set_kp s k KTimedOut)
(* auth.py:329-334. *)
| s_cancel_finish s k :
    kp s k = KWoken ->
    step s (map EClose (attached s) ++ [ECancelRet k true])
      (St (canceled s) (ongoing s) (opflag s) (conns s)
          (close_ctxs (attached s) (is_open s)) (next_ctx s) (unused s)
          (pc s) (upd (kp s) k (KRet true))).

(* Executions from a fresh ticket, with the trace of visible events. *)
(* No code: any sequence of steps. *)
Inductive exec : list event -> st -> Prop :=
| exec_init : exec [] init
| exec_step tr s evs s' : exec tr s -> step s evs s' -> exec (tr ++ evs) s'.
