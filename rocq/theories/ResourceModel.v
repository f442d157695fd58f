(** * The resources of the connections: what is opened for a connection, who
    closes it.

    Models backends/__init__.py [Context.close], [Closer] and [get]
    (27-45, 73-126), the contexts of a ticket in auth.py [Ticket.add_context],
    [get_context], [remove_context] and the part of [cancel] that closes them
    (144-169, 280-339), http.py [Connection.setup], [finish] (185-206) and
    [Context.close] (600-611), and [close] of the three backends
    (backends/file.py:109-116, backends/nbd.py:144-148,
    backends/http.py:338-343).

    Many connections (one thread each) and the thread of the control service
    run in any order; a step of the model is a piece of code that runs under
    the lock of the ticket, or that only touches the state of one connection. *)

From Coq Require Import List Bool ZArith.
Import ListNotations.
Local Open Scope nat_scope.

(** Connections, tickets, contexts are numbered in the order they are made;
    uuids are numbers.  Two tickets may have the same uuid: Authorizer.add
    replaces the ticket in the store and does nothing with the one that was
    there (auth.py:394-401). *)

(** A [Context] of backends/__init__.py:27-37: the backend and the buffer,
    and for which connection and ticket it was made. *)
Record bctx := Bctx {
  x_con : nat;
  x_tik : nat;
  x_backend : bool;      (* the backend is open *)
  x_buffer : bool        (* the buffer is mapped *)
}.

(** A [Ticket], auth.py:21-75: uuid, inactivity_timeout (any integer:
    auth.py:29-31 checks the type only), _canceled and _connections.
    Simplified: the rest of the ticket is not used here. *)
Record tik := Tik {
  t_uuid : nat;
  t_timeout : Z;
  t_canceled : bool;
  t_conns : list (nat * nat)       (* connection id, context *)
}.

(** Where the thread of a connection is: between requests or serving one
    with its context in hand; in backends.get after ticket.add_context and
    before req.set_connection_timeout (backends/__init__.py:111-120); in
    http.Context.close with these closers left (http.py:605-611); done. *)
Inductive pc :=
| Idle
| Pending (t x : nat)
| Closing (ts : list nat)
| Done.

(** A [Connection], http.py:185-206: its context, a dict from the uuid of a
    ticket to a closer; the closer is [partial(ticket.remove_context, id)]
    (backends/__init__.py:123-124), so the ticket stands for it. *)
Record rcon := Rcon {
  c_pc : pc;
  c_reg : list (nat * nat)         (* uuid, ticket *)
}.

(** What can be observed. *)
(* What can be observed of the code above, no code of its own. *)
Inductive ev :=
| EOpened (c t x : nat)            (* the backend of context x was opened *)
| EClosed (x : nat)                (* its file or socket was closed *)
| ECloseError (x : nat)            (* closing it raised *)
| ENoBuffer (x : nat)              (* no buffer could be allocated for it *)
| ENoTimeout (x : nat)             (* setting the socket timeout raised *)
| EServed (c t x : nat) (open : bool)  (* get returned the context *)
| ECanceled (t : nat)
| EFinished (c : nat).

(* The objects of auth.py:19-78, http.py:185-193 and backends/__init__.py:27-45. *)
Record state := St {
  s_tiks : list tik;
  s_ctxs : list bctx;
  s_cons : list rcon;
  s_log : list ev                  (* latest first *)
}.

(* No code: nothing was opened. *)
Definition init : state := St [] [] [] [].

(** Replace element [n] of a list (a plain data structure, no code). *)
Fixpoint upd {A} (l : list A) (n : nat) (v : A) : list A :=
  match l, n with
  | [], _ => []
  | _ :: r, O => v :: r
  | a :: r, S m => a :: upd r m v
  end.

(** A python dict with its order: [d[k]] (auth.py:155,160). *)
Fixpoint dget (d : list (nat * nat)) (k : nat) : option nat :=
  match d with
  | [] => None
  | (k', v) :: r => if Nat.eqb k' k then Some v else dget r k
  end.

(** [d[k] = v] (auth.py:152, backends/__init__.py:123): a key keeps its
    place. *)
Fixpoint dset (d : list (nat * nat)) (k v : nat) : list (nat * nat) :=
  match d with
  | [] => [(k, v)]
  | (k', v') :: r =>
      if Nat.eqb k' k then (k, v) :: r else (k', v') :: dset r k v
  end.

(** [del d[k]] (auth.py:169). *)
Fixpoint ddel (d : list (nat * nat)) (k : nat) : list (nat * nat) :=
  match d with
  | [] => []
  | (k', v') :: r => if Nat.eqb k' k then r else (k', v') :: ddel r k
  end.

(** How closing the underlying file or socket ends: well; with an error, but
    the file is marked closed anyway (backends/file.py:113-116, "finally");
    with an error, and the backend still has it (backends/nbd.py:147-148,
    backends/http.py:342-343). *)
Inductive outcome := Cok | Cfailed | Ckept.

(* No code: updates a component of the state. *)
Definition set_ctxs (s : state) (l : list bctx) (es : list ev) : state :=
  St (s_tiks s) l (s_cons s) (es ++ s_log s).

(** Context.close, backends/__init__.py:33-37: close the backend, then the
    buffer in any case.  A backend that is closed does nothing
    (file.py:110, nbd.py:145, http.py:339).  The second result tells that an
    exception was raised.  Simplified: closing the buffer (mmap.close) does
    not raise. *)
Definition close_ctx (s : state) (x : nat) (o : outcome) : state * bool :=
  match nth_error (s_ctxs s) x with
  | None => (s, false)
  | Some b =>
      if x_backend b then
        match o with
        | Cok =>
            (set_ctxs s
               (upd (s_ctxs s) x (Bctx (x_con b) (x_tik b) false false))
               [EClosed x], false)
        | Cfailed =>
            (set_ctxs s
               (upd (s_ctxs s) x (Bctx (x_con b) (x_tik b) false false))
               [ECloseError x; EClosed x], true)
        | Ckept =>
            (set_ctxs s
               (upd (s_ctxs s) x (Bctx (x_con b) (x_tik b) true false))
               [ECloseError x], true)
        end
      else
        (set_ctxs s
           (upd (s_ctxs s) x (Bctx (x_con b) (x_tik b) false false)) [],
         false)
  end.

(* No code: updates a component of the state. *)
Definition set_tik (s : state) (t : nat) (v : tik) (es : list ev) : state :=
  St (upd (s_tiks s) t v) (s_ctxs s) (s_cons s) (es ++ s_log s).

(* No code: updates a component of the state. *)
Definition set_con (s : state) (c : nat) (v : rcon) (es : list ev) : state :=
  St (s_tiks s) (s_ctxs s) (upd (s_cons s) c v) (es ++ s_log s).

(** The loops of Ticket.cancel, auth.py:307-308 and 330-331: close the
    contexts in the order of the dict; an exception ends the loop. *)
Fixpoint close_all (s : state) (d : list (nat * nat)) (os : list outcome)
  : state :=
  match d with
  | [] => s
  | (_, x) :: r =>
      let (s1, raised) := close_ctx s x (hd Cok os) in
      if raised then s1 else close_all s1 r (tl os)
  end.

(** Ticket.remove_context, auth.py:157-169: nothing if the connection has no
    context; if closing the context raises, it stays in the dict. *)
Definition remove_context (s : state) (t c : nat) (o : outcome) : state :=
  match nth_error (s_tiks s) t with
  | None => s
  | Some k =>
      match dget (t_conns k) c with
      | None => s
      | Some x =>
          let (s1, raised) := close_ctx s x o in
          if raised then s1
          else set_tik s1 t (Tik (t_uuid k) (t_timeout k) (t_canceled k)
                                 (ddel (t_conns k) c)) []
      end
  end.

(** socket.settimeout, called by Connection.set_timeout (http.py:278-280):
    a negative number raises ValueError, a number of seconds that does not
    fit in 63 bits of nanoseconds raises OverflowError. *)
Definition timeout_ok (n : Z) : bool :=
  (0 <=? n)%Z && (n <=? 9223372036)%Z.

(** How opening the backend goes, backends/__init__.py:86-107: the scheme is
    not supported, or opening raises (each open closes what it opened:
    file.py:38-45, nbd.py:39-47); opened, but there is no buffer
    (util.aligned_buffer raises, 106); opened with its buffer, and how
    closing it goes if the ticket was canceled meanwhile. *)
Inductive opening :=
| Ofails
| Onobuffer
| Oopened (o : outcome).

(* The actions of auth.py:144-169, 280-339, http.py:185-206 and backends/__init__.py:73-126. *)
Inductive action :=
| AConnect                               (* a client connects *)
| AAdd (uuid : nat) (timeout : Z)        (* a ticket is added *)
| ACancel (t : nat)                      (* cancel marks the ticket *)
| ACancelClose (t : nat) (os : list outcome) (* cancel closes contexts *)
| AGet (c t : nat) (o : opening)         (* a request, up to add_context *)
| ARegister (c : nat)                    (* the rest of backends.get *)
| AFinish (c : nat)                      (* the connection ends *)
| ACloser (c : nat) (o : outcome).       (* one closer; or none is left *)

(** One step.  [None]: not possible in this state.

    Simplified: which ticket a request is for is left open, any ticket ever
    added will do (the store and authorize, auth.py:420-449, only narrow
    this); the ticket can be canceled at any time, and once it is canceled
    the contexts can be closed at any time (cancel waits for ongoing
    operations first, auth.py:304-331). *)
Definition step (s : state) (a : action) : option state :=
  match a with
  | AConnect =>                          (* http.py:185-193 *)
      Some (St (s_tiks s) (s_ctxs s) (s_cons s ++ [Rcon Idle []]) (s_log s))
  | AAdd u n =>                          (* auth.py:394-401 *)
      Some (St (s_tiks s ++ [Tik u n false []]) (s_ctxs s) (s_cons s)
               (s_log s))
  | ACancel t =>                         (* auth.py:299-302 *)
      match nth_error (s_tiks s) t with
      | Some k =>
          Some (set_tik s t (Tik (t_uuid k) (t_timeout k) true (t_conns k))
                        [ECanceled t])
      | None => None
      end
  | ACancelClose t os =>                 (* auth.py:307-308, 330-331 *)
      match nth_error (s_tiks s) t with
      | Some k =>
          if t_canceled k then Some (close_all s (t_conns k) os) else None
      | None => None
      end
  | AGet c t o =>                        (* backends/__init__.py:83-117 *)
      match nth_error (s_cons s) c, nth_error (s_tiks s) t with
      | Some n, Some k =>
          match c_pc n with
          | Idle =>
              match dget (t_conns k) c with
              | Some x =>                (* 83-84 *)
                  match nth_error (s_ctxs s) x with
                  | Some b =>
                      Some (set_con s c n [EServed c t x (x_backend b)])
                  | None => None
                  end
              | None =>
                  let x := List.length (s_ctxs s) in
                  match o with
                  | Ofails => Some s
                  | Onobuffer =>         (* 105-106 *)
                      Some (set_ctxs s (s_ctxs s ++ [Bctx c t true false])
                              [ENoBuffer x; EOpened c t x])
                  | Oopened d =>
                      let s1 := set_ctxs s (s_ctxs s ++ [Bctx c t true true])
                                  [EOpened c t x] in
                      if t_canceled k then   (* 113-117 *)
                        Some (fst (close_ctx s1 x d))
                      else                   (* auth.py:152 *)
                        let s2 := set_tik s1 t
                                    (Tik (t_uuid k) (t_timeout k) false
                                       (dset (t_conns k) c x)) [] in
                        Some (set_con s2 c (Rcon (Pending t x) (c_reg n)) [])
                  end
              end
          | _ => None
          end
      | _, _ => None
      end
  | ARegister c =>                       (* backends/__init__.py:119-126 *)
      match nth_error (s_cons s) c with
      | Some n =>
          match c_pc n with
          | Pending t x =>
              match nth_error (s_tiks s) t, nth_error (s_ctxs s) x with
              | Some k, Some b =>
                  if timeout_ok (t_timeout k) then
                    Some (set_con s c
                            (Rcon Idle (dset (c_reg n) (t_uuid k) t))
                            [EServed c t x (x_backend b)])
                  else
                    Some (set_con s c (Rcon Idle (c_reg n)) [ENoTimeout x])
              | _, _ => None
              end
          | _ => None
          end
      | None => None
      end
  | AFinish c =>                         (* http.py:195-197 *)
      match nth_error (s_cons s) c with
      | Some n =>
          match c_pc n with
          | Idle =>
              Some (set_con s c (Rcon (Closing (map snd (c_reg n)))
                                      (c_reg n)) [])
          | _ => None
          end
      | None => None
      end
  | ACloser c o =>                       (* http.py:605-611 *)
      match nth_error (s_cons s) c with
      | Some n =>
          match c_pc n with
          | Closing (t :: r) =>          (* an exception is logged *)
              let s1 := remove_context s t c o in
              Some (set_con s1 c (Rcon (Closing r) (c_reg n)) [])
          | Closing [] =>
              Some (set_con s c (Rcon Done []) [EFinished c])
          | _ => None
          end
      | None => None
      end
  end.

(** Any sequence of steps. *)
(* No code: any sequence of steps. *)
Fixpoint run (s : state) (l : list action) : option state :=
  match l with
  | [] => Some s
  | a :: r => match step s a with Some s1 => run s1 r | None => None end
  end.

(** The number of connections shown for a ticket, auth.py:255. *)
Definition connections (s : state) (t : nat) : nat :=
  match nth_error (s_tiks s) t with
  | Some k => List.length (t_conns k)
  | None => 0
  end.
