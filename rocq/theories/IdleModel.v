(* The idle time of a ticket, as read by another thread: Ticket.idle_time,
   touch() and the end of operations in
   /repo/ovirt_imageio/_internal/auth.py (lines are of this file), as a
   transition system.  A step is what a thread does without another one seeing
   a state between: a block holding the lock, or one read or write of an
   attribute.  Time is in ticks of 1/100 second: os.times()[4] (util.py:26-27).
   Simplified: one thread reads the idle time at a time; the expiry time and
   canceling are left out (TicketModel, AuthModel). *)
From Coq Require Import ZArith List Bool.
Import ListNotations.
Open Scope Z_scope.

(* Where a thread of the server is: 170-222.  The tick at which the operation
   was removed, or touch() was called without operation, is kept to state the
   properties. *)
Inductive tstate :=
| TIdle                    (* not using the ticket *)
| TRun                     (* between _add_operation and _remove_operation *)
| TEnded (e : Z)           (* 222 or handlers/images.py:250: before line 189 *)
| TRead (e now : Z).       (* between lines 189 and 191; now is in seconds *)

(* Where the reader of idle_time is, 123-129. *)
Inductive rstate :=
| RIdle
| RInactive (seen : Z)                 (* 127: active() was false; the tick *)
| RTime (seen now : Z) (touched : bool).  (* 129: the seconds were read; touched
                                          tells if _access_time was written since *)

(* 79-142 and the threads *)
Record state := State {
  clock : Z;
  threads : nat -> tstate;
  access : Z;                          (* self._access_time, in seconds *)
  reader : rstate;
  ended : list Z;                      (* ticks of all operations ended so far,
                                          and of touch() without operation *)
  reports : list (Z * Z * Z)           (* idle times returned: the tick when
                                          active() was read, the tick of the
                                          return, the idle time *)
}.

(* 189: int(util.monotonic_time()) *)
Definition seconds (ticks : Z) : Z := ticks / 100.

(* No code: one thread changes its state. *)
Definition set_thread (s : state) (t : nat) (x : tstate) : nat -> tstate :=
  fun u => if Nat.eqb u t then x else threads s u.

(* No code: line 191 was run while the reader was in line 129. *)
Definition touch_reader (r : rstate) : rstate :=
  match r with RTime seen now _ => RTime seen now true | _ => r end.

(* 127, 225: bool(self._ongoing); the set has the operations of the threads
   between _add_operation and _remove_operation *)
Definition active (s : state) : Prop := exists t, threads s t = TRun.

Section Steps.
(* No code: a touch takes at most this many ticks, from the removal of the
   operation to line 191. *)
Variable delay : Z.

Inductive step : state -> state -> Prop :=
(* No code: time passes. *)
| s_tick s n :
    0 <= n ->
    step s (State (clock s + n) (threads s) (access s) (reader s) (ended s) (reports s))
(* 193-199 _add_operation *)
| s_start s t :
    threads s t = TIdle ->
    step s (State (clock s) (set_thread s t TRun) (access s) (reader s) (ended s) (reports s))
(* 201-203 _remove_operation, up to the end of the with block *)
| s_remove s t :
    threads s t = TRun ->
    step s (State (clock s) (set_thread s t (TEnded (clock s))) (access s) (reader s)
              (clock s :: ended s) (reports s))
(* handlers/images.py:250: touch() is called by OPTIONS *)
| s_options s t :
    threads s t = TIdle ->
    step s (State (clock s) (set_thread s t (TEnded (clock s))) (access s) (reader s)
              (clock s :: ended s) (reports s))
(* 189 *)
| s_now s t e :
    threads s t = TEnded e ->
    step s (State (clock s) (set_thread s t (TRead e (seconds (clock s)))) (access s) (reader s)
              (ended s) (reports s))
(* 191 *)
| s_touch s t e now :
    threads s t = TRead e now -> clock s <= e + delay ->
    step s (State (clock s) (set_thread s t TIdle) now (touch_reader (reader s)) (ended s) (reports s))
(* 127-128 of a ticket in use: returns 0 *)
| s_active s :
    reader s = RIdle -> active s ->
    step s (State (clock s) (threads s) (access s) RIdle (ended s)
              ((clock s, clock s, 0) :: reports s))
(* 127 of a ticket not in use *)
| s_inactive s :
    reader s = RIdle -> ~ active s ->
    step s (State (clock s) (threads s) (access s) (RInactive (clock s)) (ended s) (reports s))
(* 129: the time is read first *)
| s_time s seen :
    reader s = RInactive seen ->
    step s (State (clock s) (threads s) (access s) (RTime seen (seconds (clock s)) false) (ended s) (reports s))
(* 129: then self._access_time *)
| s_report s seen now touched :
    reader s = RTime seen now touched ->
    step s (State (clock s) (threads s) (access s) RIdle (ended s)
              ((seen, clock s, now - access s) :: reports s)).

(* 43-78: the ticket is added at the given tick; nothing uses it *)
Definition start (tick : Z) : state :=
  State tick (fun _ => TIdle) (seconds tick) RIdle [tick] [].

Inductive reachable (tick : Z) : state -> Prop :=
| r_start : reachable tick (start tick)
| r_step s s' : reachable tick s -> step s s' -> reachable tick s'.

End Steps.
