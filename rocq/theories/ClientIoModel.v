(* Model of ovirt_imageio/client/_io.py: copying an image with a group of
   worker threads.

   The threads are the main thread, in copy(), and the workers.  A step of the
   system is one action of one thread; the code between two uses of the queue
   condition is atomic when it touches only local variables, or when it runs
   under the lock of the condition.  A label says which thread runs and how the
   environment answers; the properties quantify over all lists of labels.
   Logging is not modelled. *)
From Coq Require Import ZArith List Bool.
From Coq.Strings Require Import Byte.
From Verif Require Import BytesLib OpsModel NbdModel ExtentsModel.
Import ListNotations.
Open Scope Z_scope.

(* ---- Queue, _io.py:332-376 ---- *)

(* Threads: the main thread and worker i.  (QueueModel uses only Worker.) *)
(* The thread of copy(), client/_io.py:36-70, and those of Worker, 220-231. *)
Inductive tid := Main | Worker (i : nat).

(* _io.py:341-344, Queue.__init__.  The deque, its maxlen, _closed, and the
   threads waiting on the condition, in the order in which they called wait().
   q_put and q_got only record the items put and taken. *)
Record queue (A : Type) := Queue {
  q_items : list A;
  q_max : nat;
  q_closed : bool;
  q_waiters : list tid;
  q_put : list A;
  q_got : list A
}.
Arguments Queue {A}.
Arguments q_items {A}.
Arguments q_max {A}.
Arguments q_closed {A}.
Arguments q_waiters {A}.
Arguments q_put {A}.
Arguments q_got {A}.

(* client/_io.py:341-345. *)
Definition new_queue {A} (max : nat) : queue A := Queue [] max false [] [] [].

(* Auxiliary, no line of /repo. *)
Fixpoint remove_nth {A} (k : nat) (l : list A) : list A :=
  match l, k with
  | [], _ => []
  | _ :: l, O => l
  | x :: l, S k => x :: remove_nth k l
  end.

(* threading.Condition.notify(): wakes one waiting thread.  The standard
   library wakes the first one, k = 0; its documentation promises only that it
   is one of them, so k is free. *)
(* Used for client/_io.py:350-362. *)
Definition notify (k : nat) (ws : list tid) : list tid :=
  remove_nth (if (k <? length ws)%nat then k else 0%nat) ws.

(* How an attempt to put or get ends. *)
(* The outcomes of client/_io.py:350-370. *)
Inductive attempt (A : Type) :=
| Raised              (* Closed *)
| Waiting             (* the thread waits on the condition *)
| Got (x : A).        (* done *)
Arguments Raised {A}.
Arguments Waiting {A}.
Arguments Got {A}.

(* _io.py:350-354 and 364-370, Queue.put, up to the first wait() or the end.
   After wait() returns, the code does the same tests again, so a thread that
   was woken makes the same attempt again. *)
Definition try_put {A} (t : tid) (k : nat) (x : A) (q : queue A) : queue A * attempt unit :=
  if q_closed q then (q, Raised)
  else if (length (q_items q) =? q_max q)%nat then
    (Queue (q_items q) (q_max q) false (q_waiters q ++ [t]) (q_put q) (q_got q), Waiting)
  else
    (Queue (q_items q ++ [x]) (q_max q) false (notify k (q_waiters q))
           (q_put q ++ [x]) (q_got q), Got tt).

(* _io.py:356-362 and 364-370, Queue.get, up to the first wait() or the end. *)
Definition try_get {A} (t : tid) (k : nat) (q : queue A) : queue A * attempt A :=
  if q_closed q then (q, Raised)
  else match q_items q with
  | [] => (Queue [] (q_max q) false (q_waiters q ++ [t]) (q_put q) (q_got q), Waiting)
  | x :: items =>
    let ws := if (length items =? q_max q - 1)%nat
              then notify k (q_waiters q) else q_waiters q in
    (Queue items (q_max q) false ws (q_put q) (q_got q ++ [x]), Got x)
  end.

(* _io.py:372-376, Queue.close. *)
Definition close {A} (q : queue A) : queue A :=
  Queue [] (q_max q) true [] (q_put q) (q_got q).

(* Auxiliary, no line of /repo. *)
Definition tid_eqb (a b : tid) : bool :=
  match a, b with
  | Main, Main => true
  | Worker i, Worker j => (i =? j)%nat
  | _, _ => false
  end.

(* Waiting in client/_io.py:364-370. *)
Definition blocked {A} (t : tid) (q : queue A) : bool :=
  existsb (tid_eqb t) (q_waiters q).

(* ---- Requests ---- *)

(* _io.py:124-133. *)
Inductive opcode := ZERO | COPY | STOP.
Record request := Request { r_op : opcode; r_start : Z; r_length : Z }.

(* _io.py:21-27, units.py:9. *)
Definition MAX_ZERO_SIZE : Z := 128 * 1024 * 1024.
Definition MAX_COPY_SIZE : Z := 128 * 1024 * 1024.
Definition MAX_BUFFER_SIZE : Z := 32 * 1024 * 1024.

(* _io.py:210-215, the loop of Executor._split and the last yield.  The fuel
   given by split_request is enough. *)
Fixpoint split_loop (fuel : nat) (op : opcode) (start length step : Z) : list request :=
  match fuel with
  | O => [Request op start length]
  | S fuel =>
    if step <? length then
      Request op start step :: split_loop fuel op (start + step) (length - step) step
    else [Request op start length]
  end.

(* _io.py:202-215, Executor._split. *)
Definition split_request (r : request) : list request :=
  let step := match r_op r with ZERO => MAX_ZERO_SIZE | _ => MAX_COPY_SIZE end in
  split_loop (S (Z.to_nat (r_length r / step))) (r_op r) (r_start r) (r_length r) step.

(* What the main thread does while it goes over the extents. *)
Inductive action :=
| Put (r : request)   (* _io.py:156 *)
| Skip (n : Z).       (* progress.update(n), 90, 121 *)

(* _io.py:151-156, Executor.submit. *)
Definition submit (r : request) : list action := map Put (split_request r).

(* _io.py:79-90, the body of the loop in _copy_dirty.  extents("dirty") gives
   only DirtyExtent. *)
Definition dirty_actions (e : image_extent) : list action :=
  match e with
  | DirtyExtent start length dirty zero =>
    if dirty then
      if negb zero then submit (Request COPY start length)
      else submit (Request ZERO start length)
    else [Skip length]
  | ZeroExtent _ _ _ _ => []
  end.

(* _io.py:111-121, the body of the loop in _copy_data.  extents("zero") gives
   only ZeroExtent. *)
Definition data_actions (zero hole : bool) (e : image_extent) : list action :=
  match e with
  | ZeroExtent start length z h =>
    if negb z then submit (Request COPY start length)
    else if zero && (negb h || hole) then submit (Request ZERO start length)
    else [Skip length]
  | DirtyExtent _ _ _ _ => []
  end.

(* _io.py:61-67: the actions of the main thread for the extents. *)
Definition plan (dirty zero hole : bool) (exts : list image_extent) : list action :=
  if dirty then flat_map dirty_actions exts
  else flat_map (data_actions zero hole) exts.

(* ---- Workers ---- *)

(* How a request is copied, _io.py:285-290. *)
Inductive mode :=
| Generic    (* _generic_copy *)
| Own.       (* dst.read_from or src.write_to *)

(* Where a worker is. *)
Inductive wstate :=
| WNew                              (* 236: creating the handler *)
| WIdle                             (* 239: in or before queue.get() *)
| WZero (r : request)               (* 240-242 *)
| WCopy (r : request) (sp dp todo : Z)  (* 240, 244: positions of the source
                                       and the destination, bytes left *)
| WFlush                            (* 246 *)
| WClosing                          (* 237: closing the handler, no exception *)
| WCancel                           (* 237: closing the handler, Closed raised *)
| WError                            (* 250: before errors.append; the handler
                                       was closed on the way, what close() did
                                       then is not a step *)
| WFailed                           (* 252: before queue.close *)
| WDone.

(* A worker; w_buf is handler._buf, w_dirty tells if its destination was
   written after its last flush. *)
(* The objects of client/_io.py:218-231 and 258-272. *)
Record worker := Wrk { w_state : wstate; w_buf : list byte; w_dirty : bool }.

(* What the environment answers to an action of a worker: a_ok false means
   that a backend call, or check_terminated(), raises.  a_read and a_written
   are the bytes done by readinto() and write() or zero(), None means all. *)
(* For the calls of client/_io.py:258-323. *)
Record answer := Answer {
  a_ok : bool;
  a_chunk : Z;            (* bytes copied in one go, mode Own *)
  a_read : option Z;
  a_written : option Z
}.

(* The count reported for a request, client/_io.py:281-293. *)
Definition done_of (max : Z) (o : option Z) : Z :=
  match o with None => Z.max 0 max | Some n => clamp 0 (Z.max 0 max) n end.

(* ---- The main thread ---- *)

Inductive mstate :=
| MStart (k : nat)              (* 49-56: k workers to add *)
| MRun (l : list action)        (* 61-67 *)
| MStop (k : nat)               (* 164-168: k STOP requests to put *)
| MAbort                        (* 198: an exception in the with block *)
| MJoin (aborted : bool)        (* 169, 180 *)
| MDone (success : bool).

Record config := Config {
  f_src : list byte;            (* content of the source *)
  f_mode : mode;
  f_buffer : Z;                 (* buffer_size, after line 40 *)
  f_plan : list action
}.

(* errors is the length of executor._errors, done lists the requests for which
   a handler method returned (it only records), progress is the sum of the
   progress.update() calls. *)
(* The state shared by client/_io.py:36-70 and 136-256. *)
Record st := St {
  main : mstate;
  workers : list worker;
  q : queue request;
  errors : nat;
  dst : list byte;
  done : list request;
  progress : Z
}.

(* No code: which thread runs, and the answers it gets. *)
Inductive label :=
| LMain (k : nat)               (* the main thread runs; k: see notify *)
| LMainFail                     (* the main thread gets an exception from
                                   add_worker, size() or extents() *)
| LWorker (i k : nat) (a : answer).

(* Auxiliary, no line of /repo. *)
Fixpoint set_nth {A} (i : nat) (x : A) (l : list A) : list A :=
  match l, i with
  | [], _ => []
  | _ :: l, O => x :: l
  | y :: l, S i => y :: set_nth i x l
  end.

(* An action of the main thread: copy(), Executor.add_worker, submit, stop,
   abort.  MStart 0 is the line 58-59. Starting a worker (146-149) gives it the
   buffer of its handler; the handler itself is created later by the worker. *)
Definition main_step (c : config) (k : nat) (s : st) : option st :=
  match main s with
  | MStart (S n) =>
    Some (St (MStart n) (workers s ++ [Wrk WNew (zeros (f_buffer c)) false])
             (q s) (errors s) (dst s) (done s) (progress s))
  | MStart O =>
    Some (St (MRun (f_plan c)) (workers s) (q s) (errors s) (dst s) (done s) (progress s))
  | MRun (Put r :: l) =>                                           (* 155-156 *)
    let (q', a) := try_put Main k r (q s) in
    let m := match a with
             | Raised => MStop (length (workers s))                (* 68-70, 191-194 *)
             | Waiting => MRun (Put r :: l)
             | Got _ => MRun l
             end in
    Some (St m (workers s) q' (errors s) (dst s) (done s) (progress s))
  | MRun (Skip n :: l) =>                                          (* 90, 121 *)
    Some (St (MRun l) (workers s) (q s) (errors s) (dst s) (done s) (progress s + n))
  | MRun [] =>                                                     (* 194 *)
    Some (St (MStop (length (workers s))) (workers s) (q s) (errors s) (dst s)
             (done s) (progress s))
  | MStop (S n) =>                                                 (* 164-168 *)
    let (q', a) := try_put Main k (Request STOP 0 0) (q s) in
    let m := match a with
             | Raised => MJoin false
             | Waiting => MStop (S n)
             | Got _ => MStop n
             end in
    Some (St m (workers s) q' (errors s) (dst s) (done s) (progress s))
  | MStop O =>
    Some (St (MJoin false) (workers s) (q s) (errors s) (dst s) (done s) (progress s))
  | MAbort =>                                                      (* 179 *)
    Some (St (MJoin true) (workers s) (close (q s)) (errors s) (dst s) (done s) (progress s))
  | MJoin aborted =>
    (* 184-186: joining the workers one after the other ends when all ended.
       170-171: stop() raises when there are errors; after an abort the
       exception of the with block is raised. *)
    if forallb (fun w => match w_state w with WDone => true | _ => false end) (workers s)
    then Some (St (MDone (negb aborted && (errors s =? 0)%nat)) (workers s) (q s)
                  (errors s) (dst s) (done s) (progress s))
    else None
  | MDone _ => None
  end.

(* An exception in the with block of copy(): 191-200. *)
Definition main_fail (s : st) : option st :=
  match main s with
  | MStart _ | MRun _ =>
    Some (St MAbort (workers s) (q s) (errors s) (dst s) (done s) (progress s))
  | _ => None
  end.

(* One chunk of a copy.  _io.py:310-323, Handler._generic_copy, one readinto()
   and write(): the count of both calls is ignored, and the buffer keeps what
   was not read.  In mode Own, dst.read_from() and src.write_to() copy the
   bytes they report, in chunks of any size.  readinto() touches only the
   buffer of the worker, so reading and writing a chunk is one step.
   Result: the new buffer, source position, destination, destination position,
   bytes left. *)
Definition copy_chunk (c : config) (a : answer) (sp dp todo : Z) (buf dst : list byte)
  : list byte * Z * list byte * Z * Z :=
  match f_mode c with
  | Generic =>
    let n := Z.min (Z.max 0 todo) (zlen buf) in                    (* 316, 321 *)
    let r := done_of (Z.min n (zlen (f_src c) - sp)) (a_read a) in
    let buf := splice buf 0 (sub sp r (f_src c)) in                (* 317, 322 *)
    let w := done_of n (a_written a) in
    (buf, sp + r, splice dst dp (take w (take n buf)), dp + w, todo - n)
  | Own =>
    let n := clamp (Z.min 1 todo) todo (a_chunk a) in
    let n := if a_ok a then n else done_of n (a_written a) in
    (buf, sp + n, splice dst dp (sub sp n (f_src c)), dp + n, todo - n)
  end.

(* An action of worker i: Worker._run, 233-255, and the handler methods. *)
Definition worker_step (c : config) (i k : nat) (a : answer) (s : st) : option st :=
  match nth_error (workers s) i with
  | None => None
  | Some w =>
    let to (x : wstate) (buf : list byte) (dirty : bool) :=
      set_nth i (Wrk x buf dirty) (workers s) in
    let same (x : wstate) :=
      Some (St (main s) (to x (w_buf w) (w_dirty w)) (q s) (errors s) (dst s) (done s)
               (progress s)) in
    match w_state w with
    | WNew => same (if a_ok a then WIdle else WError)              (* 236, 260-272 *)
    | WIdle =>                                                     (* 239 *)
      let (q', r) := try_get (Worker i) k (q s) in
      let x := match r with
               | Raised => WCancel
               | Waiting => WIdle
               | Got r =>
                 match r_op r with
                 | ZERO => WZero r                                 (* 241 *)
                 | COPY => WCopy r (r_start r) (r_start r) (r_length r)  (* 282-283 *)
                 | STOP => WFlush
                 end
               end in
      Some (St (main s) (to x (w_buf w) (w_dirty w)) q' (errors s) (dst s) (done s)
               (progress s))
    | WZero r =>                                                   (* 274-279 *)
      let n := done_of (r_length r) (a_written a) in
      let dst' := splice (dst s) (r_start r) (zeros n) in
      if a_ok a then
        Some (St (main s) (to WIdle (w_buf w) true) (q s) (errors s) dst'
                 (done s ++ [r]) (progress s + r_length r))
      else
        Some (St (main s) (to WError (w_buf w) true) (q s) (errors s) dst' (done s)
                 (progress s))
    | WCopy r sp dp todo =>                                        (* 281-293 *)
      let '(buf, sp, dst', dp, todo') := copy_chunk c a sp dp todo (w_buf w) (dst s) in
      if a_ok a then
        if todo' =? 0 then
          Some (St (main s) (to WIdle buf true) (q s) (errors s) dst'
                   (done s ++ [r]) (progress s + r_length r))
        else
          Some (St (main s) (to (WCopy r sp dp todo') buf true) (q s) (errors s) dst'
                   (done s) (progress s))
      else
        Some (St (main s) (to WError buf true) (q s) (errors s) dst' (done s) (progress s))
    | WFlush =>                                                    (* 240, 246, 295-296 *)
      if a_ok a then
        Some (St (main s) (to WClosing (w_buf w) false) (q s) (errors s) (dst s) (done s)
                 (progress s))
      else same WError
    | WClosing | WCancel =>                                        (* 237, 298-308, 248 *)
      same (if a_ok a then WDone else WError)
    | WError =>                                                    (* 251 *)
      Some (St (main s) (to WFailed (w_buf w) (w_dirty w)) (q s) (S (errors s)) (dst s)
               (done s) (progress s))
    | WFailed =>                                                   (* 252 *)
      Some (St (main s) (to WDone (w_buf w) (w_dirty w)) (close (q s)) (errors s) (dst s)
               (done s) (progress s))
    | WDone => None
    end
  end.

(* A step of the system; None: the thread cannot run. *)
(* The threads of client/_io.py:36-70 and 233-256. *)
Definition step (c : config) (l : label) (s : st) : option st :=
  match l with
  | LMain k => if blocked Main (q s) then None else main_step c k s
  | LMainFail => if blocked Main (q s) then None else main_fail s
  | LWorker i k a => if blocked (Worker i) (q s) then None else worker_step c i k a s
  end.

(* No code: any sequence of steps. *)
Fixpoint exec (c : config) (tr : list label) (s : st) : option st :=
  match tr with
  | [] => Some s
  | l :: tr =>
    match step c l s with
    | Some s' => exec c tr s'
    | None => None
    end
  end.

(* _io.py:138-142 and 42-56: the state in which copy() starts, for a
   destination d: one worker, and max_workers - 1 more.  queue_depth is 32. *)
Definition init (depth : nat) (max_workers : Z) (d : list byte) : st :=
  St (MStart (1 + Z.to_nat (max_workers - 1))) [] (new_queue depth) 0 d [] 0.

(* _io.py:138. *)
Definition QUEUE_DEPTH : nat := 32.

(* _io.py:36-67, the configuration of copy(). *)
Definition copy_config (src : list byte) (m : mode) (buffer_size : Z)
  (dirty zero hole : bool) (exts : list image_extent) : config :=
  Config src m (Z.min buffer_size MAX_BUFFER_SIZE) (plan dirty zero hole exts).

(* ---- The queue with any threads ---- *)

(* What a thread does with the queue next. *)
(* The methods of client/_io.py:350-377. *)
Inductive qop (A : Type) := QPut (x : A) | QGet | QClose.
Arguments QPut {A}.
Arguments QGet {A}.
Arguments QClose {A}.

(* Threads with the queue operations they still have to do; Worker i is the
   i-th one.  An operation that raises Closed ends like one that is done. *)
(* No code: any use of the queue of client/_io.py:332-377. *)
Record qsys (A : Type) := QSys { y_q : queue A; y_threads : list (list (qop A)) }.
Arguments QSys {A}.
Arguments y_q {A}.
Arguments y_threads {A}.

(* Thread i makes one attempt; what it got, if anything. *)
(* No code: any use of the queue of client/_io.py:332-377. *)
Definition qsys_step {A} (i k : nat) (y : qsys A) : option (qsys A) :=
  if blocked (Worker i) (y_q y) then None
  else match nth_error (y_threads y) i with
  | Some (o :: l) =>
    let '(q', again) :=
      match o with
      | QPut x => let (q', r) := try_put (Worker i) k x (y_q y) in
                  (q', match r with Waiting => true | _ => false end)
      | QGet => let (q', r) := try_get (Worker i) k (y_q y) in
                (q', match r with Waiting => true | _ => false end)
      | QClose => (close (y_q y), false)
      end in
    Some (QSys q' (if again : bool then y_threads y else set_nth i l (y_threads y)))
  | _ => None
  end.

(* No code: any use of the queue of client/_io.py:332-377. *)
Fixpoint qsys_exec {A} (tr : list (nat * nat)) (y : qsys A) : option (qsys A) :=
  match tr with
  | [] => Some y
  | (i, k) :: tr =>
    match qsys_step i k y with
    | Some y' => qsys_exec tr y'
    | None => None
    end
  end.
