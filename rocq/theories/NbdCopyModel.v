(* Model of nbdutil.copy, ovirt_imageio/_internal/nbdutil.py:204-321: a reader
   (the calling thread) and a writer thread, connected by two queues.

   A step is one action of one thread.  queue.Queue of the standard library is
   modelled by its contract: put() waits while the queue is full, get() waits
   while it is empty, items are taken in the order they were put.  A thread that
   waits cannot run.  A label says which thread runs, and if the NBD client call
   it makes raises.  Logging is not modelled.  progress is modelled as an object
   whose update() does not raise. *)
From Coq Require Import ZArith List Bool.
From Coq.Strings Require Import Byte.
From Verif Require Import BytesLib OpsModel NbdModel ExtentsModel.
Import ListNotations.
Open Scope Z_scope.

(* nbdutil.py:245-255.  A buffer is a number, an index in s_heap: the same
   bytearray is used again and again. *)
Inductive op := WRITE | ZERO | FLUSH.
Record request := Request { r_op : op; r_offset : Z; r_length : Z; r_buf : nat }.

(* nbdutil.py:95, units.py:10. *)
Definition MAX_ZERO : Z := 1024 * 1024 * 1024.

(* Where the reader is, in copy() and _read(); off is offset, l are the extents
   to come.  extents() yields None for an empty export, see ExtentsModel.v. *)
Inductive rstate :=
| RNext (off : Z) (l : list (option extent))                     (* 262 *)
| RZero (off todo : Z) (l : list (option extent))                (* 265-268 *)
| RZeroPut (off todo : Z) (l : list (option extent))             (* 270-273 *)
| RData (off todo : Z) (l : list (option extent))                (* 275-276 *)
| RGot (off todo : Z) (l : list (option extent)) (b : option nat)   (* 277-279 *)
| RRead (off todo : Z) (l : list (option extent)) (b : nat)      (* 281-283 *)
| RPut (off todo : Z) (l : list (option extent)) (b : nat)       (* 284-286 *)
| RFlush                                                (* 288 *)
| REnd                                                  (* 289 *)
| RJoin                                                 (* 239-242 *)
| RDone (ok : bool).

(* Where the writer is, in _write(). *)
Inductive wstate :=
| WGet                                                  (* 298 *)
| WDo (r : request)                                     (* 303-310 *)
| WBack (r : request)                                   (* 308 *)
| WError                                                (* 320 *)
| WSignal                                               (* 321 *)
| WDone.

(* s_reqs and s_bufs are the queues requests and buffers; None in s_reqs tells
   the writer to stop, None in s_bufs that the writer failed.  s_err is
   error[0].  s_clean: nothing was written after the last flush.  s_put and
   s_got only record what was put in and taken from requests. *)
(* The variables of nbdutil.py:204-321. *)
Record st := St {
  s_r : rstate;
  s_w : wstate;
  s_reqs : list (option request);
  s_bufs : list (option nat);
  s_heap : list (list byte);
  s_err : bool;
  s_dst : list byte;
  s_clean : bool;
  s_progress : Z;
  s_put : list (option request);
  s_got : list (option request)
}.

Record config := Config {
  f_src : list byte;        (* content of the source export *)
  f_exts : list (option extent);     (* what extents(client) yields *)
  f_buf : Z;                (* buf_size, 213-215 *)
  f_depth : nat             (* queue_depth *)
}.

(* nbdutil.py:204-215, the size of the buffers. *)
Definition buf_size (block_size src_max dst_max : Z) : Z :=
  Z.min block_size (Z.min src_max dst_max).

(* nbdutil.py:217-236: the state in which _read() is called. *)
Definition init (c : config) (d : list byte) : st :=
  St (RNext 0 (f_exts c)) WGet [] (map Some (seq 0 (f_depth c)))
     (repeat (zeros (f_buf c)) (f_depth c)) false d true 0 [] [].

(* queue.Queue(max): full.  A max of 0 would mean no limit. *)
(* queue.Queue of the standard library.  Used in nbdutil.py:218-226. *)
Definition full {A} (max : nat) (l : list A) : bool :=
  (0 <? max)%nat && (max <=? length l)%nat.

(* Auxiliary, no line of /repo. *)
Fixpoint set_nth {A} (i : nat) (x : A) (l : list A) : list A :=
  match l, i with
  | [], _ => []
  | _ :: l, O => x :: l
  | y :: l, S i => y :: set_nth i x l
  end.

(* No code: updates a component of the state. *)
Definition set_r (s : st) (r : rstate) : st :=
  St r (s_w s) (s_reqs s) (s_bufs s) (s_heap s) (s_err s) (s_dst s) (s_clean s)
     (s_progress s) (s_put s) (s_got s).

(* requests.put(x), then the reader goes on at r. *)
(* queue.Queue.put, for nbdutil.py:258-290. *)
Definition put_req (c : config) (s : st) (x : option request) (r : rstate) : option st :=
  if full (f_depth c * 2) (s_reqs s) then None
  else Some (St r (s_w s) (s_reqs s ++ [x]) (s_bufs s) (s_heap s) (s_err s) (s_dst s)
                (s_clean s) (s_progress s) (s_put s ++ [x]) (s_got s)).

(* An action of the reader: nbdutil.py:258-290, _read, and 236-242. ok: the NBD
   client call does not raise.  An exception of _read() ends copy() at once,
   without joining the writer.  NBD reads are complete, or raise. *)
Definition reader_step (c : config) (ok : bool) (s : st) : option st :=
  match s_r s with
  | RNext off l =>
    if negb ok then Some (set_r s (RDone false))
    else Some (set_r s (match l with
      | [] => RFlush
      | Some e :: l => if ext_zero e then RZero off (e_length e) l else RData off (e_length e) l
      | None :: _ => RDone false              (* 263: None.length raises *)
      end))
  | RZero off todo l =>
    if todo =? 0 then Some (set_r s (RNext off l))
    else if s_err s then Some (set_r s RJoin)
    else Some (set_r s (RZeroPut off todo l))
  | RZeroPut off todo l =>
    let step := Z.min todo MAX_ZERO in
    put_req c s (Some (Request ZERO off step 0)) (RZero (off + step) (todo - step) l)
  | RData off todo l =>
    if todo =? 0 then Some (set_r s (RNext off l))
    else match s_bufs s with
    | [] => None
    | b :: bufs =>
      Some (St (RGot off todo l b) (s_w s) (s_reqs s) bufs (s_heap s) (s_err s) (s_dst s)
               (s_clean s) (s_progress s) (s_put s) (s_got s))
    end
  | RGot off todo l b =>
    if s_err s then Some (set_r s RJoin)
    else match b with
    | Some b => Some (set_r s (RRead off todo l b))
    | None => Some (set_r s (RDone false))     (* 281: len(None) raises *)
    end
  | RRead off todo l b =>
    if negb ok then Some (set_r s (RDone false))
    else match nth_error (s_heap s) b with
    | Some buf =>
      let step := Z.min todo (zlen buf) in
      let heap := set_nth b (splice buf 0 (sub off step (f_src c))) (s_heap s) in
      Some (St (RPut off todo l b) (s_w s) (s_reqs s) (s_bufs s) heap (s_err s) (s_dst s)
               (s_clean s) (s_progress s) (s_put s) (s_got s))
    | None => None
    end
  | RPut off todo l b =>
    let step := Z.min todo (f_buf c) in        (* len(buf) is buf_size *)
    put_req c s (Some (Request WRITE off step b)) (RData (off + step) (todo - step) l)
  | RFlush => put_req c s (Some (Request FLUSH 0 0 0)) REnd
  | REnd => put_req c s None RJoin
  | RJoin =>
    match s_w s with
    | WDone => Some (set_r s (RDone (negb (s_err s))))
    | _ => None
    end
  | RDone _ => None
  end.

(* An action of the writer: nbdutil.py:293-321, _write.  n: bytes changed by a
   write() or zero() that raises. *)
Definition writer_step (c : config) (ok : bool) (n : Z) (s : st) : option st :=
  match s_w s with
  | WGet =>
    match s_reqs s with
    | [] => None
    | x :: reqs =>
      let w := match x with Some r => WDo r | None => WDone end in
      Some (St (s_r s) w reqs (s_bufs s) (s_heap s) (s_err s) (s_dst s) (s_clean s)
               (s_progress s) (s_put s) (s_got s ++ [x]))
    end
  | WDo r =>
    let data :=
      match r_op r with
      | WRITE => match nth_error (s_heap s) (r_buf r) with
                 | Some buf => take (r_length r) buf
                 | None => []
                 end
      | ZERO => zeros (r_length r)
      | FLUSH => []
      end in
    let data := if ok then data else take (clamp 0 (zlen data) n) data in
    let clean := match r_op r with FLUSH => ok || s_clean s | _ => false end in
    let dst := splice (s_dst s) (r_offset r) data in
    let '(w, p) :=
      if ok then match r_op r with
                 | WRITE => (WBack r, s_progress s)
                 | _ => (WGet, s_progress s + r_length r)       (* 315-316 *)
                 end
      else (WError, s_progress s) in
    Some (St (s_r s) w (s_reqs s) (s_bufs s) (s_heap s) (s_err s) dst clean p (s_put s) (s_got s))
  | WBack r =>
    if full (f_depth c + 1) (s_bufs s) then None
    else Some (St (s_r s) WGet (s_reqs s) (s_bufs s ++ [Some (r_buf r)]) (s_heap s) (s_err s)
                  (s_dst s) (s_clean s) (s_progress s + r_length r) (s_put s) (s_got s))
  | WError =>
    Some (St (s_r s) WSignal (s_reqs s) (s_bufs s) (s_heap s) true (s_dst s) (s_clean s)
             (s_progress s) (s_put s) (s_got s))
  | WSignal =>
    if full (f_depth c + 1) (s_bufs s) then None
    else Some (St (s_r s) WDone (s_reqs s) (s_bufs s ++ [None]) (s_heap s) (s_err s)
                  (s_dst s) (s_clean s) (s_progress s) (s_put s) (s_got s))
  | WDone => None
  end.

(* No code: which thread runs, and the answer it gets. *)
Inductive label := LReader (ok : bool) | LWriter (ok : bool) (n : Z).

(* nbdutil.py:258-290 and 293-321. *)
Definition step (c : config) (l : label) (s : st) : option st :=
  match l with
  | LReader ok => reader_step c ok s
  | LWriter ok n => writer_step c ok n s
  end.

(* No code: any sequence of steps. *)
Fixpoint exec (c : config) (tr : list label) (s : st) : option st :=
  match tr with
  | [] => Some s
  | l :: tr =>
    match step c l s with
    | Some s' => exec c tr s'
    | None => None
    end
  end.
