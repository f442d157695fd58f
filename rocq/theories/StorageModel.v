(* Model of requests of several connections to the same file or block device:
   the operations of ops.py (Read, Write, Zero) over the backends of
   backends/file.py, where the system calls of different connections are
   interleaved in any order.

   FileModel describes a method call of a backend as one step.  Here the same
   methods are programs: trees of system calls.  [run] executes a program
   alone, and StorageProofs shows that this is what FileModel says (run_write,
   run_zero).  [cstep] lets one of several threads make its next system call.
   Every connection has its own backend (backends/__init__.py:73-126), so its
   own file position and feature flags; the content is shared.
   Simplified: a system call is atomic.  The kernel of a connection is an
   oracle, as in FileModel; the client side (request body, socket, cancel,
   fsync) is the oracle of OpsModel. *)
From Coq Require Import ZArith List Bool.
From Verif Require Import BytesLib FileModel OpsModel.
Import ListNotations.
Open Scope Z_scope.

(* ---- programs ---- *)

(* The feature flags of a backend, file.py:271, 345-347. *)
Inductive flag := CanZeroRange | CanPunchHole | CanFallocate.
(* Reading a flag of self, file.py:296, 412, 424, 438, 457. *)
Definition flag_of (f : flag) (s : fst_) : bool :=
  match f with
  | CanZeroRange => f_can_zero_range s
  | CanPunchHole => f_can_punch_hole s
  | CanFallocate => f_can_fallocate s
  end.
(* Setting it to False, file.py:308, 419, 432, 435, 446, 477. *)
Definition clear_flag (f : flag) (s : fst_) : fst_ :=
  match f with
  | CanZeroRange => set_zero_range false s
  | CanPunchHole => set_punch_hole false s
  | CanFallocate => set_fallocate false s
  end.

(* The system calls made in file.py, and the accesses to the state of the
   backend; the type is that of the result. *)
Inductive sys : Type -> Type :=
| STell : sys Z                                     (* file.py:97-98 *)
| SSeek (p : Z) : sys unit                          (* file.py:100-101 *)
| SFstat : sys Z                                    (* file.py:439, 461 *)
| SRead (buf : list byte) : sys (list byte * Z)     (* file.py:74-75 *)
| SWrite (buf : list byte) : sys Z                  (* file.py:85, 89, 229 *)
| SZeroRange (off n : Z) : sys unit                 (* file.py:299, 414 *)
| SBlkZeroOut (off n : Z) : sys unit                (* file.py:315 *)
| SPunchHole (off n : Z) : sys unit                 (* file.py:426, 472 *)
| SAllocate (off n : Z) : sys unit                  (* file.py:427, 441 *)
| STruncate (n : Z) : sys unit                      (* file.py:497 *)
| SFlag (f : flag) : sys bool
| SClear (f : flag) : sys unit.

(* What a call does: FileModel, after file.py:74-101 and 483-497. *)
Definition perform (c : fcfg) {B : Type} (o : sys B) : M B :=
  match o with
  | STell => tell
  | SSeek p => seek p
  | SFstat => fstat_size
  | SRead buf => sys_read c buf
  | SWrite buf => sys_write c buf
  | SZeroRange off n => sys_zero_range c CZeroRange off n
  | SBlkZeroOut off n => sys_zero_range c CBlkZeroOut off n
  | SPunchHole off n => sys_punch_hole c off n
  | SAllocate off n => sys_allocate c off n
  | STruncate n => sys_truncate c n
  | SFlag f => get (flag_of f)
  | SClear f => upd (clear_flag f)
  end.

(* A Python function up to its next system call (file.py, ops.py: all the
   methods below have this form). *)
Inductive prog (A : Type) : Type :=
| Ret (a : A)
| Raise (x : exc)
| Sys (B : Type) (o : sys B) (k : B + exc -> prog A).
Arguments Ret {A}.
Arguments Raise {A}.
Arguments Sys {A B}.

(* One call, an exception is not caught (Python semantics; no line). *)
Definition call_ {B : Type} (o : sys B) : prog B :=
  Sys o (fun r => match r with inl b => Ret b | inr x => Raise x end).

(* Sequence (Python semantics; no line). *)
Fixpoint bind_p {A B : Type} (m : prog A) (f : A -> prog B) : prog B :=
  match m with
  | Ret a => f a
  | Raise x => Raise x
  | Sys o k => Sys o (fun r => bind_p (k r) f)
  end.
Notation "'let_' x <- m ; f" := (bind_p m (fun x => f))
  (at level 200, x name, m at level 100, f at level 200).

(* A thread running alone (Python semantics; no line). *)
Fixpoint run {A : Type} (c : fcfg) (p : prog A) : M A :=
  match p with
  | Ret a => ret a
  | Raise x => raise x
  | Sys o k => fun s => let (s, r) := perform c o s in run c (k r) s
  end.

(* ---- file.py as programs ---- *)

(* file.py:193-234, _write_unaligned. *)
Definition write_unaligned_p (c : fcfg) (buf : list byte) : prog Z :=
  let_ start <- call_ STell ;
  let offset := start mod c_bs c in
  let count := Z.min (zlen buf) (c_bs c - offset) in                  (* 210 *)
  let_ _ <- call_ (SSeek (start - offset)) ;                          (* 218 *)
  let_ r <- call_ (SRead (zeros (c_bs c))) ;                          (* 215, 219 *)
  let block := assign (fst r) offset (py_slice 0 count buf) in        (* 222 *)
  let_ _ <- call_ (SSeek (start - offset)) ;                          (* 228 *)
  let_ _ <- call_ (SWrite block) ;                                    (* 229 *)
  let_ _ <- call_ (SSeek (start + count)) ;                           (* 232 *)
  Ret count.

(* file.py:77-89, write. *)
Definition write_p (c : fcfg) (buf : list byte) : prog Z :=
  let_ pos <- call_ STell ;
  if negb (aligned c pos) || (zlen buf <? c_bs c) then write_unaligned_p c buf
  else if aligned c (zlen buf) then call_ (SWrite buf)
  else call_ (SWrite (py_slice 0 (round_down (zlen buf) (c_bs c)) buf)).

(* file.py:499-506, _write_zeros; the loop of lines 505-506. *)
Fixpoint write_zeros_loop_p (fuel : nat) (c : fcfg) (buf : list byte) (count : Z) : prog unit :=
  match fuel with
  | O => Raise NoFuel
  | S fuel =>
      if count =? 0 then Ret tt
      else let_ n <- write_p c (py_slice 0 count buf) ;
           write_zeros_loop_p fuel c buf (count - n)
  end.
(* file.py:499-504. *)
Definition write_zeros_p (fuel : nat) (c : fcfg) (count : Z) : prog unit :=
  write_zeros_loop_p fuel c (zeros (Z.min count MiB)) count.

(* file.py:483-494, FileBackend._fallocate. *)
Definition fallocate_p (o : sys unit) : prog bool :=
  Sys o (fun r => match r with
                  | inl _ => Ret true
                  | inr (Raised EOPNOTSUPP) => Ret false
                  | inr x => Raise x
                  end).

(* file.py:416-417 and similar: seek(offset + count); return count. *)
Definition finish_p (offset count : Z) : prog (option Z) :=
  let_ _ <- call_ (SSeek (offset + count)) ; Ret (Some count).
(* The next attempt, when the first one did not return (file.py:404-481). *)
Definition or_else_p {A : Type} (m : prog (option Z)) (ok : Z -> prog A) (next : prog A) : prog A :=
  let_ r <- m ; match r with Some n => ok n | None => next end.

(* file.py:404-450, FileBackend._zero. *)
Definition file_zero_p (fuel : nat) (c : fcfg) (count : Z) : prog Z :=
  let_ offset <- call_ STell ;                                        (* 408 *)
  or_else_p
    (let_ can <- call_ (SFlag CanZeroRange) ;                         (* 412-419 *)
     if can : bool then
       let_ ok <- fallocate_p (SZeroRange offset count) ;
       if ok : bool then finish_p offset count
       else let_ _ <- call_ (SClear CanZeroRange) ; Ret None
     else Ret None)
    Ret
    (or_else_p
       (let_ can1 <- call_ (SFlag CanPunchHole) ;                     (* 424-435 *)
        let_ can2 <- call_ (SFlag CanFallocate) ;
        if can1 && can2 : bool then
          let_ ok <- fallocate_p (SPunchHole offset count) ;
          if ok : bool then
            let_ ok <- fallocate_p (SAllocate offset count) ;
            if ok : bool then finish_p offset count
            else let_ _ <- call_ (SClear CanFallocate) ; Ret None
          else let_ _ <- call_ (SClear CanPunchHole) ; Ret None
        else Ret None)
       Ret
       (or_else_p
          (let_ can <- call_ (SFlag CanFallocate) ;                   (* 438-446 *)
           if can : bool then
             let_ size <- call_ SFstat ;
             if size <=? offset then
               let_ ok <- fallocate_p (SAllocate offset count) ;
               if ok : bool then finish_p offset count
               else let_ _ <- call_ (SClear CanFallocate) ; Ret None
             else Ret None
           else Ret None)
          Ret
          (let_ _ <- write_zeros_p fuel c count ; Ret count))).       (* 449-450 *)

(* file.py:452-481, FileBackend._zero_sparse. *)
Definition file_zero_sparse_p (fuel : nat) (c : fcfg) (count : Z) : prog Z :=
  or_else_p
    (let_ can <- call_ (SFlag CanPunchHole) ;                         (* 457-477 *)
     if can : bool then
       let_ offset <- call_ STell ;
       let_ size <- call_ SFstat ;
       or_else_p
         (if size <? offset + count then
            let_ _ <- call_ (STruncate (offset + count)) ;
            if size =? offset then finish_p offset count else Ret None
          else Ret None)
         (fun n => Ret (Some n))
         (let_ ok <- fallocate_p (SPunchHole offset count) ;
          if ok : bool then finish_p offset count
          else let_ _ <- call_ (SClear CanPunchHole) ; Ret None)
     else Ret None)
    Ret
    (let_ _ <- write_zeros_p fuel c count ; Ret count).               (* 480-481 *)

(* file.py:287-322, BlockBackend._zero. *)
Definition block_zero_p (c : fcfg) (count : Z) : prog Z :=
  let_ offset <- call_ STell ;                                        (* 291 *)
  or_else_p
    (let_ can <- call_ (SFlag CanFallocate) ;                         (* 296-312 *)
     if can : bool then
       Sys (SZeroRange offset count) (fun r =>
         match r with
         | inl _ => finish_p offset count
         | inr (Raised EOPNOTSUPP) | inr (Raised ENODEV) =>
             let_ _ <- call_ (SClear CanFallocate) ; Ret None
         | inr x => Raise x
         end)
     else Ret None)
    Ret
    (let_ _ <- call_ (SBlkZeroOut offset count) ;                     (* 315-317 *)
     let_ _ <- call_ (SSeek (offset + count)) ;
     Ret count).

(* file.py:120-139, Backend.zero. *)
Definition zero_p (fuel : nat) (c : fcfg) (count : Z) : prog Z :=
  let_ start <- call_ STell ;
  if negb (aligned c start) || (count <? c_bs c) then
    write_unaligned_p c (zeros (Z.min count (c_bs c - start mod c_bs c)))
  else
    let count := round_down count (c_bs c) in
    if c_block c then block_zero_p c count
    else if c_sparse c then file_zero_sparse_p fuel c count
    else file_zero_p fuel c count.

(* ---- ops.py over the backend ---- *)

(* What a request gives: how it ended, and the bytes sent to the client. *)
(* The outcome of ops.py:51-58. *)
Record reply := Reply { p_outcome : outcome; p_sent : list byte }.

(* ops.py:98-121, Read._read_chunk; the fields r_pos and r_calls of the state
   are not used by the code, they record tell() and the calls. *)
Definition read_chunk_p (c : fcfg) (size skip : Z) (s : rst) (a : rans)
  : prog (rst * option outcome) :=
  let_ pos <- call_ STell ;
  let s := RSt pos (r_buf s) (r_done s) (r_sent s) (r_calls s) (S (r_chunks s)) in
  if negb (pos mod c_bs c =? 0) then Ret (s, Some PartialContent)     (* 99-100 *)
  else
    let todo := size - r_done s in
    let n := py_stop (round_up todo (c_bs c)) (zlen (r_buf s)) in     (* 104-106 *)
    let_ r <- call_ (SRead (take n (r_buf s))) ;                      (* 108 *)
    let count := snd r in
    let buf := fst r ++ drop n (r_buf s) in
    let calls := r_calls s ++ [(pos, n)] in
    if count =? 0 then                                                (* 110-111 *)
      Ret (RSt (pos + count) buf (r_done s) (r_sent s) calls (r_chunks s), Some PartialContent)
    else
      let n := Z.min (count - skip) todo in                           (* 113 *)
      let view := py_slice skip (skip + n) buf in                     (* 114 *)
      match ra_send a with                                            (* 116 *)
      | Some k => Ret (RSt (pos + count) buf (r_done s) (r_sent s ++ take k view) calls (r_chunks s),
                       Some Failed)
      | None => Ret (RSt (pos + count) buf (r_done s + n) (r_sent s ++ view) calls (r_chunks s),
                     if ra_cancel a then Some Canceled else None)     (* 118-121 *)
      end.

(* ops.py:95-96. *)
Fixpoint read_loop_p (fuel : nat) (c : fcfg) (size : Z) (o : nat -> rans) (s : rst)
  : prog (rst * outcome) :=
  match fuel with
  | O => Raise NoFuel
  | S fuel =>
      if size - r_done s =? 0 then Ret (s, Success)
      else let_ r <- read_chunk_p c size 0 s (o (r_chunks s)) ;
           match r with
           | (s, Some e) => Ret (s, e)
           | (s, None) => read_loop_p fuel c size o s
           end
  end.

(* ops.py:90-96, Read._run.  A backend exception after some chunks loses the
   record of what was sent; it is kept for the other outcomes. *)
Definition get_p (fuel : nat) (c : fcfg) (buf : list byte) (offset size : Z) (o : nat -> rans)
  : prog reply :=
  let skip := offset mod c_bs c in                                    (* 91 *)
  let_ _ <- call_ (SSeek (offset - skip)) ;                           (* 92 *)
  let s := RSt (offset - skip) buf 0 [] [] 0 in
  let_ r <- (if skip =? 0 then read_loop_p fuel c size o s
             else let_ r <- read_chunk_p c size skip s (o O) ;        (* 93-94 *)
                  match r with
                  | (s, Some e) => Ret (s, e)
                  | (s, None) => read_loop_p fuel c size o s
                  end) ;
  Ret (Reply (snd r) (r_sent (fst r))).

(* ops.py:180-186: write all the bytes read. *)
Fixpoint drain_p (fuel : nat) (c : fcfg) (data : list byte) : prog unit :=
  match fuel with
  | O => Raise NoFuel
  | S fuel =>
      match data with
      | [] => Ret tt
      | _ => let_ n <- write_p c data ; drain_p fuel c (drop n data)
      end
  end.

(* ops.py:167-195, Write._write_chunk.  Reading the body is OpsModel.fill; the
   fields w_img, w_pos, w_log and w_wi of the state are not used. *)
Definition write_chunk_p (fuel : nat) (c : fcfg) (o : woracle) (buflen : Z) (size : option Z)
  (count : Z) (s : wst) : prog (wst * chunk_end) :=
  match fill fuel o buflen count s [] with
  | None => Raise NoFuel
  | Some (s, _, Some e) => Ret (s, Stop e)
  | Some (s, got, None) =>
      let_ _ <- drain_p fuel c got ;
      let s' := fun ci => WSt (w_img s) (w_pos s) (w_body s) (w_done s + zlen got)  (* 188 *)
                              (w_log s) (w_ri s) (w_wi s) ci in
      if zlen got <? count then                                       (* 189-192 *)
        match size with
        | None => Ret (s' (w_ci s), Eof)
        | Some _ => Ret (s' (w_ci s), Stop PartialContent)
        end
      else Ret (s' (S (w_ci s)), if wo_cancel o (w_ci s) then Stop Canceled else Go)
  end.

(* ops.py:157-159. *)
Fixpoint write_loop_p (fuel : nat) (c : fcfg) (o : woracle) (buflen : Z) (size : option Z) (s : wst)
  : prog (wst * chunk_end) :=
  match fuel with
  | O => Raise NoFuel
  | S fuel' =>
      let todo := write_todo buflen size s in
      if todo =? 0 then Ret (s, Go)
      else let_ r <- write_chunk_p fuel c o buflen size (Z.min todo buflen) s ;
           match r with
           | (s, Go) => write_loop_p fuel' c o buflen size s
           | r => Ret r
           end
  end.

(* ops.py:144-165, Write._run. *)
Definition put_p (fuel : nat) (c : fcfg) (body : list byte) (buflen offset : Z) (size : option Z)
  (flush : bool) (o : woracle) : prog reply :=
  let s := WSt [] offset body 0 [] 0 0 0 in
  let_ _ <- call_ (SSeek offset) ;                                    (* 146 *)
  let unaligned := offset mod c_bs c in                               (* 150 *)
  let_ r <- (if unaligned =? 0 then Ret (s, Go)
             else write_chunk_p fuel c o buflen size                  (* 151-153 *)
                    (Z.min (write_todo buflen size s) (c_bs c - unaligned)) s) ;
  let_ r <- (match r with
             | (s, Go) => write_loop_p fuel c o buflen size s
             | r => Ret r
             end) ;
  match r with
  | (_, Stop e) => Ret (Reply e [])
  | _ => Ret (Reply (if flush && negb (wo_flush o) then Failed else Success) [])  (* 163-165 *)
  end.

(* ops.py:227-234; [done] is self._done, [i] counts the tests of line 233. *)
Fixpoint zero_loop_p (fuel : nat) (c : fcfg) (o : woracle) (size done : Z) (i : nat)
  : prog (option outcome) :=
  match fuel with
  | O => Raise NoFuel
  | S fuel' =>
      let todo := size - done in
      if todo =? 0 then Ret None
      else let_ n <- zero_p fuel c (Z.min todo MAX_STEP) ;
           if wo_cancel o i then Ret (Some Canceled)
           else zero_loop_p fuel' c o size (done + n) (S i)
  end.

(* ops.py:224-238, Zero._run. *)
Definition zero_op_p (fuel : nat) (c : fcfg) (offset size : Z) (flush : bool) (o : woracle)
  : prog reply :=
  let_ _ <- call_ (SSeek offset) ;
  let_ r <- zero_loop_p fuel c o size 0 O ;
  match r with
  | Some e => Ret (Reply e [])
  | None => Ret (Reply (if flush && negb (wo_flush o) then Failed else Success) [])
  end.

(* ---- several connections ---- *)

(* A request being served by a connection thread (http.py:208-245): its
   backend, and the rest of its program. *)
Record thread := Thread {
  th_cfg : fcfg;
  th_own : fst_;           (* position, flags, calls made; f_data is not used *)
  th_prog : prog reply
}.

(* The state of a backend [s] with the shared content [d] (file.py:60-68: a
   backend has its own file object). *)
Definition with_data (d : list byte) (s : fst_) : fst_ :=
  FSt d (f_pos s) (f_calls s) (f_log s) (f_can_zero_range s) (f_can_punch_hole s)
      (f_can_fallocate s).

(* One thread makes its next system call (Python threads; no line). *)
Definition tstep (d : list byte) (t : thread) : option (list byte * thread) :=
  match th_prog t with
  | Sys o k =>
      let (s, r) := perform (th_cfg t) o (with_data d (th_own t)) in
      Some (f_data s, Thread (th_cfg t) s (k r))
  | _ => None
  end.

(* Replace the i-th element (auxiliary; no line). *)
Fixpoint set_at {A : Type} (i : nat) (x : A) (l : list A) : list A :=
  match l, i with
  | [], _ => []
  | _ :: l, O => x :: l
  | y :: l, S i => y :: set_at i x l
  end.

(* The threads run in the order [sched]; None if a thread that ended is chosen
   (Python threads; no line). *)
Fixpoint execute (sched : list nat) (d : list byte) (ts : list thread)
  : option (list byte * list thread) :=
  match sched with
  | [] => Some (d, ts)
  | i :: sched =>
      match nth_error ts i with
      | None => None
      | Some t =>
          match tstep d t with
          | None => None
          | Some (d, t) => execute sched d (set_at i t ts)
          end
      end
  end.

(* The result of a thread that ended (http.py:208-245: an exception of the
   backend is an error reply). *)
Definition result (t : thread) : option (reply + exc) :=
  match th_prog t with
  | Ret r => Some (inl r)
  | Raise x => Some (inr x)
  | Sys _ _ => None
  end.

(* The requests of handlers/images.py on a range of the image: GET (80-147),
   PUT (30-77) and PATCH with op zero (170-201), as the operations of ops.py
   that they run; the size of a PUT is its Content-Length. *)
Inductive request :=
| Get (buf : list byte) (offset size : Z) (o : nat -> rans)
| Put (body : list byte) (buflen offset size : Z) (flush : bool) (o : woracle)
| Zero (offset size : Z) (flush : bool) (o : woracle).

(* The program of a request (ops.py). *)
Definition handle (fuel : nat) (c : fcfg) (r : request) : prog reply :=
  match r with
  | Get buf offset size o => get_p fuel c buf offset size o
  | Put body buflen offset size flush o => put_p fuel c body buflen offset (Some size) flush o
  | Zero offset size flush o => zero_op_p fuel c offset size flush o
  end.

(* A connection that starts to serve a request; its backend was used before. *)
(* A backend of backends/__init__.py:73-126 and its request. *)
Record connection := Connection {
  k_cfg : fcfg;
  k_state : fst_;        (* f_data is not used *)
  k_fuel : nat;
  k_request : request
}.
(* http.py:208-245 for this request. *)
Definition start (k : connection) : thread :=
  Thread (k_cfg k) (k_state k) (handle (k_fuel k) (k_cfg k) (k_request k)).
