(* Model of ovirt_imageio/_internal/backends/file.py: write, zero, size,
   extents and block size detection of FileBackend and BlockBackend, over a
   small model of the system calls used.

   The kernel is an oracle giving an answer for every system call; theorems
   quantify over all oracles.  Every system call that takes a range of the file
   is recorded in a log.
   Not modelled: memory alignment of buffers, the page cache, allocation of
   disk space (only visible content matters), the dirty flag, logging, open,
   clone and close. *)
From Coq Require Import ZArith List Bool.
From Verif Require Import BytesLib.
Import ListNotations.
Open Scope Z_scope.

(* errno values the code distinguishes (file.py:302, 387, 492). *)
Inductive errno := EOPNOTSUPP | ENODEV | EINVAL | EOTHER.

(* Answer of the kernel to one system call. *)
(* The kernel, no line of /repo. *)
Inductive sans :=
| Done (n : Z)               (* success, n bytes for read and write *)
| Err (e : errno) (k : Z).   (* error; the first k bytes may have been done *)

(* System calls with a range. *)
(* The kernel, no line of /repo. *)
Inductive call :=
| CRead (pos len : Z)
| CWrite (pos len : Z)
| CZeroRange (pos len : Z)     (* fallocate(FALLOC_FL_ZERO_RANGE) *)
| CPunchHole (pos len : Z)     (* fallocate(PUNCH_HOLE | KEEP_SIZE) *)
| CAllocate (pos len : Z)      (* fallocate(0) *)
| CBlkZeroOut (pos len : Z)    (* ioctl(BLKZEROOUT) *)
| CTruncate (size : Z).

(* Why a call did not return a value. *)
Inductive exc :=
| Raised (e : errno)     (* OSError *)
| AttrError              (* AttributeError, file.py:402 *)
| NoFuel.                (* the fuel of a loop ran out; no Python exception *)

Record fst_ := FSt {
  f_data : list byte;      (* content of the file or device *)
  f_pos : Z;               (* file position *)
  f_calls : nat;           (* number of answers used *)
  f_log : list call;       (* system calls made, in order *)
  f_can_zero_range : bool; (* self._can_zero_range, file.py:345 *)
  f_can_punch_hole : bool; (* self._can_punch_hole, file.py:346 *)
  f_can_fallocate : bool   (* self._can_fallocate, file.py:271, 347 *)
}.

(* Static facts of a backend. *)
Record fcfg := FCfg {
  c_block : bool;          (* BlockBackend (true) or FileBackend, file.py:42 *)
  c_bs : Z;                (* self._block_size *)
  c_sparse : bool;         (* self._sparse *)
  c_kernel : nat -> call -> sans   (* the kernel's answer to the n-th system call *)
}.

(* A method call: changes the state, returns a value or raises. *)
(* State and exception monad, no code of its own. *)
Definition M (A : Type) : Type := fst_ -> fst_ * (A + exc).
(* State and exception monad, no code of its own. *)
Definition ret {A} (a : A) : M A := fun s => (s, inl a).
(* State and exception monad, no code of its own. *)
Definition raise {A} (x : exc) : M A := fun s => (s, inr x).
(* State and exception monad, no code of its own. *)
Definition bind {A B} (m : M A) (f : A -> M B) : M B :=
  fun s => match m s with
           | (s, inl a) => f a s
           | (s, inr x) => (s, inr x)
           end.
Notation "'do' x <- m ; f" := (bind m (fun x => f))
  (at level 200, x name, m at level 100, f at level 200).

(* No code: updates a component of the state. *)
Definition set_pos (p : Z) (s : fst_) : fst_ :=
  FSt (f_data s) p (f_calls s) (f_log s) (f_can_zero_range s) (f_can_punch_hole s)
      (f_can_fallocate s).
(* No code: updates a component of the state. *)
Definition set_zero_range (b : bool) (s : fst_) : fst_ :=
  FSt (f_data s) (f_pos s) (f_calls s) (f_log s) b (f_can_punch_hole s) (f_can_fallocate s).
(* No code: updates a component of the state. *)
Definition set_punch_hole (b : bool) (s : fst_) : fst_ :=
  FSt (f_data s) (f_pos s) (f_calls s) (f_log s) (f_can_zero_range s) b (f_can_fallocate s).
(* No code: updates a component of the state. *)
Definition set_fallocate (b : bool) (s : fst_) : fst_ :=
  FSt (f_data s) (f_pos s) (f_calls s) (f_log s) (f_can_zero_range s) (f_can_punch_hole s) b.

(* ---- system calls ---- *)

(* One system call made: its answer is used up and it is logged. *)
(* No code: updates a component of the state. *)
Definition called (c : call) (data : list byte) (pos : Z) (s : fst_) : fst_ :=
  FSt data pos (S (f_calls s)) (f_log s ++ [c]) (f_can_zero_range s) (f_can_punch_hole s)
      (f_can_fallocate s).

(* file.py:91-95, tell and seek(pos): lseek(2), which does not fail for the
   non negative positions used here. *)
Definition tell : M Z := fun s => (s, inl (f_pos s)).
Definition seek (p : Z) : M unit := fun s => (set_pos p s, inl tt).

(* os.fstat(fd).st_size, file.py:439, 461; of a regular file. *)
Definition fstat_size : M Z := fun s => (s, inl (zlen (f_data s))).

(* io.FileIO.readinto of a buffer holding [buf]: read(2).  POSIX: returns
   n <= len(buf) bytes of the file, nothing only at the end of the file. *)
(* The kernel; called in backends/file.py:74-75 and 193-234. *)
Definition sys_read (c : fcfg) (buf : list byte) : M (list byte * Z) := fun s =>
  let pos := f_pos s in
  let avail := Z.max 0 (Z.min (zlen buf) (zlen (f_data s) - pos)) in
  match c_kernel c (f_calls s) (CRead pos (zlen buf)) with
  | Done n =>
      let n := Z.max (Z.min 1 avail) (Z.min avail n) in
      (called (CRead pos (zlen buf)) (f_data s) (pos + n) s,
       inl (sub pos n (f_data s) ++ drop n buf, n))
  | Err e _ => (called (CRead pos (zlen buf)) (f_data s) pos s, inr (Raised e))
  end.

(* How many bytes can be stored at [pos]: a block device does not grow. *)
(* The kernel, no line of /repo. *)
Definition room (c : fcfg) (s : fst_) (len : Z) : Z :=
  if c_block c then Z.max 0 (Z.min len (zlen (f_data s) - f_pos s)) else len.

(* io.FileIO.write(buf): write(2).  POSIX: stores 1 <= n <= len(buf) bytes
   (none only if buf is empty); nothing can be stored after the end of a block
   device (ENOSPC). *)
(* The kernel; called in backends/file.py:77-89, 193-234 and 499-506. *)
Definition sys_write (c : fcfg) (buf : list byte) : M Z := fun s =>
  let pos := f_pos s in
  let avail := room c s (zlen buf) in
  match c_kernel c (f_calls s) (CWrite pos (zlen buf)) with
  | Done n =>
      let n := Z.max (Z.min 1 avail) (Z.min avail n) in
      if (avail =? 0) && negb (zlen buf =? 0) then
        (called (CWrite pos (zlen buf)) (f_data s) pos s, inr (Raised EOTHER))
      else
        (called (CWrite pos (zlen buf)) (splice (f_data s) pos (take n buf)) (pos + n) s, inl n)
  | Err e k =>
      (called (CWrite pos (zlen buf)) (splice (f_data s) pos (take (Z.min avail k) buf)) pos s,
       inr (Raised e))
  end.

(* Content after [n] bytes at [off] were zeroed without growing the file. *)
(* The kernel, for backends/file.py:287-322 and 404-497. *)
Definition punch (data : list byte) (off n : Z) : list byte :=
  take (zlen data) (splice data off (zeros n)).

(* Content after zeroing, growing a regular file if needed. *)
(* The kernel, for backends/file.py:287-322 and 404-497. *)
Definition zero_range (c : fcfg) (data : list byte) (off n : Z) : list byte :=
  if c_block c then punch data off n else splice data off (zeros n).

(* fallocate(2) with FALLOC_FL_ZERO_RANGE, ioctl BLKZEROOUT (blkdev, see
   ioutil.c:25-46).  Out of range requests on a block device fail.  An
   unsupported call changes nothing, another error may come after a part of
   the work was done. *)
Definition sys_zero_range (c : fcfg) (mk : Z -> Z -> call) (off n : Z) : M unit := fun s =>
  if c_block c && (zlen (f_data s) <? off + n) then
    (called (mk off n) (f_data s) (f_pos s) s, inr (Raised EINVAL))
  else
    match c_kernel c (f_calls s) (mk off n) with
    | Done _ => (called (mk off n) (zero_range c (f_data s) off n) (f_pos s) s, inl tt)
    | Err EOPNOTSUPP _ => (called (mk off n) (f_data s) (f_pos s) s, inr (Raised EOPNOTSUPP))
    | Err ENODEV _ => (called (mk off n) (f_data s) (f_pos s) s, inr (Raised ENODEV))
    | Err e k =>
        (called (mk off n) (zero_range c (f_data s) off (Z.max 0 (Z.min k n))) (f_pos s) s,
         inr (Raised e))
    end.

(* fallocate(2) with FALLOC_FL_PUNCH_HOLE | FALLOC_FL_KEEP_SIZE; regular
   files only. *)
(* The kernel; called in backends/file.py:452-481 (ioutil.fallocate). *)
Definition sys_punch_hole (c : fcfg) (off n : Z) : M unit := fun s =>
  match c_kernel c (f_calls s) (CPunchHole off n) with
  | Done _ => (called (CPunchHole off n) (punch (f_data s) off n) (f_pos s) s, inl tt)
  | Err EOPNOTSUPP _ =>
      (called (CPunchHole off n) (f_data s) (f_pos s) s, inr (Raised EOPNOTSUPP))
  | Err e k =>
      (called (CPunchHole off n) (punch (f_data s) off (Z.max 0 (Z.min k n))) (f_pos s) s,
       inr (Raised e))
  end.

(* fallocate(2) with mode 0: allocates, growing the file if needed; existing
   bytes do not change.  Regular files only. *)
(* The kernel; called in backends/file.py:483-494 (ioutil.fallocate). *)
Definition sys_allocate (c : fcfg) (off n : Z) : M unit := fun s =>
  match c_kernel c (f_calls s) (CAllocate off n) with
  | Done _ =>
      (called (CAllocate off n) (f_data s ++ zeros (off + n - zlen (f_data s))) (f_pos s) s,
       inl tt)
  | Err e _ => (called (CAllocate off n) (f_data s) (f_pos s) s, inr (Raised e))
  end.

(* ftruncate(2) to a larger size, file.py:496-497; regular files only. *)
Definition sys_truncate (c : fcfg) (size : Z) : M unit := fun s =>
  match c_kernel c (f_calls s) (CTruncate size) with
  | Done _ =>
      (called (CTruncate size) (take size (f_data s ++ zeros (size - zlen (f_data s))))
              (f_pos s) s, inl tt)
  | Err e _ => (called (CTruncate size) (f_data s) (f_pos s) s, inr (Raised e))
  end.

(* ---- Backend, file.py:48-247 ---- *)

(* util.py:44-45. *)
Definition round_down (n size : Z) : Z := n - n mod size.

(* file.py:187-191. *)
Definition aligned (c : fcfg) (n : Z) : bool := Z.land n (c_bs c - 1) =? 0.

(* Python: block[i:j] = data, for an mmap block, where data has j - i bytes. *)
(* Python semantics, for backends/file.py:193-234. *)
Definition assign (block : list byte) (i : Z) (data : list byte) : list byte :=
  take i block ++ data ++ drop (i + zlen data) block.

(* file.py:193-234, _write_unaligned.  A new aligned buffer is an anonymous
   mmap, full of zeros. *)
Definition write_unaligned (c : fcfg) (buf : list byte) : M Z :=
  do start <- tell ;
  let offset := start mod c_bs c in
  let count := Z.min (zlen buf) (c_bs c - offset) in                  (* 210 *)
  let block := zeros (c_bs c) in                                      (* 215 *)
  do _ <- seek (start - offset) ;                                     (* 218 *)
  do r <- sys_read c block ;                                          (* 219 *)
  let block := assign (fst r) offset (py_slice 0 count buf) in        (* 222 *)
  do _ <- seek (start - offset) ;                                     (* 228 *)
  do _ <- sys_write c block ;                                         (* 229 *)
  do _ <- seek (start + count) ;                                      (* 232 *)
  ret count.

(* file.py:77-89, write. *)
Definition write (c : fcfg) (buf : list byte) : M Z :=
  do pos <- tell ;
  if negb (aligned c pos) || (zlen buf <? c_bs c) then write_unaligned c buf
  else if aligned c (zlen buf) then sys_write c buf
  else
    let count := round_down (zlen buf) (c_bs c) in
    sys_write c (py_slice 0 count buf).

(* units.py: MiB. *)
Definition MiB : Z := 1048576.

(* file.py:499-506, _write_zeros; the loop of lines 505-506. *)
Fixpoint write_zeros_loop (fuel : nat) (c : fcfg) (buf : list byte) (count : Z) : M unit :=
  match fuel with
  | O => raise NoFuel
  | S fuel =>
      if count =? 0 then ret tt
      else do n <- write c (py_slice 0 count buf) ;
           write_zeros_loop fuel c buf (count - n)
  end.

(* backends/file.py:499-506. *)
Definition write_zeros (fuel : nat) (c : fcfg) (count : Z) : M unit :=
  write_zeros_loop fuel c (zeros (Z.min count MiB)) count.

(* file.py:483-494, FileBackend._fallocate around one fallocate call. *)
Definition fallocate (m : M unit) : M bool := fun s =>
  match m s with
  | (s, inl _) => (s, inl true)
  | (s, inr (Raised EOPNOTSUPP)) => (s, inl false)
  | (s, inr x) => (s, inr x)
  end.

(* Reading and clearing the feature flags of self. *)
(* No code: self.can_zero_range and similar in backends/file.py:287-494. *)
Definition get (f : fst_ -> bool) : M bool := fun s => (s, inl (f s)).
(* No code: self.can_zero_range and similar in backends/file.py:287-494. *)
Definition upd (f : fst_ -> fst_) : M unit := fun s => (f s, inl tt).

(* file.py:440 and similar: seek(offset + count); return count. *)
Definition finish (offset count : Z) : M (option Z) :=
  do _ <- seek (offset + count) ; ret (Some count).

(* Python falls through to the next attempt when the result is None. *)
(* Python semantics, for backends/file.py:404-481. *)
Definition or_else (m : M (option Z)) (next : M Z) : M Z :=
  do r <- m ; match r with Some n => ret n | None => next end.

(* The same inside a nested block, where the next attempt can fall through. *)
(* Python semantics, for backends/file.py:404-481. *)
Definition or_else' (m next : M (option Z)) : M (option Z) :=
  do r <- m ; match r with Some n => ret (Some n) | None => next end.

(* file.py:404-450, FileBackend._zero. *)
Definition file_zero (fuel : nat) (c : fcfg) (count : Z) : M Z :=
  do offset <- tell ;                                                 (* 408 *)
  or_else
    (do can <- get f_can_zero_range ;                                 (* 412-419 *)
     if can then
       do ok <- fallocate (sys_zero_range c CZeroRange offset count) ;
       if ok then finish offset count
       else do _ <- upd (set_zero_range false) ; ret None
     else ret None)
    (or_else
       (do can1 <- get f_can_punch_hole ;                             (* 424-435 *)
        do can2 <- get f_can_fallocate ;
        if can1 && can2 then
          do ok <- fallocate (sys_punch_hole c offset count) ;
          if ok then
            do ok <- fallocate (sys_allocate c offset count) ;
            if ok then finish offset count
            else do _ <- upd (set_fallocate false) ; ret None
          else do _ <- upd (set_punch_hole false) ; ret None
        else ret None)
       (or_else
          (do can <- get f_can_fallocate ;                            (* 438-446 *)
           if can then
             do size <- fstat_size ;
             if size <=? offset then
               do ok <- fallocate (sys_allocate c offset count) ;
               if ok then finish offset count
               else do _ <- upd (set_fallocate false) ; ret None
             else ret None
           else ret None)
          (do _ <- write_zeros fuel c count ; ret count))).           (* 449-450 *)

(* file.py:452-481, FileBackend._zero_sparse. *)
Definition file_zero_sparse (fuel : nat) (c : fcfg) (count : Z) : M Z :=
  or_else
    (do can <- get f_can_punch_hole ;                                 (* 457-477 *)
     if can then
       do offset <- tell ;
       do size <- fstat_size ;
       or_else'
         (if size <? offset + count then
            do _ <- sys_truncate c (offset + count) ;
            if size =? offset then finish offset count else ret None
          else ret None)
         (do ok <- fallocate (sys_punch_hole c offset count) ;
          if ok then finish offset count
          else do _ <- upd (set_punch_hole false) ; ret None)
     else ret None)
    (do _ <- write_zeros fuel c count ; ret count).                   (* 480-481 *)

(* file.py:287-317, BlockBackend._zero, also used for _zero_sparse (322). *)
Definition block_zero (c : fcfg) (count : Z) : M Z :=
  do offset <- tell ;                                                 (* 291 *)
  or_else
    (do can <- get f_can_fallocate ;                                  (* 296-312 *)
     if can then fun s =>
       match sys_zero_range c CZeroRange offset count s with
       | (s, inl _) => finish offset count s
       | (s, inr (Raised EOPNOTSUPP)) | (s, inr (Raised ENODEV)) =>
           (set_fallocate false s, inl None)
       | (s, inr x) => (s, inr x)
       end
     else ret None)
    (do _ <- sys_zero_range c CBlkZeroOut offset count ;              (* 315-317 *)
     do _ <- seek (offset + count) ;
     ret count).

(* file.py:120-139, Backend.zero. *)
Definition zero (fuel : nat) (c : fcfg) (count : Z) : M Z :=
  do start <- tell ;
  if negb (aligned c start) || (count <? c_bs c) then
    let count := Z.min count (c_bs c - start mod c_bs c) in
    write_unaligned c (zeros count)
  else
    let count := round_down count (c_bs c) in
    if c_block c then block_zero c count
    else if c_sparse c then file_zero_sparse fuel c count
    else file_zero fuel c count.

(* file.py:178-183, size: lseek to the end and back. *)
Definition size : M Z :=
  do old <- tell ;
  do _ <- (fun s => (set_pos (zlen (f_data s)) s, inl tt)) ;
  do result <- tell ;
  do _ <- seek old ;
  ret result.

(* file.py:366-402, FileBackend._detect_block_size; the loop over
   (1, 512, 4096).  Line 402 reads self._fio.path, which io.FileIO objects do
   not have, so that the RuntimeError is never built. *)
Fixpoint detect (c : fcfg) (sizes : list Z) : M Z :=
  match sizes with
  | [] => raise AttrError
  | b :: sizes =>
      do _ <- seek 0 ;
      fun s =>
        match sys_read c (zeros b) s with
        | (s, inr (Raised EINVAL)) => detect c sizes s
        | (s, inr x) => (s, inr x)
        | (s, inl _) =>
            (do _ <- seek 0 ; ret (if b =? 1 then 4096 else b)) s
        end
  end.

(* backends/file.py:366-402. *)
Definition detect_block_size (c : fcfg) : M Z := detect c [1; 512; 4096].
