(* Model of copying for the memory backend, and of streams with short reads:
   ovirt_imageio/_internal/backends/memory.py:199-222 and
   ovirt_imageio/_internal/util.py:124-155.  Bytes are numbers. *)
From Coq Require Import ZArith List Bool PeanoNat.
Import ListNotations.

(* util.py:139-140: the chunks that are left.  As the reader of _copy this is
   any reader without errors: what a call gives at most is one chunk. *)
Definition stream := list (list Z).

(* util.py:142-150.  A negative size is not modelled. *)
Definition read (s : stream) (size : nat) : list Z * stream :=
  match s with
  | [] => ([], [])                                                         (* 143-144 *)
  | chunk :: r =>                                                          (* 145 *)
      let res := firstn size chunk in                                      (* 146 *)
      let chunk := skipn size chunk in                                     (* 147 *)
      (res, match chunk with [] => r | _ => chunk :: r end)                (* 148-150 *)
  end.

(* util.py:152-155: the buffer after the call, the result, the stream. *)
Definition readinto (s : stream) (buf : list Z) : list Z * nat * stream :=
  let (chunk, s) := read s (length buf) in
  (chunk ++ skipn (length chunk) buf, length chunk, s).

(* memory.py:211-222 _copy.  [out]: the bytes written before; a write takes all
   bytes, as those of memory.py:83-98 do, and errors are not modelled.  The
   length is not negative.  The loop runs at most [fuel] times; None: not
   finished.  The result: all bytes written, the reader, the buffer. *)
Fixpoint copy (fuel : nat) (s : stream) (out : list Z) (todo : nat) (buf : list Z)
  : option (list Z * stream * list Z) :=
  let step := length buf in
  match fuel with
  | O => None
  | S fuel =>
      if step <? todo                                                      (* 215 *)
      then let '(buf, _, s) := readinto s buf in                           (* 216 *)
           copy fuel s (out ++ buf) (todo - step) buf                      (* 217-218 *)
      else let '(view, _, s) := readinto s (firstn todo buf) in            (* 220-221 *)
           Some (out ++ view, s, view ++ skipn todo buf)                   (* 222 *)
  end.

(* memory.py:72-81 readinto of a memory backend with this data after its
   position, as a stream: only the end of the data makes a read short. *)
Definition memory_reader (data : list Z) : stream := match data with [] => [] | _ => [data] end.

(* Calls of read, util.py:142-150, one after another: all that is returned and
   what is left. *)
Fixpoint reads (s : stream) (sizes : list nat) : list (list Z) * stream :=
  match sizes with
  | [] => ([], s)
  | n :: r =>
      let (x, s) := read s n in
      let (l, s) := reads s r in (x :: l, s)
  end.
