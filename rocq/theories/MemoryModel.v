(* Model of the memory backend, ovirt_imageio/_internal/backends/memory.py.

   Several backends can share one bytearray, see clone().  The bytearrays are
   the list w_bufs, a backend refers to one of them by its index.  Calls are
   atomic: the backend is used by one thread at a time. *)
From Coq Require Import ZArith List Bool.
From Verif Require Import BytesLib ExtentsModel.
Import ListNotations.
Open Scope Z_scope.

(* memory.py:36-48; MR, MW, MRW are "r", "w", "r+".  The option extents of the
   constructor and max_connections are not modelled. *)
Inductive mode := MR | MW | MRW.
Record backend := Backend {
  b_mode : mode;
  b_buf : nat;
  b_dirty : bool;
  b_position : Z;
  b_closed : bool
}.

(* The objects made by memory.py:36-59. *)
Record world := World { w_bufs : list (list byte); w_backends : list backend }.

(* IOError of an unsupported operation, ValueError of a closed backend or of an
   assignment changing the size of a memoryview, BufferError. *)
(* What memory.py:72-197 raises. *)
Inductive exc := IOError | ValueError.

(* The buffer given to readinto(): a bytearray, or a memoryview. *)
(* Python semantics, for memory.py:72-98. *)
Inductive target := Bytearray (d : list byte) | Memoryview (d : list byte).
(* Python semantics, for memory.py:72-98. *)
Definition target_data (t : target) : list byte := match t with Bytearray d | Memoryview d => d end.

(* What a call returns. *)
(* What memory.py:61-197 returns. *)
Inductive value :=
| VNone
| VInt (n : Z)
| VRead (n : Z) (t : target)   (* value of readinto() and the buffer after it *)
| VBytes (d : list byte)
| VBackend (i : nat)
| VExtent (e : image_extent).

(* Python: l[i:j] = d for a bytearray. *)
(* Python semantics, for memory.py:72-98. *)
Definition assign_slice (i j : Z) (d l : list byte) : list byte :=
  let i' := py_stop i (zlen l) in
  let j' := Z.max i' (py_stop j (zlen l)) in
  take i' l ++ d ++ drop j' l.

(* Python: t[:j] = d; the size of a memoryview cannot change. *)
(* Python semantics, for memory.py:72-98. *)
Definition assign_target (j : Z) (d : list byte) (t : target) : option target :=
  match t with
  | Bytearray l => Some (Bytearray (assign_slice 0 j d l))
  | Memoryview l =>
    if zlen (py_slice 0 j l) =? zlen d then Some (Memoryview (assign_slice 0 j d l)) else None
  end.

(* The methods of memory.py:50-191. *)
Inductive whence := SEEK_SET | SEEK_CUR | SEEK_END.

(* The methods of memory.py:50-191. *)
Inductive op :=
| ReadInto (t : target)
| Write (d : list byte)
| Zero (count : Z)
| Seek (n : Z) (how : whence)
| Tell
| Flush
| Size
| Data
| Extents
| Clone
| Close.

(* Auxiliary, no line of /repo. *)
Fixpoint set_nth {A} (i : nat) (x : A) (l : list A) : list A :=
  match l, i with
  | [], _ => []
  | _ :: l, O => x :: l
  | y :: l, S i => y :: set_nth i x l
  end.

(* memory.py:163-169 readable, writable *)
Definition readable (b : backend) : bool := match b_mode b with MR | MRW => true | MW => false end.
Definition writable (b : backend) : bool := match b_mode b with MW | MRW => true | MR => false end.

(* memory.py:83-98 write *)
Definition write (i : nat) (b : backend) (d : list byte) (w : world) : (value + exc) * world :=
  if negb (writable b) then (inr IOError, w)
  else
    let l := nth (b_buf b) (w_bufs w) [] in
    let length := zlen d in
    let extend := b_position b + length - zlen l in
    let l := if extend >? 0 then l ++ zeros extend else l in
    let l := assign_slice (b_position b) (b_position b + length) d l in
    let b := Backend (b_mode b) (b_buf b) true (b_position b + length) (b_closed b) in
    (inl (VInt length), World (set_nth (b_buf b) l (w_bufs w)) (set_nth i b (w_backends w))).

(* Calling a method of backend i, lines 50-58 and 72-191.  Every method but
   close(), clone() and data() checks first that the backend is open. *)
Definition call (i : nat) (o : op) (w : world) : (value + exc) * world :=
  match nth_error (w_backends w) i with
  | None => (inr ValueError, w)          (* no such object *)
  | Some b =>
    let l := nth (b_buf b) (w_bufs w) [] in
    let closed := b_closed b in
    match o with
    | ReadInto t =>                                              (* 72-81 *)
      if closed then (inr ValueError, w)
      else if negb (readable b) then (inr IOError, w)
      else
        let length := Z.min (zlen (target_data t)) (zlen l - b_position b) in
        match assign_target length (py_slice (b_position b) (b_position b + length) l) t with
        | None => (inr ValueError, w)
        | Some t =>
          let b := Backend (b_mode b) (b_buf b) (b_dirty b) (b_position b + length) closed in
          (inl (VRead length t), World (w_bufs w) (set_nth i b (w_backends w)))
        end
    | Write d => if closed then (inr ValueError, w) else write i b d w
    | Zero count =>                                              (* 136-140 *)
      if closed then (inr ValueError, w)
      else if negb (writable b) then (inr IOError, w)
      else write i b (zeros count) w
    | Seek n how =>                                              (* 104-112 *)
      if closed then (inr ValueError, w)
      else
        let p := match how with
                 | SEEK_SET => n
                 | SEEK_CUR => b_position b + n
                 | SEEK_END => zlen l + n
                 end in
        (inl (VInt p), World (w_bufs w)
           (set_nth i (Backend (b_mode b) (b_buf b) (b_dirty b) p closed) (w_backends w)))
    | Tell => if closed then (inr ValueError, w) else (inl (VInt (b_position b)), w)
    | Flush =>                                                   (* 114-116 *)
      if closed then (inr ValueError, w)
      else (inl VNone, World (w_bufs w)
              (set_nth i (Backend (b_mode b) (b_buf b) false (b_position b) closed) (w_backends w)))
    | Size => if closed then (inr ValueError, w) else (inl (VInt (zlen l)), w)
    | Data => (inl (VBytes l), w)                                (* 190-191 *)
    | Extents =>                                                 (* 146-151 *)
      if closed then (inr ValueError, w) else (inl (VExtent (ZeroExtent 0 (zlen l) false false)), w)
    | Clone =>                                                   (* 36-58 *)
      (* data or bytearray(): an empty bytearray is replaced by a new one. *)
      let '(k, bufs) := match l with
                        | [] => (length (w_bufs w), w_bufs w ++ [[]])
                        | _ => (b_buf b, w_bufs w)
                        end in
      (inl (VBackend (length (w_backends w))),
       World bufs (w_backends w ++ [Backend (b_mode b) k false 0 false]))
    | Close =>                                                   (* 118-120 *)
      (inl VNone, World (w_bufs w)
         (set_nth i (Backend (b_mode b) (b_buf b) (b_dirty b) (b_position b) true) (w_backends w)))
    end
  end.

(* A program: a sequence of calls and what they return. *)
(* No code: any sequence of calls. *)
Fixpoint run (prog : list (nat * op)) (w : world) : list (value + exc) * world :=
  match prog with
  | [] => ([], w)
  | (i, o) :: prog =>
    let '(r, w) := call i o w in
    let '(rs, w) := run prog w in
    (r :: rs, w)
  end.

(* memory.py:36-48: a new backend over data. *)
Definition open (m : mode) (data : list byte) : world := World [data] [Backend m 0 false 0 false].
