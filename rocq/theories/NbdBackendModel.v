(* The NBD backend, on top of the NBD client of NbdModel.v.
   Paths are relative to /repo/ovirt_imageio/_internal.
   Not here: opening (backends/nbd.py:19-47, 55-66; the handshake is in
   HandshakeModel.v), extents (162-189, see
   ExtentsModel.v), the context manager protocol (150-160), logging. *)
From Coq Require Import ZArith List Bool String.
From Coq.Init Require Import Byte.
From Verif Require Import BytesLib NbdModel.
Import ListNotations.
Open Scope Z_scope.

(* backends/nbd.py:56-57 the modes accepted *)
Inductive mode := MODE_R | MODE_W | MODE_RW.

(* backends/nbd.py:61-66. _client is the st of NbdModel.v until it is replaced
   by CLOSED (backends/common.py:4-13); max_connections never changes and is
   left out. *)
Record backend := Backend {
  b_mode : mode;
  b_sparse : bool;
  b_position : Z;
  b_dirty : bool;
  b_closed : bool
}.

(* backends/nbd.py:199-203 readable, writable *)
Definition readable (b : backend) : bool :=
  match b_mode b with MODE_R | MODE_RW => true | MODE_W => false end.
Definition writable (b : backend) : bool :=
  match b_mode b with MODE_W | MODE_RW => true | MODE_R => false end.

(* Exceptions of the backend: IOError of the mode checks, ValueError of the
   closed client (backends/common.py:6-10), exceptions of the client. *)
Inductive bexc := IOError | ClosedError | ClientError (e : exc).

(* os.SEEK_* *)
(* Used in backends/nbd.py:135-142. *)
Inductive whence := SEEK_SET | SEEK_CUR | SEEK_END | SEEK_OTHER.

(* The calls modelled. *)
(* The methods of backends/nbd.py:95-220. *)
Inductive call :=
| BReadinto (buf : list byte)
| BWrite (data : list byte)
| BZero (length : Z)
| BFlush
| BTell
| BSeek (pos : Z) (how : whence)
| BSize
| BClose.

Section Backend.
Variable v : env.
Variable k : client.

(* No code: setting _position and _dirty, backends/nbd.py:95-126. *)
Definition moved (b : backend) (n : Z) (dirty : bool) : backend :=
  Backend (b_mode b) (b_sparse b) (b_position b + n) dirty (b_closed b).

(* nbd.py:465-469 Client.close, 893-926 _soft_disconnect in the state
   TRANSMISSION: a Disc command (1319-1324) is sent, any exception is logged and
   ignored. Shutting down and closing the socket are not modelled: the socket
   is not used any more. *)
Definition client_close : M unit := fun s =>
  let '(_, s') := (do h <- new_command None false None ;
                   send_command v 0 2 h 0 0) s in (inl tt, s').

(* One call: its value and, for readinto, the content of the caller's buffer
   after the call; or the exception. After an exception the content of the
   caller's buffer is s_buf of the state. *)
Definition bcall (c : call) (b : backend) (s : st) : ((Z * list byte) + bexc) * backend * st :=
  match c with
  (* backends/nbd.py:95-109 readinto *)
  | BReadinto buf =>
      if negb (readable b) then (inr IOError, b, s)
      else if b_closed b then (inr ClosedError, b, s)
      else
        let length := Z.min (zlen buf) (k_size k - b_position b) in
        if length <=? 0 then (inl (0, buf), b, s)
        else match readinto v k (b_position b) (take length buf) s with
             | (inl _, s') =>
                 let view := match s_buf s' with Some x => x | None => [] end in
                 (inl (length, view ++ drop length buf), moved b length (b_dirty b), s')
             | (inr e, s') => (inr (ClientError e), b, s')
             end
  (* backends/nbd.py:111-118 write *)
  | BWrite data =>
      if negb (writable b) then (inr IOError, b, s)
      else if b_closed b then (inr ClosedError, b, s)
      else match write v k (b_position b) data s with
           | (inl _, s') => (inl (zlen data, []), moved b (zlen data) true, s')
           | (inr e, s') => (inr (ClientError e), b, s')
           end
  (* backends/nbd.py:120-126 zero *)
  | BZero length =>
      if negb (writable b) then (inr IOError, b, s)
      else if b_closed b then (inr ClosedError, b, s)
      else match zero v k (b_position b) length (b_sparse b) s with
           | (inl _, s') => (inl (length, []), moved b length true, s')
           | (inr e, s') => (inr (ClientError e), b, s')
           end
  (* backends/nbd.py:128-130 flush *)
  | BFlush =>
      if b_closed b then (inr ClosedError, b, s)
      else match flush v k s with
           | (inl _, s') => (inl (0, []), moved b 0 false, s')
           | (inr e, s') => (inr (ClientError e), b, s')
           end
  (* backends/nbd.py:132-133 tell *)
  | BTell => (inl (b_position b, []), b, s)
  (* backends/nbd.py:135-142 seek *)
  | BSeek pos how =>
      let at_ p := (inl (p, []), Backend (b_mode b) (b_sparse b) p (b_dirty b) (b_closed b), s) in
      match how with
      | SEEK_SET => at_ pos
      | SEEK_CUR => at_ (b_position b + pos)
      | SEEK_END => if b_closed b then (inr ClosedError, b, s) else at_ (k_size k + pos)
      | SEEK_OTHER => at_ (b_position b)
      end
  (* backends/nbd.py:220-221 size *)
  | BSize => if b_closed b then (inr ClosedError, b, s) else (inl (k_size k, []), b, s)
  (* backends/nbd.py:144-148 close *)
  | BClose =>
      if b_closed b then (inl (0, []), b, s)
      else let '(_, s') := client_close s in
           (inl (0, []), Backend (b_mode b) (b_sparse b) (b_position b) (b_dirty b) true, s')
  end.

(* A program: calls one after the other, going on after exceptions. *)
(* No code: any sequence of calls. *)
Fixpoint bcalls (l : list call) (b : backend) (s : st)
  : list ((Z * list byte) + bexc) * backend * st :=
  match l with
  | [] => ([], b, s)
  | c :: l =>
      let '(r, b', s') := bcall c b s in
      let '(rs, b'', s'') := bcalls l b' s' in
      (r :: rs, b'', s'')
  end.
End Backend.

(* backends/nbd.py:68-83 clone: a new client is connected to the same export
   (the handshake is not modelled) and wrapped in a backend; sparse is not
   passed, so the new backend has the default of __init__ (55). *)
Definition clone (b : backend) : backend := Backend (b_mode b) false 0 false false.
