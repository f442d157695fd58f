(* ImageioClient, ovirt_imageio/client/_api.py:292-446, over the HTTP backend
   of HttpBackendModel.  Opening is in QemuNbdModel (_open_http) and
   HttpBackendModel (connect). *)
From Coq Require Import ZArith List Bool.
From Verif Require Import BytesLib HttpBackendModel HttpBackendSpec.
Import ListNotations.
Open Scope Z_scope.

(* _api.py:312-318: the backend and the length of _buf; [c_closed] is
   backend._con is CLOSED, backends/http.py:338-343. *)
Record client (W : Type) := Client { c_back : hb W; c_buflen : Z; c_closed : bool }.
Arguments Client {W}. Arguments c_back {W}. Arguments c_buflen {W}. Arguments c_closed {W}.

(* backends/common.py:4-13: every use of the connection of a closed backend
   raises, and nothing reaches the server.  Simplified: the exception is that
   of a broken connection, the messages are in h_sent, and read_from reads from
   its reader before it raises. *)
Definition no_server {W} : W -> message -> option response * W := fun w _ => (None, w).

Section Client.
Context {W : Type}.
Variable server : W -> message -> option response * W.
Variable o : net.

(* No code: the server of the connections, for client/_api.py:297-318. *)
Definition serve_of (c : client W) : W -> message -> option response * W :=
  if c_closed c then no_server else server.

(* No code: setting the state of self._backend, client/_api.py:297-446. *)
Definition with_back (c : client W) (s : hb W) : client W :=
  Client s (c_buflen c) (c_closed c).

(* _api.py:336-340 *)
Definition cl_size (c : client W) : (Z + cexc) * client W :=
  let (r, s) := size (serve_of c) (c_back c) in (r, with_back c s).

(* _api.py:342-355, consumed entirely *)
Definition cl_extents (dirty : bool) (c : client W) : (list jext + cexc) * client W :=
  let (r, s) := extents (serve_of c) dirty (c_back c) in (r, with_back c s).

(* The result of a method that returns None. *)
(* Used for client/_api.py:420-431. *)
Definition none (r : Z + cexc) : Z + cexc :=
  match r with inl _ => inl 0 | inr e => inr e end.

(* seek(offset): os.SEEK_SET.  It cannot fail. *)
(* Used for client/_api.py:356-425 (self._backend.seek). *)
Definition at_offset (offset : Z) (c : client W) : hb W :=
  snd (seek (serve_of c) offset 0 (c_back c)).

(* _api.py:357-369; also the bytes left in the reader *)
Definition cl_read_from (src : list byte) (offset length : Z) (c : client W)
  : (Z + cexc) * list byte * client W :=
  let s := at_offset offset c in
  let '(r, rest, s) := read_from (serve_of c) o src length (c_buflen c) s in
  (none r, rest, with_back c s).

(* _api.py:371-383; also what the writer took *)
Definition cl_write_to (offset length : Z) (c : client W)
  : (Z + cexc) * list byte * client W :=
  let s := at_offset offset c in
  let '(r, out, s) := write_to (serve_of c) o length (c_buflen c) s in
  (none r, out, with_back c s).

(* _api.py:385-401; also the buffer *)
Definition cl_read (offset : Z) (buf : list byte) (c : client W)
  : (Z + cexc) * list byte * client W :=
  match cl_size c with
  | (inr e, c) => (inr e, buf, c)
  | (inl sz, c) =>
      if sz <? offset + zlen buf then (inr XRuntime, buf, c)         (* 397-398 *)
      else
        let s := at_offset offset c in                               (* 400 *)
        let '(r, buf, s) := readinto (serve_of c) o buf s in
        (r, buf, with_back c s)
  end.

(* _api.py:403-420 *)
Definition cl_write (offset : Z) (buf : list byte) (c : client W) : (Z + cexc) * client W :=
  match cl_size c with
  | (inr e, c) => (inr e, c)
  | (inl sz, c) =>
      if sz <? offset + zlen buf then (inr XRuntime, c)              (* 416-417 *)
      else
        let s := at_offset offset c in                               (* 419 *)
        let (r, s) := write (serve_of c) o buf s in
        (none r, with_back c s)
  end.

(* _api.py:422-427 *)
Definition cl_zero (offset length : Z) (c : client W) : (Z + cexc) * client W :=
  let s := at_offset offset c in
  let (r, s) := zero (serve_of c) o length s in
  (none r, with_back c s).

(* _api.py:429-433 *)
Definition cl_flush (c : client W) : (Z + cexc) * client W :=
  let (r, s) := flush (serve_of c) (c_back c) in
  (match r with inl _ => inl 0 | inr e => inr e end, with_back c s).

(* _api.py:435-439, backends/http.py:338-343; [fails] is an error closing the
   connection, which leaves the backend open. *)
Definition cl_close (fails : option cexc) (c : client W) : (unit + cexc) * client W :=
  if c_closed c then (inl tt, c)
  else match fails with
       | Some e => (inr e, c)
       | None => (inl tt, Client (c_back c) (c_buflen c) true)
       end.

(* _api.py:439-449 __enter__, __exit__: the statement
   "with client: body" *)
Definition cl_with {A} (body : client W -> (A + cexc) * client W) (fails : option cexc) (c : client W)
  : (A + cexc) * client W :=
  let (r, c) := body c in
  let (x, c) := cl_close fails c in
  match x, r with
  | inl _, _ => (r, c)
  | inr _, inr e => (inr e, c)                                       (* 450-451 *)
  | inr e, inl _ => (inr e, c)
  end.

End Client.
