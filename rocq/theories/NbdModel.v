(* NBD client, transmission phase: commands, replies, chunks.
   Paths are relative to /repo/ovirt_imageio/_internal. *)
From Coq Require Import ZArith List Bool String.
From Coq.Init Require Import Byte.
From Verif Require Import BytesLib.
Import ListNotations.
Open Scope Z_scope.

(* Constants, nbd.py:34-36, 70, 78-90, 93, 96-102. *)
Definition REQUEST_MAGIC := 0x25609513.
Definition SIMPLE_REPLY_MAGIC := 0x67446698.
Definition STRUCTURED_REPLY_MAGIC := 0x668e33ef.
Definition REPLY_FLAG_DONE := 1.
Definition STATE_HOLE := 1.
Definition STATE_ZERO := 2.
Definition STATE_DIRTY := 1.
Definition EXTENT_DIRTY := 4.
Definition EXTENT_BACKING := 8.
Definition CMD_FLAG_NO_HOLE := 2.
Definition FLAG_SEND_FLUSH := 4.
Definition FLAG_SEND_WRITE_ZEROES := 64.
Definition REPLY_TYPE_NONE := 0.
Definition REPLY_TYPE_OFFSET_DATA := 1.
Definition REPLY_TYPE_OFFSET_HOLE := 2.
Definition REPLY_TYPE_BLOCK_STATUS := 5.
Definition REPLY_TYPE_ERROR := 2 ^ 15 + 1.
Definition REPLY_TYPE_ERROR_OFFSET := 2 ^ 15 + 2.
(* nbd.py:175, 184 *)
Definition MAX_EXTENTS := (2 ^ 32 - 1) / 4096.
(* nbd.py:109-111 *)
Definition BASE_ALLOCATION := "base:allocation"%string.
Definition QEMU_ALLOCATION_DEPTH := "qemu:allocation-depth"%string.

(* Exceptions. Subclasses of ProtocolError and messages are not
   distinguished, nbd.py:189-286. *)
Inductive exc :=
| ProtocolError
| ReplyError (code : Z)
| RequestError
| UnsupportedRequest
| StructError          (* struct.error: value does not fit the field *)
| OSError              (* from the socket *)
| TypeError
| AttributeError
| ValueError
| OverflowError
| ZeroDivisionError
| KeyError
| OptionError (reply : Z)   (* OptionUnsupported: REP_ERR_UNSUP *)
| OutOfFuel.           (* never happens, see reply_fuel *)

(* struct.pack of one unsigned big endian field of n bytes; struct.error when
   the value does not fit. *)
(* Python semantics: struct, used in nbd.py:1215-1220 and 1289-1296. *)
Definition byte_of_Z (z : Z) : byte :=
  match Byte.of_N (Z.to_N (z mod 256)) with Some b => b | None => x00 end.
(* Python semantics: struct, used in nbd.py:1215-1220 and 1289-1296. *)
Definition Z_of_byte (b : byte) : Z := Z.of_N (Byte.to_N b).
(* Python semantics: struct, used in nbd.py:1215-1220 and 1289-1296. *)
Fixpoint be (n : nat) (v : Z) : list byte :=
  match n with
  | O => []
  | S n => be n (v / 256) ++ [byte_of_Z v]
  end.
(* Python semantics: struct, used in nbd.py:1215-1220 and 1289-1296. *)
Definition pack (n : nat) (v : Z) : list byte + exc :=
  if (0 <=? v) && (v <? 256 ^ Z.of_nat n) then inl (be n v) else inr StructError.
(* struct.unpack of one unsigned big endian field. *)
(* Python semantics: struct, used in nbd.py:1215-1220 and 1289-1296. *)
Definition unbe (l : list byte) : Z := fold_left (fun a b => a * 256 + Z_of_byte b) l 0.

(* nbd.py:1351-1381 class Extent. *)
Record extent := Extent { e_length : Z; e_flags : Z }.

(* nbd.py:1365-1368 context ids. *)
Inductive context := ALLOC | DEPTH | DIRTY.

(* The mutable state of the client and of the command being processed.
   s_in is what the server sends until it closes the connection (finite:
   a server sending for ever is not modelled); s_out is everything written to
   the socket; s_tick counts calls to the socket.
   nbd.py:1279-1287 Command.__init__, 1307-1311, 1344-1348. *)
Record st := St {
  s_in : list byte;
  s_out : list byte;
  s_tick : nat;
  s_counter : Z;                       (* next handle, itertools.count(), 399, 944 *)
  s_buf : option (list byte);          (* cmd.buf *)
  s_structured : bool;                 (* cmd.only_structured *)
  s_errors : list (Z * Z);             (* cmd.errors: offset, code *)
  s_reply : option (list (string * list extent)) (* cmd.reply, BlockStatus only;
                                                    latest assignment first *)
}.
Definition set_in s v k := St v (s_out s) k (s_counter s) (s_buf s) (s_structured s) (s_errors s) (s_reply s).
Definition set_out s v k := St (s_in s) v k (s_counter s) (s_buf s) (s_structured s) (s_errors s) (s_reply s).
Definition set_buf s v := St (s_in s) (s_out s) (s_tick s) (s_counter s) (Some v) (s_structured s) (s_errors s) (s_reply s).
Definition set_structured s := St (s_in s) (s_out s) (s_tick s) (s_counter s) (s_buf s) true (s_errors s) (s_reply s).
Definition add_error s e := St (s_in s) (s_out s) (s_tick s) (s_counter s) (s_buf s) (s_structured s) (s_errors s ++ [e]) (s_reply s).
Definition set_reply s v := St (s_in s) (s_out s) (s_tick s) (s_counter s) (s_buf s) (s_structured s) (s_errors s) (Some v).

(* What is fixed after the handshake, nbd.py:382-400.
   k_meta: the id to name half of _meta_context. *)
Record client := Client {
  k_structured : bool;                 (* _structured_reply *)
  k_meta : Z -> option string;
  k_dirty : option string;             (* dirty_bitmap *)
  k_minblock : Z;                      (* minimum_block_size *)
  k_size : Z;                          (* export_size *)
  k_tflags : Z                         (* transmission_flags *)
}.

(* The environment: number of bytes sock.recv_into() returns at each call
   (clamped to what the contract allows), and whether sock.sendall() fails,
   after sending how many bytes. *)
(* The socket, for nbd.py:1222-1243. *)
Record env := Env { v_recv : nat -> Z; v_send : nat -> option Z }.

(* State and exception monad: statements in sequence; an exception keeps the
   effects done before it. *)
(* State and exception monad, no code of its own. *)
Definition M A := st -> (A + exc) * st.
(* State and exception monad, no code of its own. *)
Definition ret {A} (x : A) : M A := fun s => (inl x, s).
(* State and exception monad, no code of its own. *)
Definition raise {A} (e : exc) : M A := fun s => (inr e, s).
(* State and exception monad, no code of its own. *)
Definition bind {A B} (m : M A) (f : A -> M B) : M B := fun s =>
  match m s with
  | (inl x, s') => f x s'
  | (inr e, s') => (inr e, s')
  end.
Notation "'do' x <- m ; f" := (bind m (fun x => f)) (at level 200, x name, m at level 100, f at level 200).
Notation "'do_' m ; f" := (bind m (fun _ => f)) (at level 200, m at level 100, f at level 200).
(* State and exception monad, no code of its own. *)
Definition get : M st := fun s => (inl s, s).
(* State and exception monad, no code of its own. *)
Definition lift {A} (r : A + exc) : M A := fun s => (r, s).

Section Client.
Variable v : env.
Variable k : client.

(* nbd.py:1222-1223 _send *)
Definition send (d : list byte) : M unit := fun s =>
  match v_send v (s_tick s) with
  | None => (inl tt, set_out s (s_out s ++ d) (S (s_tick s)))
  | Some n => (inr OSError, set_out s (s_out s ++ take n d) (S (s_tick s)))
  end.

(* nbd.py:1230-1241 _recv_into: receives the bytes for a view of n bytes,
   also returning those received before the server closed the connection.
   A recv_into() that raises is not modelled. *)
Fixpoint recv_loop (fuel : nat) (n : Z) (got : list byte) : st -> list byte * bool * st := fun s =>
  match fuel with
  | O => (got, true, s)
  | S fuel =>
      if zlen got <? n then                                             (* 1234 *)
        match s_in s with
        | [] => (got, false, set_in s [] (S (s_tick s)))                (* 1236-1240 *)
        | _ =>
            let c := Z.max 1 (Z.min (v_recv v (s_tick s)) (Z.min (n - zlen got) (zlen (s_in s)))) in
            recv_loop fuel n (got ++ take c (s_in s))
              (set_in s (drop c (s_in s)) (S (s_tick s)))               (* 1235, 1241 *)
        end
      else (got, true, s)
  end.
(* nbd.py:1225-1228 _recv; the loop makes progress in every round. *)
Definition recv (n : Z) : M (list byte) := fun s =>
  match recv_loop (Z.to_nat n) n [] s with
  | (d, true, s') => (inl d, s')
  | (_, false, s') => (inr ProtocolError, s')
  end.
(* nbd.py:1215-1218 _recv_fmt for one unsigned field of a struct; the
   fields of a struct are received by one call in the code, here by one call
   for the whole struct followed by unbe on its parts. *)
Definition field (o n : Z) (d : list byte) : Z := unbe (sub o n d).

(* nbd.py:1178-1179: view = memoryview(cmd.buf)[a:b]; _recv_into(view) *)
Definition recv_into_slice (a b : Z) : M unit := fun s =>
  match s_buf s with
  | None => (inr TypeError, s)                  (* memoryview(None) *)
  | Some buf =>
      let lo := py_stop a (zlen buf) in
      let hi := py_stop b (zlen buf) in
      let n := hi - lo in
      let '(d, ok, s') := recv_loop (Z.to_nat n) n [] s in
      let s'' := set_buf s' (splice buf lo d) in
      if ok then (inl tt, s'') else (inr ProtocolError, s'')
  end.

(* nbd.py:1258-1300 Command, to_bytes. *)
Definition to_bytes (flags type handle offset length : Z) : list byte + exc :=
  match pack 4 REQUEST_MAGIC, pack 2 flags, pack 2 type, pack 8 handle, pack 8 offset, pack 4 length with
  | inl a, inl b, inl c, inl d, inl e, inl f => inl (a ++ b ++ c ++ d ++ e ++ f)
  | _, _, _, _, _, _ => inr StructError
  end.

(* nbd.py:268-286 ReplyError(code, message): os.strerror() takes a C int. The
   mapped codes of REPLY_ERRORS (nbd.py:158-166) are small. *)
Definition reply_error (code : Z) : exc :=
  if code >=? 2 ^ 31 then OverflowError else ReplyError code.

(* nbd.py:1201-1211 _recv_error_chunk, giving the code; the message is
   received and dropped. *)
Definition recv_error_chunk (length : Z) : M Z :=
  do d <- recv 6 ;                                                      (* 1202 *)
  let code := field 0 4 d in
  let msg_len := field 4 2 d in
  if negb (msg_len =? length - 6) then raise ProtocolError              (* 1204-1207 *)
  else do_ recv msg_len ;                                               (* 1210 *)
       ret code.

(* nbd.py:1127-1146 _handle_error_chunk *)
Definition handle_error_chunk (length flags : Z) : M unit :=
  do code <- recv_error_chunk length ;
  if Z.odd flags then raise (reply_error code) else raise ProtocolError.

(* nbd.py:1148-1161 _handle_error_offset_chunk *)
Definition handle_error_offset_chunk (length : Z) : M unit :=
  do code <- recv_error_chunk (length - 8) ;
  do d <- recv 8 ;
  match reply_error code with
  | ReplyError c => fun s => (inl tt, add_error s (unbe d, c))
  | e => raise e
  end.

(* nbd.py:1119-1125 _handle_none_chunk *)
Definition handle_none_chunk (flags length : Z) : M unit :=
  if negb (Z.odd flags) then raise ProtocolError
  else if negb (length =? 0) then raise ProtocolError
  else ret tt.

(* nbd.py:1163-1179 _handle_data_chunk *)
Definition handle_data_chunk (length offset : Z) : M unit :=
  do d <- recv 8 ;                                                      (* 1171 *)
  let chunk_size := length - 8 in                                       (* 1172 *)
  let buf_offset := unbe d - offset in                                  (* 1177 *)
  recv_into_slice buf_offset (buf_offset + chunk_size).                 (* 1178-1179 *)

(* nbd.py:1181-1199 _handle_hole_chunk. cmd.buf is a memoryview here, as in
   the NBD backend (backends/nbd.py:105) and nbdutil.py: assigning a slice
   of different length fails. (A bytearray, used by Client.read(), would be
   resized.) *)
Definition handle_hole_chunk (length offset : Z) : M unit :=
  if negb (length =? 12) then raise ProtocolError                       (* 1188-1189 *)
  else
  do d <- recv 12 ;                                                     (* 1191 *)
  let chunk_offset := field 0 8 d in
  let chunk_size := field 8 4 d in
  if chunk_size =? 0 then raise ProtocolError                           (* 1192-1193 *)
  else
  let buf_offset := chunk_offset - offset in
  fun s =>                                                              (* 1199 *)
    match s_buf s with
    | None => (inr TypeError, s)
    | Some buf =>
        let lo := py_stop buf_offset (zlen buf) in
        let hi := py_stop (buf_offset + chunk_size) (zlen buf) in
        if Z.max 0 (hi - lo) =? chunk_size
        then (inl tt, set_buf s (splice buf lo (zeros chunk_size)))
        else (inr ValueError, s)
    end.

(* nbd.py:1383-1408 Extent.unpack *)
Definition extent_unpack (d : list byte) (c : context) : extent + exc :=
  let length := field 0 4 d in
  let flags := field 4 4 d in
  if length =? 0 then inr ProtocolError                                 (* 1392-1394 *)
  else inl (Extent length
    match c with
    | ALLOC => Z.land flags (Z.lor STATE_HOLE STATE_ZERO)               (* 1399-1402 *)
    | DIRTY => if Z.land flags STATE_DIRTY =? 0 then 0 else EXTENT_DIRTY (* 1403-1404 *)
    | DEPTH => if flags =? 0 then EXTENT_BACKING else 0                 (* 1405-1406 *)
    end).

(* nbd.py:1113-1117 and 1083-1089: the extents in one buffer, each one checked
   as soon as the generator yields it. *)
Fixpoint unpack_all (fuel : nat) (view : list byte) (c : context) : list extent + exc :=
  match fuel with
  | O => inl []
  | S fuel =>
      if zlen view =? 0 then inl []                                     (* 1115 *)
      else
      match extent_unpack (sub 0 8 view) c with                         (* 1116 *)
      | inr e => inr e
      | inl e =>
          if k_minblock k =? 0 then inr ZeroDivisionError               (* 1084 *)
          else if negb (e_length e mod k_minblock k =? 0) then inr ProtocolError
          else match unpack_all fuel (drop 8 view) c with               (* 1117 *)
               | inl l => inl (e :: l)
               | inr e => inr e
               end
      end
  end.

(* nbd.py:1093-1117 _recv_extents: buffers of up to 1024 extents. *)
Fixpoint recv_extents (fuel : nat) (length bufsize : Z) (c : context) : M (list extent) :=
  match fuel with
  | O => ret []
  | S fuel =>
      if length =? 0 then ret []                                        (* 1104 *)
      else
      let n := Z.min length bufsize in                                  (* 1106-1107 *)
      do buf <- recv n ;                                                (* 1110 *)
      do l <- lift (unpack_all (List.length buf) buf c) ;               (* 1114-1117 *)
      do l' <- recv_extents fuel (length - n) n c ;                     (* 1111 *)
      ret (l ++ l')
  end.

(* nbd.py:1048-1091 _handle_block_status_chunk *)
Definition handle_block_status_chunk (length : Z) : M unit :=
  let extents_count := length / 8 in                                    (* 1056 *)
  let reminder := length mod 8 in
  if (extents_count =? 0) || negb (reminder =? 4) then raise ProtocolError  (* 1058-1061 *)
  else if extents_count >? MAX_EXTENTS then raise ProtocolError         (* 1063-1066 *)
  else
  do d <- recv 4 ;                                                      (* 1068 *)
  match k_meta k (unbe d) with                                          (* 1070 *)
  | None => raise ProtocolError                                         (* 1071-1073 *)
  | Some name =>
      let c := if match k_dirty k with Some b => String.eqb name b | None => false end
               then DIRTY                                               (* 1075-1076 *)
               else if String.eqb name QEMU_ALLOCATION_DEPTH then DEPTH (* 1077-1078 *)
               else ALLOC in
      do l <- recv_extents (Z.to_nat length) (length - 4) (Z.min (length - 4) (8 * 1024)) c ;
      fun s => match s_reply s with                                     (* 1091 *)
               | None => (inr AttributeError, s)
               | Some r => (inl tt, set_reply s ((name, l) :: r))
               end
  end.

(* nbd.py:1012-1046 _recv_reply_chunk: true after the last chunk. *)
Definition recv_reply_chunk (handle offset : Z) : M bool :=
  do d <- recv 16 ;                                                     (* 1023 *)
  let flags := field 0 2 d in
  let type := field 2 2 d in
  let h := field 4 8 d in
  let length := field 12 4 d in
  if negb (h =? handle) then raise ProtocolError                        (* 1025-1026 *)
  else
  do_ (if type =? REPLY_TYPE_ERROR then handle_error_chunk length flags (* 1028-1029 *)
       else ret tt) ;
  do_ (if type =? REPLY_TYPE_ERROR_OFFSET then handle_error_offset_chunk length
       else if type =? REPLY_TYPE_NONE then handle_none_chunk flags length
       else if type =? REPLY_TYPE_OFFSET_DATA then handle_data_chunk length offset
       else if type =? REPLY_TYPE_OFFSET_HOLE then handle_hole_chunk length offset
       else if type =? REPLY_TYPE_BLOCK_STATUS then handle_block_status_chunk length
       else raise ProtocolError) ;                                      (* 1041-1044 *)
  ret (Z.odd flags).                                                    (* 1046 *)

(* nbd.py:991-1010 _recv_simple_reply *)
Definition recv_simple_reply (handle : Z) : M unit :=
  do d <- recv 12 ;                                                     (* 1000 *)
  let error := field 0 4 d in
  let h := field 4 8 d in
  if negb (error =? 0) then raise (reply_error error)                   (* 1002-1004 *)
  else if negb (h =? handle) then raise ProtocolError                   (* 1006-1007 *)
  else
  do s <- get ;
  match s_buf s with                                                    (* 1009-1010 *)
  | Some (b :: l) => recv_into_slice 0 (zlen (b :: l))
  | _ => ret tt
  end.

(* nbd.py:950-989 _recv_reply; every round takes bytes from the stream, so
   as many rounds as there are bytes are enough. *)
Fixpoint recv_reply_loop (fuel : nat) (handle offset : Z) : M unit :=
  match fuel with
  | O => raise OutOfFuel
  | S fuel =>
      do d <- recv 4 ;                                                  (* 955 *)
      let magic := unbe d in
      do s <- get ;
      if magic =? SIMPLE_REPLY_MAGIC then                               (* 957 *)
        if s_structured s then raise ProtocolError                      (* 958-962 *)
        else recv_simple_reply handle                                   (* 964 *)
      else if magic =? STRUCTURED_REPLY_MAGIC then                      (* 967 *)
        if negb (k_structured k) then raise ProtocolError               (* 968-972 *)
        else
        do_ (fun s => (inl tt, set_structured s)) ;                     (* 976 *)
        do last <- recv_reply_chunk handle offset ;                     (* 978 *)
        if last then
          do s <- get ;
          match s_errors s with                                         (* 985-989 *)
          | [] => ret tt
          | _ => raise RequestError
          end
        else recv_reply_loop fuel handle offset
      else raise ProtocolError                                          (* 981-983 *)
  end.
Definition recv_reply (handle offset : Z) : M unit := fun s =>
  recv_reply_loop (S (List.length (s_in s))) handle offset s.

(* nbd.py:943-944 _next_handle, and creating a command, 1279-1348. *)
Definition new_command (buf : option (list byte)) (structured : bool)
  (reply : option (list (string * list extent))) : M Z := fun s =>
  (inl (s_counter s),
   St (s_in s) (s_out s) (s_tick s) (s_counter s + 1) buf structured [] reply).

(* nbd.py:946-948 _send_command *)
Definition send_command (flags type handle offset length : Z) : M unit :=
  do b <- lift (to_bytes flags type handle offset length) ;
  send b.

(* nbd.py:427-435 Client.readinto: the buffer after the call *)
Definition readinto (offset : Z) (buf : list byte) : M unit :=
  do h <- new_command (Some buf) (k_structured k) None ;
  do_ send_command 0 0 h offset (zlen buf) ;
  recv_reply h offset.

(* nbd.py:437-441 Client.write *)
Definition write (offset : Z) (data : list byte) : M unit :=
  do h <- new_command None false None ;
  do_ send_command 0 1 h offset (zlen data) ;
  do_ send data ;
  recv_reply h offset.

(* nbd.py:443-450 Client.zero *)
Definition zero (offset length : Z) (punch_hole : bool) : M unit :=
  if Z.land (k_tflags k) FLAG_SEND_WRITE_ZEROES =? 0 then raise UnsupportedRequest
  else
  do h <- new_command None false None ;
  do_ send_command (if punch_hole then 0 else CMD_FLAG_NO_HOLE) 6 h offset length ;
  recv_reply h offset.

(* nbd.py:452-458 Client.flush *)
Definition flush : M unit :=
  if Z.land (k_tflags k) FLAG_SEND_FLUSH =? 0 then ret tt
  else
  do h <- new_command None false None ;
  do_ send_command 0 3 h 0 0 ;
  recv_reply h 0.

(* nbd.py:460-464 Client.extents: the reply dictionary *)
Definition extents (offset length : Z) : M (list (string * list extent)) :=
  do h <- new_command None true (Some []) ;
  do_ send_command 0 7 h offset length ;
  do_ recv_reply h offset ;
  do s <- get ;
  ret (match s_reply s with Some r => r | None => [] end).
End Client.
