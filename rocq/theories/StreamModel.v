(* examples/sparse-stream: an image as a stream of frames, over ImageioClient
   of ApiModel. *)
From Coq Require Import ZArith List Bool.
From Verif Require Import BytesLib HttpBackendModel ApiModel.
Import ListNotations.
Open Scope Z_scope.

(* ---- Python's formatting and parsing of numbers ---- *)

(* No code: a byte as a number. *)
Definition ord (b : byte) : Z := Z.of_N (Byte.to_N b).

(* Python semantics of "%x", for examples/sparse-stream:176. *)
Definition hex_digit (d : Z) : byte :=
  nth (Z.to_nat d) [x30; x31; x32; x33; x34; x35; x36; x37; x38; x39; x61; x62; x63; x64; x65; x66] x30.

(* Python semantics of "%x", for examples/sparse-stream:176: the digits of n >= 0. *)
Fixpoint hex_loop (fuel : nat) (n : Z) (acc : list byte) : list byte :=
  match fuel with
  | O => acc
  | S fuel =>
      let acc := hex_digit (n mod 16) :: acc in
      if n / 16 =? 0 then acc else hex_loop fuel (n / 16) acc
  end.

(* Python semantics of "%x", for examples/sparse-stream:176. *)
Definition hex (n : Z) : list byte := hex_loop (S (Z.to_nat (Z.log2 n))) n [].

(* Python semantics of the padding of "%016x", for examples/sparse-stream:176. *)
Definition pad (width : nat) (l : list byte) : list byte := repeat x30 (width - length l) ++ l.

(* Python semantics of b"%016x", for examples/sparse-stream:176; the sign is part of the
   width. *)
Definition fmt16 (n : Z) : list byte :=
  if n <? 0 then x2d :: pad 15 (hex (- n)) else pad 16 (hex n).

(* Python semantics of int(bytes, 16), for examples/sparse-stream:264: the value of a
   digit. *)
Definition digit_value (b : byte) : option Z :=
  let c := ord b in
  if (48 <=? c) && (c <=? 57) then Some (c - 48)
  else if (97 <=? c) && (c <=? 102) then Some (c - 87)
  else if (65 <=? c) && (c <=? 70) then Some (c - 55)
  else None.

(* Python semantics of int(bytes, 16), for examples/sparse-stream:264. *)
Definition is_space (b : byte) : bool := (ord b =? 32) || ((9 <=? ord b) && (ord b <=? 13)).

(* Python semantics of int(bytes, 16), for examples/sparse-stream:264. *)
Fixpoint lstrip (l : list byte) : list byte :=
  match l with
  | [] => []
  | b :: m => if is_space b then lstrip m else l
  end.

(* Python semantics of int(bytes, 16), for examples/sparse-stream:264: digits with
   single underscores between them; [last] says if the last byte was a digit. *)
Fixpoint digits (l : list byte) (acc : Z) (last : bool) : option Z :=
  match l with
  | [] => if last then Some acc else None
  | b :: l =>
      if ord b =? 95 then (if last then digits l acc false else None)
      else match digit_value b with
           | Some d => digits l (16 * acc + d) true
           | None => None
           end
  end.

(* Python semantics of int(bytes, 16), for examples/sparse-stream:264: an optional 0x,
   after which one underscore is allowed. *)
Definition unprefix (l : list byte) : list byte :=
  match l with
  | a :: x :: m =>
      if (ord a =? 48) && ((ord x =? 120) || (ord x =? 88))
      then match m with
           | u :: n => if ord u =? 95 then n else m
           | [] => m
           end
      else l
  | _ => l
  end.

(* Python semantics of int(bytes, 16), for examples/sparse-stream:264; None is
   ValueError. *)
Definition int16 (l : list byte) : option Z :=
  let l := rev (lstrip (rev (lstrip l))) in
  match l with
  | s :: m =>
      if ord s =? 45 then option_map Z.opp (digits (unprefix m) 0 false)
      else if ord s =? 43 then digits (unprefix m) 0 false
      else digits (unprefix l) 0 false
  | [] => None
  end.

(* ---- frames ---- *)

(* examples/sparse-stream:171 *)
Definition META : list byte := [x6d; x65; x74; x61].
(* examples/sparse-stream:172 *)
Definition DATA : list byte := [x64; x61; x74; x61].
(* examples/sparse-stream:173 *)
Definition ZERO : list byte := [x7a; x65; x72; x6f].
(* examples/sparse-stream:174 *)
Definition STOP : list byte := [x73; x74; x6f; x70].
(* examples/sparse-stream:175 *)
Definition TERM : list byte := [x0d; x0a].

(* examples/sparse-stream:176, 257-258 write_frame *)
Definition FRAME (kind : list byte) (start length : Z) : list byte :=
  kind ++ [x20] ++ fmt16 start ++ [x20] ++ fmt16 length ++ TERM.

(* examples/sparse-stream:177 *)
Definition FRAME_LEN : Z := zlen (FRAME STOP 0 0).

(* How the programs fail: an exception of the client, or of the program,
   examples/sparse-stream:180-278. *)
Inductive sexc :=
| SClient (e : cexc)
| SValue | SRuntime | SAssert | SIndex | SType
| SMeta.   (* loading the metadata or looking up virtual-size *)

(* Python semantics of split(b" ", 2), for examples/sparse-stream:263: the parts before
   and after the first space. *)
Fixpoint split_space (l : list byte) : option (list byte * list byte) :=
  match l with
  | [] => None
  | b :: l =>
      if ord b =? 32 then Some ([], l)
      else match split_space l with Some (p, r) => Some (b :: p, r) | None => None end
  end.

(* Python semantics of sys.stdin.buffer.read(n), for examples/sparse-stream:227-262: the
   bytes read, and the rest.  Less is returned only at the end.  Simplified:
   reading standard input does not fail. *)
Definition read (n : Z) (s : list byte) : (list byte + sexc) * list byte :=
  if n =? -1 then (inl s, [])
  else if n <? 0 then (inr SValue, s)
  else (inl (take n s), drop n s).

(* examples/sparse-stream:261-264 read_frame; the bytes left in the reader *)
Definition read_frame (s : list byte) : (list byte * Z * Z + sexc) * list byte :=
  let header := take FRAME_LEN s in                                  (* 262 *)
  let s := drop FRAME_LEN s in
  (match split_space header with                                     (* 263 *)
   | None => inr SValue
   | Some (kind, r) =>
       match split_space r with
       | None => inr SValue
       | Some (start, length) =>
           match int16 start, int16 length with                      (* 264 *)
           | Some a, Some n => inl (kind, a, n)
           | _, _ => inr SValue
           end
       end
   end, s).

(* Python semantics of comparing bytes, for examples/sparse-stream:224-246. *)
Definition beq (a b : list byte) : bool := if list_eq_dec Byte.byte_eq_dec a b then true else false.

(* examples/sparse-stream:228, 245: assert reader.read(len(TERM)) == TERM *)
Definition read_term (s : list byte) : (unit + sexc) * list byte :=
  (if beq (take (zlen TERM) s) TERM then inl tt else inr SAssert, drop (zlen TERM) s).

Section Stream.
Context {W : Type}.
Variable server : W -> message -> option response * W.
Variable nets : nat -> net.
(* The environment of the k-th call of the client is nets k. *)

(* examples/sparse-stream:267-274: json.dumps of the virtual size, the data size and
   incremental, and the date. *)
Variable dumps : Z -> Z -> bool -> list byte.
(* examples/sparse-stream:277-278, 233: load_metadata(s)["virtual-size"].  Simplified:
   it is an integer, or loading the text raises; Python raises KeyError or
   TypeError in line 233. *)
Variable loads : list byte -> option Z.

(* ---- download ---- *)

(* extent.zero: the field of ZeroExtent or DirtyExtent, extent.py:7, 52 *)
Definition x_zero (incremental : bool) (e : jext) : bool :=
  truthy (if incremental then x_fourth e else x_third e).

(* extent.dirty, extent.py:52 *)
Definition x_dirty (e : jext) : bool := truthy (x_third e).

(* Exceptions of HttpBackendModel's arithmetic on JSON values in
   examples/sparse-stream:267-274. *)
Definition lift {A} (r : A + cexc) : A + sexc :=
  match r with inl a => inl a | inr _ => inr SType end.

(* examples/sparse-stream:270: sum(e.length for e in extents if e.data); data is
   not zero, extent.py:32-37, 77-82 *)
Fixpoint data_size (incremental : bool) (l : list jext) : Z + sexc :=
  match l with
  | [] => inl 0
  | e :: l =>
      if x_zero incremental e then data_size incremental l
      else match as_int (x_length e), data_size incremental l with
           | inl n, inl m => inl (n + m)
           | inr _, _ => inr SType
           | _, inr x => inr x
           end
  end.

(* examples/sparse-stream:267-274 dump_metadata *)
Definition dump_metadata (incremental : bool) (l : list jext) : list byte + sexc :=
  match rev l with
  | [] => inr SIndex                                                 (* 269 *)
  | e :: _ =>
      match lift (add (x_start e) (x_length e)) with
      | inr x => inr x
      | inl size =>
          match data_size incremental l with
          | inr x => inr x
          | inl n => inl (dumps size n incremental)
          end
      end
  end.

(* examples/sparse-stream:257-258 with the fields of an extent; TypeError if a field is
   not an integer *)
Definition extent_frame (kind : list byte) (e : jext) : (Z * Z * list byte) + sexc :=
  match as_int (x_start e), as_int (x_length e) with
  | inl a, inl n => inl (a, n, FRAME kind a n)
  | _, _ => inr SType
  end.

(* examples/sparse-stream:205-213: also what was written.  Simplified: the writes of the
   program succeed and take all the data (sys.stdout.buffer); those of the
   client are as in the environment. *)
Fixpoint download_loop (incremental : bool) (k : nat) (l : list jext) (c : client W)
  : (unit + sexc) * list byte * client W :=
  match l with
  | [] => (inl tt, [], c)
  | e :: l =>
      if x_zero incremental e then                                   (* 206 *)
        match extent_frame ZERO e with                               (* 208 *)
        | inr x => (inr x, [], c)
        | inl (_, _, f) =>
            let '(r, out, c) := download_loop incremental k l c in (r, f ++ out, c)
        end
      else
        match extent_frame DATA e with                               (* 211 *)
        | inr x => (inr x, [], c)
        | inl (a, n, f) =>
            let '(r, d, c) := cl_write_to server (nets k) a n c in   (* 212 *)
            match r with
            | inr x => (inr (SClient x), f ++ d, c)
            | inl _ =>
                let '(r, out, c) := download_loop incremental (S k) l c in
                (r, f ++ d ++ TERM ++ out, c)                        (* 213 *)
            end
        end
  end.

(* examples/sparse-stream:185-216, inside of the with statement *)
Definition download_body (incremental : bool) (c : client W)
  : (unit + sexc) * list byte * client W :=
  match cl_extents server incremental c with                         (* 183, 186 *)
  | (inr x, c) => (inr (SClient x), [], c)
  | (inl l, c) =>
      match dump_metadata incremental l with                         (* 189 *)
      | inr x => (inr x, [], c)
      | inl meta =>
          let head := FRAME META 0 (zlen meta) ++ meta ++ TERM in    (* 190-192 *)
          let l := if incremental then filter x_dirty l else l in    (* 202-203 *)
          let '(r, out, c) := download_loop incremental 0 l c in
          match r with
          | inr x => (inr x, head ++ out, c)
          | inl _ => (inl tt, head ++ out ++ FRAME STOP 0 0, c)      (* 216 *)
          end
      end
  end.

(* The end of a with statement, client/_api.py:439-449; [fails] is an error of
   close. *)
Definition leave (fails : option cexc) (r : unit + sexc) (c : client W) : (unit + sexc) * client W :=
  let (x, c) := cl_close fails c in
  match r, x with
  | inl _, inr e => (inr (SClient e), c)
  | _, _ => (r, c)
  end.

(* examples/sparse-stream:180-216 download, with an open client *)
Definition download (incremental : bool) (fails : option cexc) (c : client W)
  : (unit + sexc) * list byte * client W :=
  let '(r, out, c) := download_body incremental c in
  let (r, c) := leave fails r c in (r, out, c).

(* ---- upload ---- *)

(* examples/sparse-stream:239-251; also the number of calls made.  Every iteration
   reads a header of some bytes, so the loop ends. *)
Fixpoint upload_loop (fuel k : nat) (s : list byte) (c : client W) : (nat + sexc) * client W :=
  match fuel with
  | O => (inr SValue, c)
  | S fuel =>
      match read_frame s with                                        (* 240 *)
      | (inr x, _) => (inr x, c)
      | (inl (kind, start, length), s) =>
          if beq kind ZERO then                                      (* 241-242 *)
            match cl_zero server (nets k) start length c with
            | (inr e, c) => (inr (SClient e), c)
            | (inl _, c) => upload_loop fuel (S k) s c
            end
          else if beq kind DATA then                                 (* 243-245 *)
            match cl_read_from server (nets k) s start length c with
            | (inr e, _, c) => (inr (SClient e), c)
            | (inl _, s, c) =>
                match read_term s with
                | (inr x, _) => (inr x, c)
                | (inl _, s) => upload_loop fuel (S k) s c
                end
            end
          else if beq kind STOP then (inl k, c)                      (* 246-247 *)
          else (inr SRuntime, c)                                     (* 248-251 *)
      end
  end.

(* examples/sparse-stream:230-254, inside of the with statement *)
Definition upload_body (virtual_size : Z) (s : list byte) (c : client W) : (unit + sexc) * client W :=
  match cl_size server c with
  | (inr e, c) => (inr (SClient e), c)
  | (inl n, c) =>
      if n <? virtual_size then (inr SRuntime, c)
      else match upload_loop (S (length s)) 0 s c with
           | (inr x, c) => (inr x, c)
           | (inl _, c) =>
               match cl_flush server c with
               | (inr e, c) => (inr (SClient e), c)
               | (inl _, c) => (inl tt, c)
               end
           end
  end.

(* examples/sparse-stream:219-254 upload.  Simplified: the client was opened before, and
   is not used if the metadata is not valid. *)
Definition upload (fails : option cexc) (s : list byte) (c : client W) : (unit + sexc) * client W :=
  match read_frame s with                                            (* 223 *)
  | (inr x, _) => (inr x, c)
  | (inl (kind, _, length), s) =>
      if negb (beq kind META) then (inr SRuntime, c)                 (* 224-225 *)
      else match read length s with                                  (* 227 *)
           | (inr x, _) => (inr x, c)
           | (inl text, s) =>
               match loads text with
               | None => (inr SMeta, c)
               | Some virtual_size =>
                   match read_term s with                            (* 228 *)
                   | (inr x, _) => (inr x, c)
                   | (inl _, s) =>
                       let (r, c) := upload_body virtual_size s c in
                       leave fails r c
                   end
               end
           end
  end.

End Stream.
