(* Model of the HTTP backend, the client of a remote imageio server
   (/repo/ovirt_imageio/_internal/backends/http.py), of the objects sent for
   extents (/repo/ovirt_imageio/_internal/extent.py) and of the EXTENTS handler
   (/repo/ovirt_imageio/_internal/handlers/extents.py).

   The remote server is any state machine answering messages; one instance of
   it is the server of ImagesModel, defined below.  http.client is modelled by
   the messages it sends and the responses it gives: status, Content-Length
   and body.  Not modelled: TLS and sockets (http.py:371-428), the switch to a
   unix socket, which reaches the same server (412-428), logging, close,
   and the state http.client is left in after an exception. *)
From Coq Require Import ZArith List Bool Ascii String.
From Verif Require Import BytesLib HeaderModel HttpModel OpsModel ImagesModel ExtentsModel.
Import ListNotations.
Open Scope Z_scope.

(* ---- numbers as text ---- *)

(* Python semantics: str() of an int, for backends/http.py:430-461. *)
Definition digit_chr (n : Z) : ascii := ascii_of_N (Z.to_N (n + 48)).

(* Digits of n, the last one first. *)
(* Python semantics: str() of an int, for backends/http.py:430-461. *)
Fixpoint rdigits (fuel : nat) (n : Z) : str :=
  match fuel with
  | O => []
  | S fuel => digit_chr (n mod 10) :: (if n <? 10 then [] else rdigits fuel (n / 10))
  end.

(* "{}".format(n), http.py:432-433, 457-458, and str(n) in http.client's
   putheader for http.py:455. *)
Definition show (n : Z) : str :=
  let ds := fun m => rev (rdigits (S (Z.to_nat (Z.log2 m))) m) in
  if n <? 0 then lits "-" ++ ds (- n) else ds n.

(* ---- extents as JSON objects ---- *)

(* An extent made by from_dict: the fields are whatever was in the object.
   extent.py:7, 52: start, length, zero, hole or start, length, dirty, zero. *)
Record jext := JExt { x_start : json; x_length : json; x_third : json; x_fourth : json }.

(* extent.py:40-49, 85-94 to_dict *)
Definition to_dict (e : image_extent) : json :=
  match e with
  | ZeroExtent start length zero hole =>
      JObj [(lits "start", JInt start); (lits "length", JInt length);
            (lits "zero", JBool zero); (lits "hole", JBool hole)]
  | DirtyExtent start length dirty zero =>
      JObj [(lits "start", JInt start); (lits "length", JInt length);
            (lits "dirty", JBool dirty); (lits "zero", JBool zero)]
  end.

(* How calls of the backend fail. *)
Inductive cexc :=
| XHttp (status : Z)   (* http.Error, http.py:594 *)
| XRuntime             (* RuntimeError *)
| XUnsupported         (* errors.UnsupportedOperation *)
| XConn                (* an error of the connection, of the reader or writer *)
| XIndex | XKey | XType | XValue.   (* IndexError, KeyError, ... *)

(* Python semantics, for backends/http.py:475-525 and extent.py. *)
Definition cbind {A B} (m : A + cexc) (f : A -> B + cexc) : B + cexc :=
  match m with inl x => f x | inr e => inr e end.

(* d[name] *)
(* Python semantics, for backends/http.py:475-525 and extent.py. *)
Definition item (d : json) (name : string) : json + cexc :=
  match d with
  | JObj d => match lookup d (lits name) with Some v => inl v | None => inr XKey end
  | _ => inr XType
  end.

(* d.get(name, default) *)
(* Python semantics, for backends/http.py:475-525 and extent.py. *)
Definition item_or (d : json) (name : string) (default : json) : json + cexc :=
  match d with
  | JObj d => match lookup d (lits name) with Some v => inl v | None => inl default end
  | _ => inr XType
  end.

(* extent.py:25-31 ZeroExtent.from_dict, 67-76 DirtyExtent.from_dict *)
Definition from_dict (dirty : bool) (d : json) : jext + cexc :=
  cbind (item d "start") (fun start =>
  cbind (item d "length") (fun length =>
  if dirty then
    cbind (item d "dirty") (fun dirty =>
    cbind (item_or d "zero" (JBool false)) (fun zero =>
    inl (JExt start length dirty zero)))
  else
    cbind (item d "zero") (fun zero =>
    cbind (item_or d "hole" JNull) (fun hole =>
    inl (JExt start length zero hole))))).

(* Python semantics, for backends/http.py:475-525 and extent.py. *)
Fixpoint map_exc {A B} (f : A -> B + cexc) (l : list A) : list B + cexc :=
  match l with
  | [] => inl []
  | x :: l => cbind (f x) (fun y => cbind (map_exc f l) (fun r => inl (y :: r)))
  end.

(* start + length for two values of JSON, http.py:332.  Simplified: only
   integers (and booleans, which are integers) can be added; with floats or
   two strings Python would give another value. *)
Definition as_int (j : json) : Z + cexc :=
  match j with
  | JInt n => inl n
  | JBool b => inl (if b then 1 else 0)
  | _ => inr XType
  end.
Definition add (a b : json) : Z + cexc :=
  cbind (as_int a) (fun a => cbind (as_int b) (fun b => inl (a + b))).

(* ---- messages ---- *)

(* A request sent to the server for the image of the backend's URL. *)
(* What backends/http.py:430-473 sends. *)
Inductive message :=
| MOptions
| MGet (range : option str)                (* Range header *)
| MPut (query : list (str * str)) (clen crange : str) (body : list byte)
    (* Content-Length and Content-Range headers; the bytes that were sent *)
| MPatch (msg : json)                      (* body, json.dumps(msg) *)
| MExtents (context : str).                (* GET path/extents?context=... *)

(* What con.getresponse() gives, read in backends/http.py:157-240 and 570-594. *)
Record response := Resp {
  p_status : Z;
  p_length : option Z;       (* int(Content-Length), None if there is none *)
  p_body : list byte;        (* the bytes that arrive *)
  p_json : option json       (* json.loads(body), None is ValueError *)
}.

(* What the connection does. *)
(* The network, no line of /repo. *)
Inductive sans :=
| SendOk
| SendBroken (k : Z)   (* BrokenPipeError or ConnectionResetError; the server
                          has received k bytes of this call *)
| SendFail (k : Z).    (* another error *)

(* The network, no line of /repo. *)
Record net := Net {
  n_read : nat -> option Z;   (* i-th readinto of a response: None raises *)
  n_send : nat -> sans;       (* i-th send of data *)
  n_src : nat -> option Z;    (* i-th reader.readinto: None raises *)
  n_dst : nat -> option Z     (* i-th writer.write: None raises, or the number
                                 of bytes the writer takes *)
}.

(* The attributes of the backend, http.py:51-71, and the world around it. *)
Record hb (W : Type) := HB {
  h_pos : Z;                        (* _position *)
  h_size : option Z;                (* _size *)
  h_zero : option (list jext);      (* _extents["zero"] *)
  h_dirty : option (list jext);     (* _extents["dirty"] *)
  h_can_extents : bool; h_can_zero : bool; h_can_flush : bool;
  h_ri : nat; h_si : nat;           (* answers of the connection used *)
  h_world : W;                      (* state of the server *)
  h_sent : list message             (* messages sent so far *)
}.
Arguments HB {W}. Arguments h_pos {W}. Arguments h_size {W}. Arguments h_zero {W}.
Arguments h_dirty {W}. Arguments h_can_extents {W}. Arguments h_can_zero {W}.
Arguments h_can_flush {W}. Arguments h_ri {W}. Arguments h_si {W}.
Arguments h_world {W}. Arguments h_sent {W}.

Section Backend.
Context {W : Type}.
(* The server: None if no response arrives. *)
Variable serve : W -> message -> option response * W.
Variable o : net.
Notation st := (hb W).

(* No code: updates an attribute of backends/http.py:52-75. *)
Definition set_pos (s : st) (p : Z) : st :=
  HB p (h_size s) (h_zero s) (h_dirty s) (h_can_extents s) (h_can_zero s) (h_can_flush s)
     (h_ri s) (h_si s) (h_world s) (h_sent s).
(* No code: updates an attribute of backends/http.py:52-75. *)
Definition set_size (s : st) (n : Z) : st :=
  HB (h_pos s) (Some n) (h_zero s) (h_dirty s) (h_can_extents s) (h_can_zero s) (h_can_flush s)
     (h_ri s) (h_si s) (h_world s) (h_sent s).
(* No code: updates an attribute of backends/http.py:52-75. *)
Definition set_extents (s : st) (dirty : bool) (l : list jext) : st :=
  HB (h_pos s) (h_size s) (if dirty then h_zero s else Some l)
     (if dirty then Some l else h_dirty s) (h_can_extents s) (h_can_zero s) (h_can_flush s)
     (h_ri s) (h_si s) (h_world s) (h_sent s).
(* No code: updates an attribute of backends/http.py:52-75. *)
Definition set_caps (s : st) (e z f : bool) : st :=
  HB (h_pos s) (h_size s) (h_zero s) (h_dirty s) e z f (h_ri s) (h_si s) (h_world s) (h_sent s).
(* No code: updates an attribute of backends/http.py:52-75. *)
Definition set_net (s : st) (ri si : nat) : st :=
  HB (h_pos s) (h_size s) (h_zero s) (h_dirty s) (h_can_extents s) (h_can_zero s) (h_can_flush s)
     ri si (h_world s) (h_sent s).

(* con.request(...) and con.getresponse() *)
(* http.client and the network, for backends/http.py:430-525. *)
Definition request (m : message) (s : st) : (response + cexc) * st :=
  let (r, w) := serve (h_world s) m in
  (match r with Some p => inl p | None => inr XConn end,
   HB (h_pos s) (h_size s) (h_zero s) (h_dirty s) (h_can_extents s) (h_can_zero s)
      (h_can_flush s) (h_ri s) (h_si s) w (h_sent s ++ [m])).

(* http.py:432-433 *)
Definition range_header (pos length : Z) : str :=
  lits "bytes=" ++ show pos ++ lits "-" ++ show (pos + length - 1).

(* http.py:430-447 _get *)
Definition get_range (length : Z) (s : st) : (response + cexc) * st :=
  let (r, s) := request (MGet (Some (range_header (h_pos s) length))) s in
  (cbind r (fun p =>
     if negb (p_status p =? 206) then inr (XHttp (p_status p))      (* 438-439 *)
     else match p_length p with                                      (* 441 *)
          | None => inr XType
          | Some n => if n =? length then inl p else inr XRuntime    (* 442-445 *)
          end), s).

(* http.py:449-461 _put_header: the message when [body] is what is sent *)
Definition put_message (length : Z) (body : list byte) (s : st) : message :=
  MPut (if h_can_flush s then [(lits "flush", lits "n")] else [])
       (show length)
       (lits "bytes " ++ show (h_pos s) ++ lits "-" ++ show (h_pos s + length - 1) ++ lits "/*")
       body.

(* The end of a PUT request, http.py:186-194, 256-264, 560-568: what remains
   after the data was sent. *)
Definition put_finish (length : Z) (body : list byte) (s : st) : (Z + cexc) * st :=
  let (r, s) := request (put_message length body s) s in
  match r with
  | inr e => (inr e, s)
  | inl p => if negb (p_status p =? 200) then (inr (XHttp (p_status p)), s)
             else (inl length, set_pos s (h_pos s + length))
  end.

(* A PUT request given up: the server gets what was sent, its response is not
   read. *)
(* http.client and the network, for backends/http.py:196-264. *)
Definition put_abort (length : Z) (body : list byte) (e : cexc) (s : st) : (Z + cexc) * st :=
  (inr e, snd (request (put_message length body s) s)).

(* con.send(data) when [sent] was sent before: all that was sent. *)
(* http.client and the network, for backends/http.py:196-264. *)
Definition send (s : st) (sent data : list byte) : sans * list byte * st :=
  let a := n_send o (h_si s) in
  let s' := set_net s (h_ri s) (S (h_si s)) in
  match a with
  | SendOk => (a, sent ++ data, s')
  | SendBroken k | SendFail k => (a, sent ++ take k data, s')
  end.

(* http.py:173-184: the loop of read_from.  [src] is what is left of the
   reader's data.  Each round takes a byte or ends, so the fuel is enough. *)
Fixpoint read_from_loop (fuel : nat) (i : nat) (buflen length todo : Z)
  (src sent : list byte) (s : st) : (Z + cexc) * list byte * st :=
  match fuel with
  | O => (inr XRuntime, src, s)
  | S fuel =>
      if todo =? 0 then let (r, s) := put_finish length sent s in (r, src, s)
      else
        let step := Z.min todo buflen in                             (* 174 *)
        match n_src o i with                                         (* 175 *)
        | None => let (r, s) := put_abort length sent XConn s in (r, src, s)
        | Some c =>
            let n := clamp 0 (Z.min (py_stop step buflen) (zlen src)) c in
            if n =? 0 then                                           (* 176-179 *)
              let (r, s) := put_abort length sent XRuntime s in (r, src, s)
            else
              let data := take n src in
              let src := drop n src in
              match send s sent data with                            (* 180-184 *)
              | (SendOk, sent, s) =>
                  read_from_loop fuel (S i) buflen length (todo - n) src sent s
              | (SendBroken _, sent, s) =>
                  let (r, s) := put_finish length sent s in (r, src, s)
              | (SendFail _, sent, s) =>
                  let (r, s) := put_abort length sent XConn s in (r, src, s)
              end
        end
  end.

(* http.py:157-194 read_from; [src] are the bytes the reader has.  The result
   has also the bytes left in the reader. *)
Definition read_from (src : list byte) (length buflen : Z) (s : st)
  : (Z + cexc) * list byte * st :=
  read_from_loop (S (List.length src)) 0 buflen length length src [] s.

(* res.readinto(view) with [room] = len(view) and [rest] the bytes of the body
   not read yet: at least one byte, unless there is none or no room. *)
(* http.client, for backends/http.py:225-241 and 570-579. *)
Definition res_readinto (room : Z) (rest : list byte) (s : st) : option (list byte * list byte) * st :=
  let s' := set_net s (S (h_ri s)) (h_si s) in
  match n_read o (h_ri s) with
  | None => (None, s')
  | Some c =>
      let most := Z.min room (zlen rest) in
      let n := clamp (Z.min 1 most) most c in
      (Some (take n rest, drop n rest), s')
  end.

(* http.py:209-218: the loop of write_to.  [out] is what the writer took.
   Each round reads a byte or ends. *)
Fixpoint write_to_loop (fuel : nat) (i : nat) (buflen todo : Z) (rest out : list byte)
  (s : st) : (unit + cexc) * list byte * st :=
  match fuel with
  | O => (inr XRuntime, out, s)
  | S fuel =>
      if todo =? 0 then (inl tt, out, s)
      else
        let step := Z.min todo buflen in                             (* 210 *)
        match res_readinto (py_stop step buflen) rest s with         (* 211 *)
        | (None, s) => (inr XConn, out, s)
        | (Some ([], _), s) => (inr XRuntime, out, s)                (* 212-215 *)
        | (Some (data, rest), s) =>
            match n_dst o i with                                     (* 216 *)
            | None => (inr XConn, out, s)
            | Some c =>
                write_to_loop fuel (S i) buflen (todo - zlen data) rest
                  (out ++ take c data) s                             (* 217 *)
            end
        end
  end.

(* http.py:196-221 write_to; the result has also what the writer took. *)
Definition write_to (length buflen : Z) (s : st) : (Z + cexc) * list byte * st :=
  match get_range length s with
  | (inr e, s) => (inr e, [], s)
  | (inl p, s) =>
      match write_to_loop (S (List.length (p_body p))) 0 buflen length (p_body p) [] s with
      | (inr e, out, s) => (inr e, out, s)
      | (inl _, out, s) => (inl length, out, set_pos s (h_pos s + length))
      end
  end.

(* http.py:508-526 _get_extents, consumed entirely (305) *)
Definition get_extents (dirty : bool) (s : st) : (list jext + cexc) * st :=
  let (r, s) := request (MExtents (if dirty then lits "dirty" else lits "zero")) s in
  (cbind r (fun p =>
     if p_status p =? 404 then inr XUnsupported                      (* 513-516 *)
     else if negb (p_status p =? 200) then inr (XHttp (p_status p))  (* 518-519 *)
     else match p_json p with
          | None => inr XValue
          | Some (JList l) => map_exc (from_dict dirty) l            (* 523-525 *)
          | Some _ => inr XType
              (* simplified: an empty object or string has no extents *)
          end), s).

(* http.py:528-546 _emulate_head *)
Definition emulate_head (s : st) : (Z + cexc) * st :=
  let (r, s) := request (MGet None) s in
  (cbind r (fun p =>
     if negb (p_status p =? 200) then inr (XHttp (p_status p))
     else match p_length p with None => inr XType | Some n => inl n end), s).

(* http.py:304-308: the part of extents() for a server that supports it *)
Definition cached_extents (dirty : bool) (s : st) : (list jext + cexc) * st :=
  match (if dirty then h_dirty s else h_zero s) with
  | Some l => (inl l, s)
  | None =>
      match get_extents dirty s with
      | (inr e, s) => (inr e, s)
      | (inl l, s) => (inl l, set_extents s dirty l)
      end
  end.

(* http.py:324-336 size *)
Definition size (s : st) : (Z + cexc) * st :=
  match h_size s with
  | Some n => (inl n, s)
  | None =>
      let (r, s) :=
        if h_can_extents s then                                      (* 330-332 *)
          let (r, s) := cached_extents false s in
          (cbind r (fun l => match rev l with
                             | [] => inr XIndex
                             | e :: _ => add (x_start e) (x_length e)
                             end), s)
        else emulate_head s in                                       (* 334 *)
      match r with
      | inr e => (inr e, s)
      | inl n => (inl n, set_size s n)
      end
  end.

(* http.py:291-310 extents, consumed entirely; the other contexts are refused
   without any request (295-296). *)
Definition extents (dirty : bool) (s : st) : (list jext + cexc) * st :=
  if negb (h_can_extents s) then
    if dirty then (inr XUnsupported, s)                              (* 302-303 *)
    else let (r, s) := size s in                                     (* 299-300 *)
         (cbind r (fun n => inl [JExt (JInt 0) (JInt n) (JBool false) (JBool false)]), s)
  else cached_extents dirty s.

(* http.py:570-579 _read_all: [got] is what was stored in the buffer. *)
Fixpoint read_all (fuel : nat) (length : Z) (rest got : list byte) (s : st)
  : (unit + cexc) * list byte * st :=
  match fuel with
  | O => (inr XRuntime, got, s)
  | S fuel =>
      if zlen got <? length then
        match res_readinto (length - zlen got) rest s with
        | (None, s) => (inr XConn, got, s)
        | (Some ([], _), s) => (inr XRuntime, got, s)
        | (Some (data, rest), s) => read_all fuel length rest (got ++ data) s
        end
      else (inl tt, got, s)
  end.

(* http.py:225-241 readinto; the result has also the buffer. *)
Definition readinto (buf : list byte) (s : st) : (Z + cexc) * list byte * st :=
  match size s with                                                  (* 229 *)
  | (inr e, s) => (inr e, buf, s)
  | (inl sz, s) =>
      let length := Z.min (zlen buf) (sz - h_pos s) in
      if length <=? 0 then (inl 0, buf, s)                           (* 230-233 *)
      else match get_range length s with                             (* 235 *)
           | (inr e, s) => (inr e, buf, s)
           | (inl p, s) =>
               let '(r, got, s) := read_all (S (List.length (p_body p))) length (p_body p) [] s in
               let buf := got ++ drop (zlen got) buf in              (* 237-238 *)
               match r with
               | inr e => (inr e, buf, s)
               | inl _ => (inl length, buf, set_pos s (h_pos s + length))
               end
           end
  end.

(* http.py:243-264 write *)
Definition write (buf : list byte) (s : st) : (Z + cexc) * st :=
  match send s [] buf with                                           (* 250-255 *)
  | (SendOk, sent, s) | (SendBroken _, sent, s) => put_finish (zlen buf) sent s
  | (SendFail _, sent, s) => put_abort (zlen buf) sent XConn s
  end.

(* http.py:463-473 _patch *)
Definition patch_request (msg : json) (s : st) : (unit + cexc) * st :=
  let (r, s) := request (MPatch msg) s in
  (cbind r (fun p => if negb (p_status p =? 200) then inr (XHttp (p_status p)) else inl tt), s).

(* http.py:554-558: the loop of _emulate_zero; [sent] so far.  An error of
   send is not caught here. *)
Definition CHUNK : Z := 131072.                                      (* 128 * KiB *)
Fixpoint zero_loop (fuel : nat) (length todo : Z) (sent : list byte) (s : st) : (Z + cexc) * st :=
  match fuel with
  | O => (inr XRuntime, s)
  | S fuel =>
      if CHUNK <? todo then                                          (* 556-558 *)
        match send s sent (zeros CHUNK) with
        | (SendOk, sent, s) => zero_loop fuel length (todo - CHUNK) sent s
        | (_, sent, s) => put_abort length sent XConn s
        end
      else
        match send s sent (zeros (py_stop todo CHUNK)) with          (* 559 *)
        | (SendOk, sent, s) => put_finish length sent s
        | (_, sent, s) => put_abort length sent XConn s
        end
  end.

(* http.py:548-568 _emulate_zero *)
Definition emulate_zero (length : Z) (s : st) : (Z + cexc) * st :=
  zero_loop (S (Z.to_nat (length / CHUNK))) length length [] s.

(* http.py:266-282 zero *)
Definition zero (length : Z) (s : st) : (Z + cexc) * st :=
  if negb (h_can_zero s) then emulate_zero length s
  else
    let msg := JObj [(lits "op", JStr (lits "zero")); (lits "offset", JInt (h_pos s));
                     (lits "size", JInt length);
                     (lits "flush", JBool (negb (h_can_flush s)))] in
    match patch_request msg s with
    | (inr e, s) => (inr e, s)
    | (inl _, s) => (inl length, set_pos s (h_pos s + length))
    end.

(* http.py:284-289 flush *)
Definition flush (s : st) : (unit + cexc) * st :=
  if h_can_flush s then patch_request (JObj [(lits "op", JStr (lits "flush"))]) s
  else (inl tt, s).

(* http.py:312-313 tell *)
Definition tell (s : st) : Z := h_pos s.

(* http.py:315-322 seek; [how] is os.SEEK_SET 0, os.SEEK_CUR 1, os.SEEK_END 2 *)
Definition seek (n how : Z) (s : st) : (Z + cexc) * st :=
  if how =? 0 then (inl n, set_pos s n)
  else if how =? 1 then (inl (h_pos s + n), set_pos s (h_pos s + n))
  else if how =? 2 then
    match size s with
    | (inr e, s) => (inr e, s)
    | (inl sz, s) => (inl (sz + n), set_pos s (sz + n))
    end
  else (inl (h_pos s), s).

(* ---- connecting ---- *)

(* bool(value).  Simplified: every float counts as true. *)
(* Python semantics, for backends/http.py:475-506. *)
Definition truthy (j : json) : bool :=
  match j with
  | JNull => false
  | JBool b => b
  | JInt n => negb (n =? 0)
  | JFloat => true
  | JStr s => match s with [] => false | _ => true end
  | JList l => match l with [] => false | _ => true end
  | JObj l => match l with [] => false | _ => true end
  end.

(* for feature in features: options[feature] = True, http.py:503-504: the
   names added.  Lists and objects are not hashable. *)
Fixpoint feature_names (l : list json) : list str + cexc :=
  match l with
  | [] => inl []
  | JStr s :: l => cbind (feature_names l) (fun r => inl (s :: r))
  | JList _ :: _ | JObj _ :: _ => inr XType
  | _ :: l => feature_names l
  end.

(* http.py:503: iteration over the value of "features".  Simplified: the one
   character names from a string are left out, no option has such a name. *)
Definition features_of (j : json) : list str + cexc :=
  match j with
  | JList l => feature_names l
  | JObj l => inl (map fst l)
  | JStr _ => inl []
  | _ => inr XType
  end.

(* http.py:475-506 _options and 119-122: extents, zero, flush *)
Definition caps_of (p : response) : (bool * bool * bool) + cexc :=
  if (p_status p =? 405) || (p_status p =? 204) then inl (false, false, false)  (* 482-488 *)
  else if negb (p_status p =? 200) then inr (XHttp (p_status p))                (* 489-490 *)
  else match p_json p with
       | None => inl (false, false, false)                                     (* 493-498 *)
       | Some (JObj d) =>
           cbind (match lookup d (lits "features") with
                  | None => inl []
                  | Some v => features_of v
                  end) (fun names =>
           let has := fun name : string =>
             existsb (str_eqb (lits name)) names
             || match lookup d (lits name) with Some v => truthy v | None => false end in
           inl (has "extents"%string, has "zero"%string, has "flush"%string))
       | Some _ => inr XType
       end.

(* http.py:51-71, 114-137: a new backend.  max_readers and max_writers (126,
   130) are left out. *)
Definition new (w : W) : st := HB 0 None None None false false false 0 0 w [].

(* http.py:76-112 clone: another backend of the same server.  The new
   connection is not modelled. *)
Definition clone (s : st) : st :=
  HB 0 (h_size s) (h_zero s) (h_dirty s) (h_can_extents s) (h_can_zero s) (h_can_flush s)
     0 0 (h_world s) [].

(* backends/http.py:114-138. *)
Definition connect (s : st) : (unit + cexc) * st :=
  let (r, s) := request MOptions s in
  match cbind r caps_of with
  | inr e => (inr e, s)
  | inl (e, z, f) => (inl tt, set_caps s e z f)
  end.

End Backend.

(* ---- the server ---- *)

(* What the environment does during one request. *)
(* No code: the environment of the server. *)
Record senv := SEnv {
  se_v : ienv;                                   (* see ImagesModel *)
  se_ext : bool -> list byte -> option (list image_extent);
     (* ctx.backend.extents(context) for an image; None is
        UnsupportedOperation *)
  se_dirty : bool;                               (* ticket.dirty *)
  se_may : string -> bool;                       (* ticket.may *)
  se_readers : Z * Z;                            (* limits of the backend *)
  se_local : option str;                         (* config.local.socket *)
  se_lost : bool                                 (* the response is lost *)
}.

(* handlers/extents.py:23-51 get *)
Definition extents_get (e : senv) (img : list byte) (q : ireq) : list json + (exc * bool) :=
  match q_id q with
  | [] => inr (EHttp 400, false)                                     (* 24-25 *)
  | _ =>
      match enter (se_v e) q "read" with                             (* 27-32 *)
      | inr x => inr x
      | inl _ =>
          match enum_query (q_query q) (lits "context")
                  [lits "zero"; lits "dirty"] (lits "zero") with     (* 34-35 *)
          | inr x => inr (x, false)
          | inl c =>
              let dirty := str_eqb c (lits "dirty") in
              if dirty && negb (se_dirty e) then inr (EHttp 404, false)   (* 37-39 *)
              else match se_ext e dirty img with                     (* 44-49 *)
                   | None => inr (EHttp 404, false)
                   | Some l => inl (map to_dict l)
                   end
          end
      end
  end.

(* http.py:208-245, 320-450 as modelled in HttpModel: the status of an error
   of a handler that has not sent anything.  None: the connection is closed
   without a response.  The text of errors is left out. *)
Definition error_response (e : exc) : option response :=
  match e with
  | EHttp c => Some (Resp c (Some 0) [] None)
  | EOther => Some (Resp 500 (Some 0) [] None)
  | _ => None
  end.

(* A handler that has sent data can only close the connection. *)
(* http.py:498-519 and 541-564, how an answer of the handler gets to the client. *)
Definition respond (a : answer) : option response :=
  match a_err a with
  | None => Some (Resp (a_status a) (Some (match a_length a with Some n => n | None => 0 end))
                       (a_sent a) None)
  | Some e =>
      match a_sent a with
      | [] => error_response e
      | _ => Some (Resp (a_status a) (a_length a) (a_sent a) None)
      end
  end.

(* handlers/images.py:222-267: the object sent by options *)
Definition options_json (e : senv) (a : options_answer) : json :=
  JObj ((if o_socket a then
           match se_local e with Some p => [(lits "unix_socket", JStr p)] | None => [] end
         else [])
     ++ (match o_features a with
         | Some l => [(lits "features", JList (map (fun f => JStr (lits f)) l))]
         | None => []
         end)
     ++ (match o_readers a with
         | Some (r, w) => [(lits "max_readers", JInt r); (lits "max_writers", JInt w)]
         | None => []
         end)).

(* The image, its ticket's requests so far, and the effects on the backend. *)
(* No code: the server of ImagesModel as a state machine answering messages. *)
Record iworld := IW { iw_img : list byte; iw_n : nat; iw_log : list effect }.

(* The request the server sees for a message; [id] is the ticket in the
   backend's URL. *)
(* No code: the server of ImagesModel as a state machine answering messages. *)
Definition ireq_of (id : str) (m : message) : ireq :=
  match m with
  | MOptions => IReq id [] None None None [] (inr FBad)
  | MGet r => IReq id [] r None None [] (inr FBad)
  | MPut query clen crange body => IReq id query None (Some crange) (Some clen) body (inr FBad)
  | MPatch msg => IReq id [] None None None [] (inl msg)
  | MExtents c => IReq id [(lits "context", c)] None None None [] (inr FBad)
  end.

(* No code: the server of ImagesModel as a state machine answering messages. *)
Definition served (lost : bool) (w : iworld) (r : option response) (img : list byte)
  (log : list effect) : option response * iworld :=
  (if lost then None else r, IW img (S (iw_n w)) (iw_log w ++ log)).

(* The imageio server answering a message (services.py:78-85 routes). *)
Definition imageio (id : str) (envs : nat -> senv) (w : iworld) (m : message)
  : option response * iworld :=
  let e := envs (iw_n w) in
  let q := ireq_of id m in
  let img := iw_img w in
  let image := fun a : option answer =>
    match a with
    | None => served (se_lost e) w None img []
    | Some a => served (se_lost e) w (respond a) (a_img a) (a_log a)
    end in
  match m with
  | MGet _ => image (get (se_v e) img q)
  | MPut _ _ _ _ => image (put (se_v e) img q)
  | MPatch _ => image (patch (se_v e) img q)
  | MExtents _ =>
      served (se_lost e) w
        (match extents_get e img q with
         | inl l => Some (Resp 200 (Some 0) [] (Some (JList l)))
             (* the text of the JSON is left out *)
         | inr (x, _) => error_response x
         end) img []
  | MOptions =>
      served (se_lost e) w
        (match options (se_v e) (se_may e) (se_readers e)
                 (match se_local e with Some _ => true | None => false end) q with
         | inl a => Some (Resp 200 (Some 0) [] (Some (options_json e a)))
         | inr (x, _) => error_response x
         end) img []
  end.
