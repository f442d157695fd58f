(* The bytes of a response and the CORS headers: http.py Response, Headers and
   Router.__call__, cors.py, and the headers set by handlers/images.py.
   Paths are relative to /repo/ovirt_imageio/_internal.  Texts are lists of code
   points, bytes are numbers 0..255.  Simplified: writes to the socket succeed
   (failing ones are in HttpModel.v). *)
From Coq Require Import ZArith List Bool String.
From Verif Require Import UrlModel.
Import ListNotations.
Open Scope Z_scope.

(* str.encode("utf-8") of one character; None: UnicodeEncodeError for a lone
   surrogate.  Used at http.py:507, 594. *)
Definition utf8_char (c : Z) : option (list Z) :=
  if c <? 128 then Some [c]
  else if c <? 2048 then Some [192 + c / 64; 128 + c mod 64]
  else if (55296 <=? c) && (c <=? 57343) then None
  else if c <? 65536 then Some [224 + c / 4096; 128 + c / 64 mod 64; 128 + c mod 64]
  else Some [240 + c / 262144; 128 + c / 4096 mod 64; 128 + c / 64 mod 64; 128 + c mod 64].

(* str.encode("utf-8"), http.py:507, 594 *)
Fixpoint utf8 (s : str) : option (list Z) :=
  match s with
  | [] => Some []
  | c :: r => match utf8_char c, utf8 r with Some a, Some b => Some (a ++ b) | _, _ => None end
  end.

(* Values of headers: texts and ints, formatted with "%s" at http.py:594. *)
Inductive hvalue := VText (s : str) | VInt (n : Z).
(* http.py:594 *)
Definition hshow (x : hvalue) : str := match x with VText s => s | VInt n => dec n end.

(* str.lower() of ASCII, http.py:624 *)
Definition lower (s : str) : str := map (fun c => if (65 <=? c) && (c <=? 90) then c + 32 else c) s.
(* equality of texts, for the keys of a dict *)
Definition same (a b : str) : bool := if list_eq_dec Z.eq_dec a b then true else false.

(* Headers, http.py:613-624: a dict in insertion order *)
Definition headers := list (str * hvalue).
Fixpoint put (k : str) (x : hvalue) (h : headers) : headers :=
  match h with
  | [] => [(k, x)]
  | (k', y) :: r => if same k k' then (k', x) :: r else (k', y) :: put k x r
  end.
(* http.py:618-624 __setitem__ *)
Definition set_header (k : str) (x : hvalue) (h : headers) : headers := put (lower k) x h.

(* http.py:468-474 Response; [r_sent] is what was written to the connection,
   [r_raw] that write was replaced (564), [r_close] Connection.close_connection *)
Record resp := Resp { r_status : Z; r_headers : headers; r_started : bool; r_raw : bool; r_sent : list Z; r_close : bool }.

(* http.py:471-473 *)
Definition new_resp : resp := Resp 200 [(lit "content-length", VInt 0)] false false [] false.

(* The texts of the server: reason phrases (library), http.py:579-586 *)
Record texts := Texts { x_phrase : Z -> list Z; x_server : list Z; x_date : list Z }.

(* http.py:566-597, the ends of lines. *)
Definition CRLF : list Z := [13; 10].

(* http.py:566-597 _write_header: user headers, 588-594 *)
Fixpoint user_headers (h : headers) : option (list Z) :=
  match h with
  | [] => Some CRLF
  | (k, x) :: r =>
      match utf8 (k ++ lit ": " ++ hshow x ++ CRLF), user_headers r with
      | Some a, Some b => Some (a ++ b)
      | _, _ => None
      end
  end.
(* http.py:566-597 *)
Definition header_bytes (t : texts) (r : resp) : option (list Z) :=
  match user_headers (r_headers r) with
  | None => None
  | Some u => Some (lit "HTTP/1.1 " ++ dec (r_status r) ++ [32] ++ x_phrase t (r_status r) ++ CRLF
                    ++ lit "server: " ++ x_server t ++ CRLF ++ lit "date: " ++ x_date t ++ CRLF ++ u)
  end.

(* Exceptions: http.Error with code, text, content_range (http.py:52-60), and
   all others *)
Inductive exc := EHttp (code : Z) (message : str) (content_range : option str) | EOther.

(* http.py:541-564 write; true: it returned.  The response is marked as started
   before the header is made (548). *)
Definition write (t : texts) (data : list Z) (r : resp) : resp * bool :=
  if r_raw r then (Resp (r_status r) (r_headers r) true true (r_sent r ++ data) (r_close r), true)
  else match header_bytes t r with
  | None => (Resp (r_status r) (r_headers r) true false (r_sent r) (r_close r), false)
  | Some b => (Resp (r_status r) (r_headers r) true true (r_sent r ++ b ++ data) (r_close r), true)
  end.

(* What a handler does with its response, in order. *)
Inductive act :=
| SetStatus (n : Z)
| SetHeader (k : str) (x : hvalue)
| CloseConnection                          (* http.py:534-539 *)
| Write (data : list Z).

(* assignments, http.py:534-539, 541-564 *)
Definition do_act (t : texts) (a : act) (r : resp) : resp * bool :=
  match a with
  | SetStatus n => (Resp n (r_headers r) (r_started r) (r_raw r) (r_sent r) (r_close r), true)
  | SetHeader k x => (Resp (r_status r) (set_header k x (r_headers r)) (r_started r) (r_raw r) (r_sent r) (r_close r), true)
  | CloseConnection => (Resp (r_status r) (set_header (lit "connection") (VText (lit "close")) (r_headers r)) (r_started r) (r_raw r) (r_sent r) true, true)
  | Write data => write t data r
  end.

(* A handler: what it does and how it ends.  A failing write ends it. *)
(* No code: any handler using http.py:483-564. *)
Record handler := Handler { h_acts : list act; h_raises : option exc }.
(* No code: any handler using http.py:483-564. *)
Fixpoint do_acts (t : texts) (l : list act) (r : resp) : resp * bool :=
  match l with
  | [] => (r, true)
  | a :: l => match do_act t a r with (r, true) => do_acts t l r | (r, false) => (r, false) end
  end.

(* http.py:498-520 send_error, without the check of started; the body is the
   text and a newline *)
Definition error_acts (code : Z) (body : list Z) (content_range : option str) : list act :=
  [SetStatus code; SetHeader (lit "content-type") (VText (lit "text/plain; charset=UTF-8"));
   SetHeader (lit "content-length") (VInt (Z.of_nat (List.length body)))]
  ++ match content_range with Some c => [SetHeader (lit "content-range") (VText c)] | None => [] end
  ++ [Write body].

(* http.py:522-532 send_json; the body is the JSON text and a newline *)
Definition json_acts (body : list Z) : list act :=
  [SetStatus 200; SetHeader (lit "content-length") (VInt (Z.of_nat (List.length body)));
   SetHeader (lit "content-type") (VText (lit "application/json")); Write body].

(* The text sent for errors that are not http.Error, http.py:813-815 *)
Definition internal_error : str := lit "Server failed to perform the request, check logs".

(* http.py:793-824 Router.__call__; [unread]: the request has content that was
   not read (822).  Second result: true when the call returned. *)
Definition router (t : texts) (unread : bool) (h : handler) (r : resp) : resp * bool :=
  let failed r e :=
    if r_started r then (fst (do_act t CloseConnection r), true)             (* 806-809 *)
    else
      let '(code, message, cr) := match e with EHttp c m cr => (c, m, cr) | EOther => (500, internal_error, None) end in
      let r := if unread then fst (do_act t CloseConnection r) else r in     (* 822-823 *)
      match utf8 message with                                                (* 507 *)
      | None => (r, false)
      | Some b => do_acts t (error_acts code (b ++ [10]) cr) r
      end in
  match do_acts t (h_acts h) r with
  | (r, false) => failed r EOther
  | (r, true) =>
      match h_raises h with
      | Some e => failed r e
      | None =>
          if r_started r then (r, true)
          else match write t [] r with                                       (* 800-801 *)
               | (r, true) => (r, true)
               | (r, false) => failed r EOther
               end
      end
  end.

(* ---- CORS ---- *)

(* The arguments of cors.allow, cors.py:42-43 *)
Record cors := Cors { c_origin : str; c_headers : str; c_methods : str; c_max_age : Z }.
(* cors.py:42-43, the defaults *)
Definition cors_default : cors := Cors (lit "*") (lit "*") (lit "*") (24 * 3600).

(* req.headers.get(name): None or a text; "" is false as well *)
(* cors.py, used in http.py:793-824. *)
Definition given (q : str -> option str) (name : str) : bool :=
  match q name with Some (_ :: _) => true | _ => false end.

(* cors.py:57-80 wrapper: what is done before the method *)
Definition cors_acts (c : cors) (q : str -> option str) : list act :=
  let o := given q (lit "origin") in
  let h := given q (lit "access-control-request-headers") in
  let m := given q (lit "access-control-request-method") in
  (if o then [SetHeader (lit "access-control-allow-origin") (VText (c_origin c))] else [])
  ++ (if h then [SetHeader (lit "access-control-allow-headers") (VText (c_headers c))] else [])
  ++ (if m then [SetHeader (lit "access-control-allow-methods") (VText (c_methods c))] else [])
  ++ (if o || h || m then [SetHeader (lit "access-control-max-age") (VInt (c_max_age c))] else []).

(* cors.py:56-84 decorator *)
Definition allow (c : cors) (q : str -> option str) (h : handler) : handler :=
  Handler (cors_acts c q ++ h_acts h) (h_raises h).

(* The methods of the handlers of the remote service with their decorators:
   images.py:29, 79, 150, 222, info.py:17, extents.py:23, checksum.py:34, 93. *)
Inductive resource := Images | Info | Extents | Checksum | Algorithms.
Definition decorated (x : resource) (method : str) : option (option cors) :=
  let is s := same method (lit s) in
  match x with
  | Images =>
      if is "put"%string || is "get"%string then Some (Some cors_default)
      else if is "options"%string then Some (Some (Cors (lit "*") (lit "*") (lit "OPTIONS,GET,PUT") (24 * 3600)))
      else if is "patch"%string then Some None
      else None
  | Info => if is "get"%string then Some (Some cors_default) else None
  | Extents | Checksum | Algorithms => if is "get"%string then Some None else None
  end.

(* The method called by the router: http.py:833-841; [h] is the undecorated
   method *)
Definition method_handler (x : resource) (method : str) (q : str -> option str) (h : handler) : handler :=
  match decorated x (lower method) with
  | None => Handler [] (Some (EHttp 405 (lit "Method not defined") None))    (* 837-840, text simplified *)
  | Some None => h
  | Some (Some c) => allow c q h
  end.

(* ---- headers of a download ---- *)

(* images.py:122-133 get; then ops.Read writes the content.  [range]: the
   request has a Range header. *)
Definition get_acts (filename : str) (size offset ticket_size : Z) (range : bool) : list act :=
  [SetHeader (lit "content-length") (VInt size);
   SetHeader (lit "content-type") (VText (lit "application/octet-stream"));
   SetHeader (lit "content-disposition")
     (VText (lit "attachment" ++ match filename with [] => [] | _ => lit "; filename=" ++ filename end))]
  ++ if range then
       [SetStatus 206;
        SetHeader (lit "content-range")
          (VText (lit "bytes " ++ dec offset ++ [45] ++ dec (offset + size - 1) ++ [47] ++ dec ticket_size))]
     else [].
