(* Model of the HTTP server in ovirt_imageio/_internal/http.py: request body,
   response, Router, and the connection loop.

   Input of a connection is the list of bytes the client sends; reading at the
   end of the list is end of file.  What the operating system decides (short
   reads, errors) comes from an oracle; theorems quantify over all oracles.
   Request handlers are arbitrary programs over the request and response API,
   given as trees ([prog]); theorems quantify over all of them.

   Not modelled: parsing of the request line and header (Python's
   http/server.py parse_request), which is a parameter of the connection loop;
   the text of headers and error messages other than status, content-length
   and connection; Response.send_info (http.py:483-496), which no handler uses;
   stats clocks; logging. *)
From Coq Require Import ZArith List Bool Ascii String.
From Verif Require Import BytesLib HeaderModel.
Import ListNotations.
Open Scope Z_scope.

(* Exceptions, as far as Router.__call__ and handle_one_request tell them
   apart: http.Error, and the OSError family: socket.timeout, an error in
   _DISCONNECTED (http.py:40-46), another OSError. *)
Inductive exc :=
| EHttp (code : Z)
| ETimeout
| EDisconnected
| EOSError
| EOther.

(* http.py:40-47 _DISCONNECTED and Python's exceptions of sockets. *)
Definition is_socket_error (e : exc) : bool :=
  match e with ETimeout | EDisconnected | EOSError => true | _ => false end.

(* Attributes set lazily, http.py:49, _UNKNOWN. *)
Inductive lazy := Unknown | Known (v : option Z).

(* What goes to the client, in order. *)
(* What http.py:541-597 sends. *)
Inductive event :=
| Head (code : Z) (length : Z) (close : bool)      (* status line and headers *)
| Data (d : list byte)                             (* part of a body *)
| Broken.                                          (* a write failed half way *)

(* Answer to rfile.read or rfile.readinto: bytes delivered, or bytes lost and
   the exception. *)
(* The socket, for http.py:432-456. *)
Inductive rdans :=
| RGot (k : Z)
| RFail (k : Z) (e : exc).

Record env := Env {
  e_limit : option Z;              (* digit limit of int(), see HeaderModel *)
  e_read : nat -> rdans;           (* i-th read of the socket *)
  e_write : nat -> option exc;     (* i-th write: None succeeds *)
  e_lost : nat -> bool             (* i-th connection_lost(), http.py:458-462 *)
}.

(* The parts of a parsed request used below. *)
(* Python's http.server, read in http.py:285-430. *)
Record head := ReqHead {
  h_method : str;
  h_path : str;                    (* unquoted, without query *)
  h_length : option str;           (* Content-Length header *)
  h_close : bool                   (* close_connection as set by parse_request *)
}.

(* Connection, current request and current response. *)
(* The attributes of http.py:185-193, 285-298 and 470-481. *)
Record st := St {
  s_in : list byte;       (* bytes not yet taken from the socket *)
  s_out : list event;     (* sent for the current request *)
  s_close : bool;         (* Connection.close_connection *)
  s_cl : lazy;            (* Request._content_length *)
  s_len : lazy;           (* Request._length *)
  s_started : bool;       (* Response._started *)
  s_raw : bool;           (* Response.write replaced by wfile.write (564) *)
  s_status : Z;           (* Response.status_code *)
  s_rlen : Z;             (* Response.headers["content-length"] *)
  s_rclose : bool;        (* Response.headers has "connection: close" *)
  s_ri : nat; s_wi : nat; s_li : nat    (* oracle answers used *)
}.

(* No code: updates a component of the state. *)
Definition set_in v s := St v (s_out s) (s_close s) (s_cl s) (s_len s) (s_started s) (s_raw s)
  (s_status s) (s_rlen s) (s_rclose s) (s_ri s) (s_wi s) (s_li s).
(* No code: updates a component of the state. *)
Definition set_out v s := St (s_in s) v (s_close s) (s_cl s) (s_len s) (s_started s) (s_raw s)
  (s_status s) (s_rlen s) (s_rclose s) (s_ri s) (s_wi s) (s_li s).
(* No code: updates a component of the state. *)
Definition set_cl v s := St (s_in s) (s_out s) (s_close s) v (s_len s) (s_started s) (s_raw s)
  (s_status s) (s_rlen s) (s_rclose s) (s_ri s) (s_wi s) (s_li s).
(* No code: updates a component of the state. *)
Definition set_len v s := St (s_in s) (s_out s) (s_close s) (s_cl s) v (s_started s) (s_raw s)
  (s_status s) (s_rlen s) (s_rclose s) (s_ri s) (s_wi s) (s_li s).
(* No code: updates a component of the state. *)
Definition set_started s := St (s_in s) (s_out s) (s_close s) (s_cl s) (s_len s) true (s_raw s)
  (s_status s) (s_rlen s) (s_rclose s) (s_ri s) (s_wi s) (s_li s).
(* No code: updates a component of the state. *)
Definition set_raw s := St (s_in s) (s_out s) (s_close s) (s_cl s) (s_len s) (s_started s)
  true (s_status s) (s_rlen s) (s_rclose s) (s_ri s) (s_wi s) (s_li s).
(* No code: updates a component of the state. *)
Definition set_status v s := St (s_in s) (s_out s) (s_close s) (s_cl s) (s_len s)
  (s_started s) (s_raw s) v (s_rlen s) (s_rclose s) (s_ri s) (s_wi s) (s_li s).
(* No code: updates a component of the state. *)
Definition set_rlen v s := St (s_in s) (s_out s) (s_close s) (s_cl s) (s_len s)
  (s_started s) (s_raw s) (s_status s) v (s_rclose s) (s_ri s) (s_wi s) (s_li s).
(* No code: updates a component of the state. *)
Definition next_read s := St (s_in s) (s_out s) (s_close s) (s_cl s) (s_len s)
  (s_started s) (s_raw s) (s_status s) (s_rlen s) (s_rclose s) (S (s_ri s)) (s_wi s) (s_li s).
(* No code: updates a component of the state. *)
Definition next_write s := St (s_in s) (s_out s) (s_close s) (s_cl s) (s_len s)
  (s_started s) (s_raw s) (s_status s) (s_rlen s) (s_rclose s) (s_ri s) (S (s_wi s)) (s_li s).
(* No code: updates a component of the state. *)
Definition next_lost s := St (s_in s) (s_out s) (s_close s) (s_cl s) (s_len s)
  (s_started s) (s_raw s) (s_status s) (s_rlen s) (s_rclose s) (s_ri s) (s_wi s) (S (s_li s)).

(* http.py:534-539 Response.close_connection *)
Definition close_connection (s : st) : st :=
  St (s_in s) (s_out s) true (s_cl s) (s_len s) (s_started s) (s_raw s)
     (s_status s) (s_rlen s) true (s_ri s) (s_wi s) (s_li s).

(* http.py:369-396 Request.content_length *)
Definition req_content_length (v : env) (h : head) (s : st) : st * (option Z + exc) :=
  match s_cl s with
  | Known n => (s, inl n)
  | Unknown =>
      match content_length (e_limit v) (h_length h) with
      | inl n => (set_cl (Known n) s, inl n)
      | inr _ => (set_cl (Known None) s, inr (EHttp 400))   (* 388-390, 392-394 *)
      end
  end.

(* http.py:398-406 Request.length *)
Definition req_length (v : env) (h : head) (s : st) : st * (option Z + exc) :=
  match s_len s with
  | Known n => (s, inl n)
  | Unknown =>
      match req_content_length v h s with
      | (s, inl n) => (set_len (Known n) s, inl n)
      | (s, inr e) => (s, inr e)
      end
  end.

(* The bytes delivered by rfile.read(n) or readinto of an n bytes view: at most
   n, at most those available.  A negative n means "until end of file"
   (io.BufferedReader.read). *)
(* The socket, for http.py:432-456. *)
Definition available (n : Z) (inp : list byte) : Z :=
  if n <? 0 then zlen inp else Z.min n (zlen inp).

(* The socket, for http.py:432-456. *)
Definition clampz (lo hi n : Z) : Z := Z.max lo (Z.min hi n).

(* The socket, for http.py:432-456. *)
Definition sock_read (v : env) (n : Z) (s : st) : st * (list byte + exc) :=
  let a := e_read v (s_ri s) in
  let s := next_read s in
  match a with
  | RGot k =>
      let k := clampz 0 (available n (s_in s)) k in
      (set_in (drop k (s_in s)) s, inl (take k (s_in s)))
  | RFail k e =>
      let k := clampz 0 (available n (s_in s)) k in
      (set_in (drop k (s_in s)) s, inr e)
  end.

(* http.py:432-443 Request.read (n = None: no argument) *)
Definition req_read (v : env) (h : head) (n : option Z) (s : st)
  : st * (list byte + exc) :=
  match req_length v h s with
  | (s, inr e) => (s, inr e)
  | (s, inl None) => (s, inl [])                            (* 434-435 *)
  | (s, inl (Some len)) =>
      if len =? 0 then (s, inl [])
      else
        let n := match n with
                 | None => len
                 | Some n => if len <? n then len else n    (* 437-438 *)
                 end in
        match sock_read v n s with
        | (s, inl d) => (set_len (Known (Some (len - zlen d))) s, inl d)
        | (s, inr e) => (s, inr e)
        end
  end.

(* http.py:445-456 Request.readinto of a buffer of [size] bytes: the bytes
   stored in the buffer. *)
Definition req_readinto (v : env) (h : head) (size : Z) (s : st)
  : st * (list byte + exc) :=
  match req_length v h s with
  | (s, inr e) => (s, inr e)
  | (s, inl None) => (s, inl [])
  | (s, inl (Some len)) =>
      if len =? 0 then (s, inl [])
      else
        match sock_read v (Z.max 0 (Z.min size len)) s with
        | (s, inl d) => (set_len (Known (Some (len - zlen d))) s, inl d)
        | (s, inr e) => (s, inr e)
        end
  end.

(* The socket, for http.py:541-597. *)
Definition emit (ev : list event) (s : st) : st := set_out (s_out s ++ ev) s.

(* One wfile.write sending [ev]. *)
(* The socket, for http.py:541-597. *)
Definition wfile_write (v : env) (ev : list event) (s : st) : st * (unit + exc) :=
  let a := e_write v (s_wi s) in
  let s := next_write s in
  match a with
  | None => (emit ev s, inl tt)
  | Some e => (emit [Broken] s, inr e)
  end.

(* http.py:541-564 Response.write.  The first call that succeeds replaces the
   method by wfile.write. *)
Definition resp_write (v : env) (d : list byte) (s : st) : st * (unit + exc) :=
  if s_raw s then wfile_write v [Data d] s
  else
    let s := set_started s in                                     (* 548 *)
    let hd := Head (s_status s) (s_rlen s) (s_rclose s) in
    let r :=
      if zlen d <? 4096 then wfile_write v [hd; Data d] s         (* 556-558 *)
      else match wfile_write v [hd] s with                        (* 560-561 *)
           | (s, inl _) => wfile_write v [Data d] s
           | r => r
           end in
    match r with
    | (s, inl _) => (set_raw s, inl tt)                           (* 564 *)
    | r => r
    end.

(* http.py:498-519 Response.send_error with the encoded message [body].
   Fails with AssertionError when already started. *)
Definition send_error (v : env) (code : Z) (body : list byte) (s : st)
  : st * (unit + exc) :=
  if s_started s then (s, inr EOther)
  else resp_write v body (set_rlen (zlen body) (set_status code s)).

(* http.py:521-532 Response.send_json *)
Definition send_json (v : env) (body : list byte) (s : st) : st * (unit + exc) :=
  if s_started s then (s, inr EOther)
  else resp_write v body (set_rlen (zlen body) (set_status 200 s)).

(* Calls of a handler to the request and the response. *)
(* The methods of http.py:283-597 a handler can call. *)
Inductive act :=
| ARead (n : option Z)
| AReadInto (size : Z)
| AContentLength
| AWrite (d : list byte)
| ASendJson (body : list byte)
| ASetStatus (code : Z)
| ASetLength (n : Z)           (* resp.headers["content-length"] = n *)
| AClose.

(* The methods of http.py:283-597 a handler can call. *)
Inductive val := VUnit | VBytes (d : list byte) | VLength (n : option Z).

(* A request handler: any computation making calls and ending by a return or
   an exception.  It may catch exceptions of the calls. *)
(* No code: any handler using these methods. *)
Inductive prog :=
| Ret
| Raise (e : exc)
| Call (a : act) (k : val + exc -> prog).

(* No code: any handler using these methods. *)
Definition res {A} (f : A -> val) (r : st * (A + exc)) : st * (val + exc) :=
  match r with (s, inl x) => (s, inl (f x)) | (s, inr e) => (s, inr e) end.

(* No code: any handler using these methods. *)
Definition run_act (v : env) (h : head) (a : act) (s : st) : st * (val + exc) :=
  match a with
  | ARead n => res VBytes (req_read v h n s)
  | AReadInto n => res VBytes (req_readinto v h n s)
  | AContentLength => res VLength (req_content_length v h s)
  | AWrite d => res (fun _ => VUnit) (resp_write v d s)
  | ASendJson b => res (fun _ => VUnit) (send_json v b s)
  | ASetStatus c => (set_status c s, inl VUnit)
  | ASetLength n => (set_rlen n s, inl VUnit)
  | AClose => (close_connection s, inl VUnit)
  end.

(* No code: any handler using these methods. *)
Fixpoint run (v : env) (h : head) (p : prog) (s : st) : st * (unit + exc) :=
  match p with
  | Ret => (s, inl tt)
  | Raise e => (s, inr e)
  | Call a k => let '(s, r) := run_act v h a s in run v h (k r) s
  end.

(* ---- Router, http.py:781-843 ---- *)

(* http.py:786-787 *)
Definition ALLOWED_METHODS : list str :=
  map list_ascii_of_string
    ["GET"; "PUT"; "PATCH"; "POST"; "DELETE"; "OPTIONS"; "HEAD"]%string.

(* Python semantics, no line of /repo. *)
Fixpoint str_eqb (a b : str) : bool :=
  match a, b with
  | [], [] => true
  | c :: a, d :: b => Ascii.eqb c d && str_eqb a b
  | _, _ => false
  end.

(* str.lower() on ASCII letters (http.py:836); the other characters of the
   allowed methods do not matter. *)
Definition lower1 (c : ascii) : ascii :=
  let n := N_of_ascii c in
  if ((65 <=? n) && (n <=? 90))%N then ascii_of_N (n + 32) else c.
Definition lower (s : str) : str := map lower1 s.

(* A route: match of the pattern against the path giving the groups, and the
   handler object: attribute name to method. *)
(* http.py:789-791. *)
Record route := Route {
  rt_match : str -> option (list str);
  rt_method : str -> option (list str -> prog)
}.

(* http.py:826-843 Router.dispatch: the handler program to run.  An
   AttributeError raised inside of the method is not caught here: only getattr
   is in the try block. *)
Fixpoint dispatch_routes (routes : list route) (h : head) : prog :=
  match routes with
  | [] => Raise (EHttp 404)                                       (* 843 *)
  | r :: routes =>
      match rt_match r (h_path h) with
      | None => dispatch_routes routes h
      | Some groups =>
          match rt_method r (lower (h_method h)) with
          | None => Raise (EHttp 405)                             (* 837-840 *)
          | Some m => m groups                                    (* 841 *)
          end
      end
  end.
Definition dispatch (routes : list route) (h : head) : prog :=
  if existsb (str_eqb (h_method h)) ALLOWED_METHODS
  then dispatch_routes routes h
  else Raise (EHttp 405).                                         (* 827-829 *)

(* Text sent for an error, str(e) and a newline: never empty (http.py:507). *)
Definition error_body (e : exc) : list byte := [x0a].

(* http.py:793-824 Router.__call__ running handler program p. *)
Definition on_error (v : env) (h : head) (e : exc) (s : st) : st * (unit + exc) :=
  let '(s, lost) := if is_socket_error e                          (* 803 *)
                    then (next_lost s, e_lost v (s_li s)) else (s, false) in
  if lost then (close_connection s, inl tt)
  else if s_started s then (close_connection s, inl tt)           (* 806-809 *)
  else
    let code := match e with EHttp c => c | _ => 500 end in       (* 812-815 *)
    match req_length v h s with                                   (* 822 *)
    | (s, inr e) => (s, inr e)
    | (s, inl len) =>
        let s := match len with
                 | Some n => if 0 <? n then close_connection s else s
                 | None => s
                 end in
        send_error v code (error_body e) s                        (* 824 *)
    end.

Definition router (v : env) (h : head) (p : prog) (s : st) : st * (unit + exc) :=
  match run v h p s with
  | (s, inr e) => on_error v h e s
  | (s, inl _) =>
      if s_started s then (s, inl tt)
      else match resp_write v [] s with                           (* 800-801 *)
           | (s, inl _) => (s, inl tt)
           | (s, inr e) => on_error v h e s
           end
  end.

(* Patterns of the routes in services.py: a literal prefix, or a literal
   prefix, one group matching any characters except newline, and a literal
   suffix.  re.match does not require that the pattern reaches the end of the
   path. *)
Inductive pattern :=
| PLit (pre : str)
| PGroup (pre suf : str).

(* The group is greedy: the longest one for which the suffix matches. *)
(* Python's re, for http.py:789-844 and services.py:81-174. *)
Fixpoint group_then (suf s : str) : option str :=
  let here := match skip_prefix suf s with Some _ => Some [] | None => None end in
  match s with
  | c :: r =>
      if Ascii.eqb c newline then here
      else match group_then suf r with
           | Some g => Some (c :: g)
           | None => here
           end
  | [] => here
  end.

(* Python's re, for http.py:789-844 and services.py:81-174. *)
Definition pat_match (p : pattern) (path : str) : option (list str) :=
  match p with
  | PLit pre => match skip_prefix pre path with Some _ => Some [] | None => None end
  | PGroup pre suf =>
      match skip_prefix pre path with
      | None => None
      | Some s => match group_then suf s with Some g => Some [g] | None => None end
      end
  end.

(* services.py:78-85 RemoteService, in order. *)
Inductive service_handler :=
| HExtents | HAlgorithms | HChecksum | HImages | HInfo | HTickets | HProfile.
Definition lits := list_ascii_of_string.
Definition remote_routes : list (pattern * service_handler) :=
  [ (PGroup (lits "/images/") (lits "/extents"), HExtents);
    (PGroup (lits "/images/") (lits "/checksum/algorithms"), HAlgorithms);
    (PGroup (lits "/images/") (lits "/checksum"), HChecksum);
    (PGroup (lits "/images/") [], HImages);
    (PLit (lits "/info/"), HInfo) ].

(* services.py:123-129 LocalService *)
Definition local_routes : list (pattern * service_handler) :=
  [ (PGroup (lits "/images/") (lits "/extents"), HExtents);
    (PGroup (lits "/images/") (lits "/checksum/algorithms"), HAlgorithms);
    (PGroup (lits "/images/") (lits "/checksum"), HChecksum);
    (PGroup (lits "/images/") [], HImages) ].

(* services.py:170-173 ControlService *)
Definition control_routes : list (pattern * service_handler) :=
  [ (PGroup (lits "/tickets/") [], HTickets);
    (PLit (lits "/profile/"), HProfile) ].

(* Methods defined by the handlers: images.py:30-223, extents.py:23,
   checksum.py:34 and 93, info.py:18, tickets.py:23-81, profile.py:28-43. *)
Definition methods (x : service_handler) : list str :=
  map lits match x with
           | HImages => ["put"; "get"; "patch"; "options"]
           | HTickets => ["get"; "put"; "patch"; "delete"]
           | HProfile => ["post"; "get"]
           | HExtents | HAlgorithms | HChecksum | HInfo => ["get"]
           end%string.

(* A service: its routes with the code of the handlers. *)
(* No code: the routes of services.py:81-174. *)
Definition service_routes (l : list (pattern * service_handler))
  (code : service_handler -> str -> list str -> prog) : list route :=
  map (fun x => Route (pat_match (fst x))
                  (fun name => if existsb (str_eqb name) (methods (snd x))
                               then Some (code (snd x) name) else None)) l.

(* ---- how handlers use the body ---- *)

(* Python semantics, for http.py:793-824. *)
Definition rethrow (r : val + exc) (p : prog) : prog :=
  match r with inl _ => p | inr e => Raise e end.

(* Handlers that answer with JSON and do not look at the body: tickets.py:23-35,
   extents.py:23-51, checksum.py:34-81 and 93-95, images.py:223-267, when they
   succeed. *)
Definition json_answer (body : list byte) : prog :=
  Call (ASendJson body) (fun r => rethrow r Ret).

(* tickets.py:81-109 Handler.delete when it succeeds. *)
Definition delete_answer : prog := Call (ASetStatus 204) (fun r => rethrow r Ret).

(* images.py:80-148 Handler.get when it succeeds, sending [data] in one
   write. *)
Definition get_answer (data : list byte) : prog :=
  Call (ASetLength (zlen data)) (fun r => rethrow r
    (Call (AWrite data) (fun r => rethrow r Ret))).

(* tickets.py:37-55 put, tickets.py:57-79 patch, images.py:150-220 patch: read
   the body, then [check] tells if the message is accepted. *)
Definition json_request (check : list byte -> option exc) : prog :=
  Call (ARead None) (fun r =>
    match r with
    | inr e => Raise e
    | inl (VBytes d) => match check d with None => Ret | Some e => Raise e end
    | inl _ => Raise EOther
    end).

(* images.py:30-77 put with ops.py:144-195: reads pieces of the body, at most
   [buflen] bytes each, until size bytes were read.  Simplified: the backend
   does not fail (see OpsModel for it). *)
Fixpoint put_body (fuel : nat) (buflen todo : Z) : prog :=
  match fuel with
  | O => Raise EOther
  | S fuel =>
      if todo =? 0 then Ret
      else Call (AReadInto (Z.min todo buflen)) (fun r =>
        match r with
        | inr e => Raise e
        | inl (VBytes d) =>
            if zlen d =? 0 then Raise (EHttp 400)     (* PartialContent, 76-77 *)
            else put_body fuel buflen (todo - zlen d)
        | inl _ => Raise EOther
        end)
  end.
Definition put_request (fuel : nat) (buflen : Z) : prog :=
  Call AContentLength (fun r =>
    match r with
    | inr e => Raise e
    | inl (VLength (Some n)) => put_body fuel buflen n
    | inl _ => Raise (EHttp 400)                      (* 40-43 *)
    end).

(* ---- Connection.handle_one_request and handle, http.py:208-245 ---- *)

(* Result of reading and parsing a request head. *)
Inductive parsed :=
| PEof                                 (* 227-230 *)
| PError                               (* 220-225, or parse_request fails: an
                                          error with connection: close was sent *)
| PRequest (h : head) (rest : list byte).

(* What is left after one request: the events sent, the input, closed or not,
   and the oracle positions. *)
(* The state after http.py:208-245. *)
Record con := Con {
  k_in : list byte;
  k_closed : bool;
  k_ri : nat; k_wi : nat; k_li : nat
}.

(* New Request and Response objects (http.py:235, 283-297, 470-474). *)
Definition start (k : con) (h : head) (rest : list byte) : st :=
  St rest [] (h_close h) Unknown Unknown false false 200 0 false (k_ri k) (k_wi k) (k_li k).

(* http.py:208-245.  The connection counts as closed also when an exception
   leaves the function: Python's socketserver then closes the socket. *)
Definition handle_one (v : env) (parse : list byte -> parsed) (app : head -> prog)
  (k : con) : con * option (head * list event) :=
  match parse (k_in k) with
  | PEof | PError => (Con (k_in k) true (k_ri k) (k_wi k) (k_li k), None)
  | PRequest h rest =>
      let '(s, r) := router v h (app h) (start k h rest) in
      let closed := match r with
                    | inl _ => s_close s
                    | inr _ => true                               (* 238-245 *)
                    end in
      (Con (s_in s) closed (s_ri s) (s_wi s) (s_li s), Some (h, s_out s))
  end.

(* BaseHTTPRequestHandler.handle: requests served, with what was sent for each;
   at most n of them. *)
(* Python's http.server, calling http.py:208-245. *)
Fixpoint serve (n : nat) (v : env) (parse : list byte -> parsed) (app : head -> prog)
  (k : con) : con * list (head * list event) :=
  match n with
  | O => (k, [])
  | S n =>
      if k_closed k then (k, [])
      else match handle_one v parse app k with
           | (k, None) => (k, [])
           | (k, Some x) => let (k, l) := serve n v parse app k in (k, x :: l)
           end
  end.
