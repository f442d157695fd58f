(* Model of the requests for image data: ovirt_imageio/_internal/handlers/
   images.py Handler.put, get, patch and options, with validate.py and
   Ticket.run (auth.py:171-222).

   The operations are those of OpsModel.  Authorization and the opening of the
   backend are answers of the environment (authorization itself is modelled in
   AuthModel, the server around the handler in HttpModel).  Decoding of the
   query string and of JSON text is done by Python's library and not modelled:
   requests carry the decoded values.  Logging, stats clocks, CORS headers
   (cors.py) and the content-type and content-disposition headers are left
   out. *)
From Coq Require Import ZArith List Bool Ascii String.
From Verif Require Import BytesLib HeaderModel HttpModel OpsModel.
Import ListNotations.
Open Scope Z_scope.

(* Values json.loads can return; floats are opaque, keys of an object are
   distinct. *)
(* Python semantics, for handlers/images.py:150-170. *)
Inductive json :=
| JNull
| JBool (b : bool)
| JInt (n : Z)
| JFloat
| JStr (s : str)
| JList (l : list json)
| JObj (l : list (str * json)).

(* d[name] of a dict: None is KeyError. *)
(* Python semantics, for handlers/images.py:150-170. *)
Fixpoint lookup {A} (d : list (str * A)) (name : str) : option A :=
  match d with
  | [] => None
  | (k, v) :: d => if str_eqb k name then Some v else lookup d name
  end.

(* msg[name] for any decoded message: TypeError (EOther) when it is not an
   object.  Lists and strings raise TypeError as name is not an integer. *)
(* Python semantics, for handlers/images.py:150-170. *)
Definition get_item (msg : json) (name : str) : option json + exc :=
  match msg with
  | JObj d => inl (lookup d name)
  | _ => inr EOther
  end.

(* Python semantics, for handlers/images.py:150-170. *)
Definition hbind {A B} (m : A + exc) (f : A -> B + exc) : B + exc :=
  match m with inl x => f x | inr e => inr e end.

(* validate.py:7-22 enum for a JSON message, without default. *)
Definition enum_json (msg : json) (name : str) (values : list str) : str + exc :=
  hbind (get_item msg name) (fun v =>
    match v with
    | None => inr (EHttp 400)
    | Some (JStr s) => if existsb (str_eqb s) values then inl s else inr (EHttp 400)
    | Some _ => inr (EHttp 400)
    end).

(* validate.py:7-22 enum for the query, with default. *)
Definition enum_query (q : list (str * str)) (name : str) (values : list str)
  (default : str) : str + exc :=
  match lookup q name with
  | None => inl default
  | Some s => if existsb (str_eqb s) values then inl s else inr (EHttp 400)
  end.

(* validate.py:25-46 integer with minval, without maxval.  bool is a subclass
   of int in Python. *)
Definition integer (msg : json) (name : str) (minval : Z) (default : option Z) : Z + exc :=
  hbind (get_item msg name) (fun v =>
    match v with
    | None => match default with Some d => inl d | None => inr (EHttp 400) end
    | Some (JInt n) => if n <? minval then inr (EHttp 400) else inl n
    | Some (JBool b) =>
        let n := if b then 1 else 0 in
        if n <? minval then inr (EHttp 400) else inl n
    | Some _ => inr (EHttp 400)
    end).

(* validate.py:49-62 boolean *)
Definition boolean (msg : json) (name : str) (default : bool) : bool + exc :=
  hbind (get_item msg name) (fun v =>
    match v with
    | None => inl default
    | Some (JBool b) => inl b
    | Some _ => inr (EHttp 400)
    end).

(* validate.py:65-73 allowed_range; [tsize] is ticket.size. *)
Definition allowed_range (offset size tsize : Z) : unit + exc :=
  if offset + size >? tsize then inr (EHttp 416) else inl tt.

(* validate.py:76-87 available_range; [bsize] is backend.size(). *)
Definition available_range (offset size tsize bsize : Z) : unit + exc :=
  let requested := offset + size in
  let available := Z.min tsize bsize in
  if requested >? available then inr (EHttp 416) else inl tt.

(* json.loads(req.read()) fails: with ValueError or an invalid Content-Length,
   answered with 400 (images.py:158-160, http.py:388-394); with an error of the
   connection; with another error (as RecursionError). *)
Inductive jfail := FBad | FIO | FOther.
Definition jfail_exc (f : jfail) : exc :=
  match f with FBad => EHttp 400 | FIO => EOSError | FOther => EOther end.

(* A request for /images/id. *)
Record ireq := IReq {
  q_id : str;
  q_query : list (str * str);            (* Request.query, http.py:346-367 *)
  q_range : option str;                  (* Range header *)
  q_crange : option str;                 (* Content-Range header *)
  q_clen : option str;                   (* Content-Length header *)
  q_data : list byte;                    (* bytes of the body that arrive *)
  q_json : json + jfail                  (* json.loads(req.read()) *)
}.

(* backends.get(req, ticket, config), backends/__init__.py:73-126. *)
Inductive opened :=
| NoBackend (auth : bool)      (* raises; auth tells AuthorizationError *)
| Backend (bs : Z) (buf : list byte)  (* block size of the backend, buffer *)
.

(* What the environment does during the request. *)
(* No code: the environment of handlers/images.py:30-267. *)
Record ienv := IEnv {
  i_lim : option Z;                       (* digit limit, see HeaderModel *)
  i_auth : str -> string -> option Z;     (* auth.authorize(id, op): the size of
                                             the ticket, None if it raises *)
  i_open : opened;
  i_refused : bool;                       (* ticket canceled in _add_operation *)
  i_canceled : bool;                      (* ticket canceled in _remove_operation *)
  i_read : nat -> rans;                   (* see OpsModel *)
  i_write : woracle;
  i_fuel : nat
}.

(* The operation that was run. *)
(* ops.py:78-253. *)
Inductive operation :=
| OpRead (offset size : Z)
| OpWrite (offset size : Z) (flush : bool)
| OpZero (offset size : Z) (flush : bool)
| OpFlush.

(* Everything a request does. *)
(* The outcomes of handlers/images.py:30-267. *)
Record answer := Answer {
  a_op : option operation;
  a_status : Z;                     (* resp.status_code *)
  a_length : option Z;              (* content-length set by the handler *)
  a_crange : option (Z * Z * Z);    (* content-range: first, last, complete *)
  a_sent : list byte;               (* bytes of the image sent *)
  a_img : list byte;                (* image after the request *)
  a_log : list effect;              (* effects on the backend *)
  a_close : bool;                   (* resp.close_connection() called *)
  a_err : option exc                (* exception leaving the handler *)
}.

(* Nothing done to the image. *)
(* The outcomes of handlers/images.py:30-267. *)
Definition refuse (img : list byte) (close : bool) (e : exc) : answer :=
  Answer None 200 None None [] img [] close (Some e).

(* query.get("close") == "y", images.py:35, 84 *)
Definition wants_close (q : ireq) : bool :=
  match lookup (q_query q) (lits "close") with
  | Some v => str_eqb v (lits "y")
  | None => false
  end.

(* The way an operation ends in Ticket.run (auth.py:171-222) and the handlers:
   images.py:70-77, 141-148, 194-201.  _remove_operation runs in all cases and
   its AuthorizationError replaces other errors; ops.Canceled is dropped
   (auth.py:178-179). *)
Definition op_result (canceled : bool) (e : outcome) : option exc * bool :=
  if canceled then (Some (EHttp 403), true)
  else match e with
       | Success | Canceled => (None, false)
       | PartialContent => (Some (EHttp 400), false)
       | Failed => (Some EOther, false)
       end.

(* authorize and backends.get with the except clause around them, images.py:
   51-56, 103-108, 175-180, 204-209: ticket size, block size and buffer. *)
Definition enter (v : ienv) (q : ireq) (op : string)
  : (Z * Z * list byte) + (exc * bool) :=
  match i_auth v (q_id q) op with
  | None => inr (EHttp 403, true)
  | Some tsize =>
      match i_open v with
      | NoBackend true => inr (EHttp 403, true)
      | NoBackend false => inr (EOther, false)
      | Backend bs buf => inl (tsize, bs, buf)
      end
  end.

(* No code: the exceptions of HeaderModel are those of http.py. *)
Definition hexc_exc (e : hexc) : exc :=
  match e with HttpError c => EHttp c | ValueError => EOther end.

(* images.py:30-77 Handler.put; None when the fuel is too small. *)
Definition put (v : ienv) (img : list byte) (q : ireq) : option answer :=
  match q_id q with
  | [] => Some (refuse img false (EHttp 400))                        (* 31-32 *)
  | _ =>
      let close := wants_close q in
      match content_length (i_lim v) (q_clen q) with                 (* 39 *)
      | inr e => Some (refuse img close (hexc_exc e))
      | inl None => Some (refuse img close (EHttp 400))              (* 40-42 *)
      | inl (Some size) =>
          match match q_crange q with                                (* 44 *)
                | None => inl 0
                | Some h => match content_range_parse (i_lim v) h with
                            | inl r => inl (cr_first r)
                            | inr e => inr (hexc_exc e)
                            end
                end with
          | inr e => Some (refuse img close e)
          | inl offset =>
              match enum_query (q_query q) (lits "flush")            (* 47-48 *)
                      [lits "y"; lits "n"] (lits "y") with
              | inr e => Some (refuse img close e)
              | inl f =>
                  let flush := str_eqb f (lits "y") in
                  match enter v q "write" with                       (* 50-55 *)
                  | inr (e, c) => Some (refuse img (close || c) e)
                  | inl (tsize, bs, buf) =>
                      match allowed_range offset size tsize with     (* 57 *)
                      | inr e => Some (refuse img close e)
                      | inl _ =>
                          if i_refused v then Some (refuse img true (EHttp 403))
                          else
                          match write_run (i_fuel v) img (q_data q) bs (zlen buf) offset
                                  (Some size) flush (i_write v) with (* 63-71 *)
                          | None => None
                          | Some (s, e) =>
                              let (err, c) := op_result (i_canceled v) e in
                              Some (Answer (Some (OpWrite offset size flush)) 200 None None []
                                      (w_img s) (w_log s) (close || c) err)
                          end
                      end
                  end
              end
          end
      end
  end.

(* images.py:80-148 Handler.get *)
Definition get (v : ienv) (img : list byte) (q : ireq) : option answer :=
  match q_id q with
  | [] => Some (refuse img false (EHttp 400))
  | _ =>
      let close := wants_close q in
      match match q_range q with                                     (* 88-101 *)
            | None => inl (0, None)
            | Some h =>
                match range_parse (i_lim v) h with
                | inr e => inr (hexc_exc e)
                | inl r =>
                    if r_first r <? 0 then inr (EHttp 416)           (* 92-97 *)
                    else inl (r_first r,
                              match r_last r with
                              | Some last => Some (last - r_first r + 1)
                              | None => None
                              end)
                end
            end with
      | inr e => Some (refuse img close e)
      | inl (offset, size) =>
          match enter v q "read" with                                (* 103-108 *)
          | inr (e, c) => Some (refuse img (close || c) e)
          | inl (tsize, bs, buf) =>
              match match size with                                  (* 110-114 *)
                    | Some size =>
                        hbind (allowed_range offset size tsize) (fun _ =>
                        hbind (available_range offset size tsize (zlen img)) (fun _ =>
                        inl size))
                    | None => inl (Z.min tsize (zlen img) - offset)
                    end with
              | inr e => Some (refuse img close e)
              | inl size =>
                  let ranged := match q_range q with Some _ => true | None => false end in
                  let status := if ranged then 206 else 200 in       (* 128-131 *)
                  let crange := if ranged then Some (offset, offset + size - 1, tsize)
                                else None in
                  if i_refused v then
                    Some (Answer None status (Some size) crange [] img [] true
                                 (Some (EHttp 403)))
                  else
                  match read_run (i_fuel v) img buf bs offset size (i_read v) with
                  | None => None
                  | Some (s, e) =>
                      let (err, c) := op_result (i_canceled v) e in
                      Some (Answer (Some (OpRead offset size)) status (Some size) crange
                              (r_sent s) img [] (close || c) err)
                  end
              end
          end
      end
  end.

(* images.py:170-201 Handler._zero *)
Definition patch_zero (v : ienv) (img : list byte) (q : ireq) (msg : json) : option answer :=
  match hbind (integer msg (lits "size") 0 None) (fun size =>
        hbind (integer msg (lits "offset") 0 (Some 0)) (fun offset =>
        hbind (boolean msg (lits "flush") false) (fun flush =>
        inl (size, offset, flush)))) with
  | inr e => Some (refuse img false e)
  | inl (size, offset, flush) =>
      match enter v q "write" with
      | inr (e, c) => Some (refuse img c e)
      | inl (tsize, _, _) =>
          match allowed_range offset size tsize with
          | inr e => Some (refuse img false e)
          | inl _ =>
              if i_refused v then Some (refuse img true (EHttp 403))
              else
              match zero_run (i_fuel v) img offset size flush (i_write v) with
              | None => None
              | Some (s, e) =>
                  let (err, c) := op_result (i_canceled v) e in
                  Some (Answer (Some (OpZero offset size flush)) 200 None None []
                          (w_img s) (w_log s) c err)
              end
          end
      end
  end.

(* images.py:203-220 Handler._flush *)
Definition patch_flush (v : ienv) (img : list byte) (q : ireq) : option answer :=
  match enter v q "write" with
  | inr (e, c) => Some (refuse img c e)
  | inl _ =>
      if i_refused v then Some (refuse img true (EHttp 403))
      else
        let '(s, e) := flush_run img (i_write v) in
        let (err, c) := op_result (i_canceled v) e in
        Some (Answer (Some OpFlush) 200 None None [] (w_img s) (w_log s) c err)
  end.

(* images.py:150-168 Handler.patch *)
Definition patch (v : ienv) (img : list byte) (q : ireq) : option answer :=
  match q_id q with
  | [] => Some (refuse img false (EHttp 400))
  | _ =>
      match q_json q with
      | inr e => Some (refuse img false (jfail_exc e))
      | inl msg =>
          match enum_json msg (lits "op") [lits "zero"; lits "flush"] with
          | inr e => Some (refuse img false e)
          | inl op =>
              if str_eqb op (lits "zero") then patch_zero v img q msg
              else patch_flush v img q
          end
      end
  end.

(* ---- OPTIONS, images.py:222-267 ---- *)

Record options_answer := Options {
  o_allow : list string;
  o_features : option (list string);   (* missing for a ticket with no known op *)
  o_socket : bool;                     (* unix_socket reported *)
  o_readers : option (Z * Z);          (* max_readers, max_writers *)
  o_touched : bool                     (* ticket.touch() called *)
}.

(* handlers/images.py:16. *)
Definition BASE_FEATURES : list string := ["checksum"; "extents"]%string.
(* handlers/images.py:17. *)
Definition ALL_FEATURES : list string := BASE_FEATURES ++ ["flush"; "zero"]%string.

(* [may op] is ticket.may(op) (auth.py:244-249); [readers] are the limits of
   the backend; [local] is config.local.enable. *)
Definition options (v : ienv) (may : string -> bool) (readers : Z * Z) (local : bool)
  (q : ireq) : options_answer + (exc * bool) :=
  match q_id q with
  | [] => inr (EHttp 400, false)
  | _ =>
      if str_eqb (q_id q) (lits "*") then
        inl (Options ["OPTIONS"; "GET"; "PUT"; "PATCH"]%string (Some ALL_FEATURES) local
               None false)
      else
        match enter v q "read" with
        | inr e => inr e
        | inl _ =>
            inl (Options
              (["OPTIONS"]%string ++ (if may "read"%string then ["GET"]%string else [])
                 ++ (if may "write"%string then ["PUT"; "PATCH"]%string else []))
              (if may "write"%string then Some ALL_FEATURES
               else if may "read"%string then Some BASE_FEATURES else None)
              local (Some readers) true)
        end
  end.
