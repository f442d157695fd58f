(* Model of checksum requests: ovirt_imageio/_internal/handlers/checksum.py
   Checksum.get, and of the local checksum of the client, client/_api.py checksum.
   The checksum operation is that of BlkhashModel.  Authorization and opening the
   backend are answers of the environment, as in ImagesModel.  The query is
   decoded already; the texts in it are latin-1.  The checksum is the list of
   bytes, sent as hexadecimal text.  Logging and stats are left out. *)
From Coq Require Import ZArith List Bool Ascii String.
From Verif Require Import BytesLib HeaderModel HttpModel OpsModel ImagesModel BlkhashModel.
Import ListNotations.
Open Scope Z_scope.

(* blkhash.py:13 BLOCK_SIZE, checksum.py:22-23 *)
Definition BLOCK_SIZE : Z := 4194304.
Definition MIN_BLOCK_SIZE : Z := BLOCK_SIZE / 4.
Definition MAX_BLOCK_SIZE : Z := BLOCK_SIZE * 4.
(* blkhash.py:14 ALGORITHM *)
Definition ALGORITHM : string := "blake2b".

(* What the environment does during the request. *)
Record cenv := CEnv {
  ce_lim : option Z;                      (* digit limit, see HeaderModel *)
  ce_algorithms : list str;               (* checksum.py:19 ALGORITHMS *)
  ce_func : str -> option (list byte -> list byte);
                                          (* the hash function; None when the algorithm has
                                             no constructor of this name in hashlib, or
                                             digest() needs an argument (blkhash.py:39-45) *)
  ce_auth : str -> string -> option Z;    (* auth.authorize(id, op): the size of
                                             the ticket, None if it raises *)
  ce_open : opened;                       (* backends.get; block size and buffer are not used *)
  ce_size : bool;                         (* backend.size() does not raise *)
  ce_exts : option (list ext);            (* backend.extents("zero"), None if it raises *)
  ce_refused : bool;                      (* ticket canceled in _add_operation *)
  ce_canceled : bool;                     (* ticket canceled in _remove_operation *)
  ce_ans : list cans;                     (* see BlkhashModel *)
  ce_fuel : nat
}.

(* The reply: an exception leaving the handler, the JSON object, or null. *)
(* The outcomes of handlers/checksum.py:34-81. *)
Inductive creply :=
| CError (e : exc)
| CChecksum (algorithm : str) (block_size : Z) (digest : list byte)
| CNull.
(* What the environment gives to handlers/checksum.py:34-81. *)
Record canswer := CAnswer {
  x_reply : creply;
  x_close : bool;               (* resp.close_connection() called *)
  x_reads : list (Z * Z)        (* position and length of reads of the image *)
}.
(* raise before anything is read (Python semantics; no line) *)
Definition crefuse (close : bool) (e : exc) : option canswer := Some (CAnswer (CError e) close []).

(* checksum.py:45-61: the block size asked for *)
Definition block_size_arg (lim : option Z) (query : list (str * str)) : Z + exc :=
  match match lookup query (lits "block_size") with
        | None => inl BLOCK_SIZE
        | Some s => py_int lim s
        end with
  | inr _ => inr (EHttp 400)                                            (* 47-50 *)
  | inl n =>
      if negb ((MIN_BLOCK_SIZE <=? n) && (n <=? MAX_BLOCK_SIZE)) then   (* 52-56 *)
        inr (EHttp 400)
      else if negb (n mod 4096 =? 0) then inr (EHttp 400)               (* 58-60 *)
      else inl n
  end.

(* Ticket.run (auth.py:171-182) of the operation, checksum.py:77-84.  The hash
   object is made before the extents are asked for (checksum.py:121-126).
   Simplified: memory for the buffer, which has just been mapped and is zero
   (util.aligned_buffer), is available. *)
Definition run_op (v : cenv) (img : list byte) (alg : str) (bs : Z) : option canswer :=
  let remove (reads : list (Z * Z)) (r : creply) :=                     (* auth.py:182, 203-214 *)
    if ce_canceled v then Some (CAnswer (CError (EHttp 403)) true reads)
    else Some (CAnswer r false reads) in
  match ce_func v alg with
  | None => remove [] (CError EOther)
  | Some func =>
      match ce_exts v with
      | None => remove [] (CError EOther)
      | Some exts =>
          match run_checksum func (ce_fuel v) img exts true (zeros bs) (ce_ans v) with
          | None => None
          | Some (s, inl d) => remove (c_reads s) (CChecksum alg bs d)  (* 86 *)
          | Some (s, inr Canceled) => remove (c_reads s) CNull          (* auth.py:178-179 *)
          | Some (s, inr _) => remove (c_reads s) (CError EOther)
          end
      end
  end.

(* checksum.py:34-86 Checksum.get; None when the fuel is too small *)
Definition checksum_get (v : cenv) (img : list byte) (id : str) (query : list (str * str))
  : option canswer :=
  match id with
  | [] => crefuse false (EHttp 400)                                     (* 35-36 *)
  | _ =>
      match enum_query query (lits "algorithm") (ce_algorithms v) (lits ALGORITHM) with (* 38-42 *)
      | inr e => crefuse false e
      | inl alg =>
          match block_size_arg (ce_lim v) query with
          | inr e => crefuse false e
          | inl bs =>
              match ce_auth v id "read" with                            (* 62-66 *)
              | None => crefuse false (EHttp 403)
              | Some _ =>
                  match ce_open v with
                  | NoBackend true => crefuse false (EHttp 403)
                  | NoBackend false => crefuse false EOther
                  | Backend _ _ =>
                      if negb (ce_size v) then crefuse false EOther     (* 75, 107 *)
                      else if ce_refused v then crefuse true (EHttp 403)
                      else run_op v img alg bs
                  end
              end
          end
      end
  end.

(* client/_api.py:233-266 checksum, from the connected backend on
   (opening is not modelled): the image [img] with the extents reported by
   the backend.  None: an exception, or the fuel is too small. *)
Definition local_checksum (func : list byte -> list byte) (fuel : nat) (img : list byte)
  (exts : list ext) (detect : bool) (bs : Z) (ans : list cans) : option (list byte) :=
  match run_checksum func fuel img exts detect (zeros bs) ans with     (* 263-266 *)
  | Some (_, inl d) => Some d
  | _ => None
  end.
