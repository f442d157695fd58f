(* Model of the HTTP backend of the Go program (/repo/go/imageio/http/http.go),
   with the extents of /repo/go/imageio/extent.go.

   The server is any state machine answering messages, as for the HTTP backend
   in Python.  The request for extents has no query; the server takes it for
   context=zero (handlers/extents.py:34-35), so it is modelled by that message.
   Not modelled: Connect, Close and the transport (http.go:24-42, 104-107), http.Client following
   redirects, and the text of errors. *)
From Coq Require Import ZArith List Bool Ascii String.
From Verif Require Import BytesLib HeaderModel HttpModel OpsModel ImagesModel ExtentsModel HttpBackendModel GoModel.
Import ListNotations.
Open Scope Z_scope.

(* http.go:17-22: the attributes of a Backend, and the world around it.  A
   pointer to an extent can be nil. *)
Record gb (W : Type) := GB {
  g_size : Z;
  g_extents : list (option extent);
  g_reqs : nat;            (* requests made so far *)
  g_world : W              (* state of the server *)
}.
Arguments GB {W}. Arguments g_size {W}. Arguments g_extents {W}. Arguments g_reqs {W}. Arguments g_world {W}.

(* What a call gives: a value, an error, or a panic. *)
(* Go semantics, for http.go:45-166. *)
Inductive gres (A : Type) := GOk (x : A) | GErr | GPanic.
Arguments GOk {A}. Arguments GErr {A}. Arguments GPanic {A}.

(* ---- encoding/json ---- *)

(* Decoding a value into a uint64 with value [old], for extent.go:8-11: null
   changes nothing; other values than numbers in range are a type error,
   reported at the end, and change nothing either. *)
Definition decode_uint (old : Z) (j : option json) : Z * bool :=
  match j with
  | None | Some JNull => (old, true)
  | Some (JInt n) => if (0 <=? n) && (n <? 2 ^ 64) then (n, true) else (old, false)
  | Some _ => (old, false)
  end.

(* The same for a bool, extent.go:15. *)
Definition decode_bool (old : bool) (j : option json) : bool * bool :=
  match j with
  | None | Some JNull => (old, true)
  | Some (JBool b) => (b, true)
  | Some _ => (old, false)
  end.

(* Decoding a value into a pointer to an Extent, extent.go:7-16: what the
   pointer points to is reused.  Simplified: members with other names of the
   same letters, and members given twice, are ignored. *)
Definition decode_extent (old : option extent) (j : json) : option extent * bool :=
  let e := match old with Some e => e | None => Extent 0 0 false end in
  match j with
  | JNull => (None, true)
  | JObj d =>
      let (start, ok1) := decode_uint (e_start e) (lookup d (lits "start")) in
      let (length, ok2) := decode_uint (e_length e) (lookup d (lits "length")) in
      let (zero, ok3) := decode_bool (e_zero e) (lookup d (lits "zero")) in
      (Some (Extent start length zero), ok1 && ok2 && ok3)
  | _ => (Some e, false)
  end.

(* Decoding the elements of a list into a slice, which is reused.  Simplified:
   the elements of the slice after its length are nil. *)
(* encoding/json, for http.go:156. *)
Fixpoint decode_slice (old : list (option extent)) (l : list json) : list (option extent) * bool :=
  match l with
  | [] => ([], true)
  | j :: l =>
      let (x, ok) := decode_extent (match old with x :: _ => x | [] => None end) j in
      let (r, oks) := decode_slice (List.tl old) l in
      (x :: r, ok && oks)
  end.

(* http.go:156 json.Unmarshal(body, &b.extents); None is text that is not JSON *)
Definition unmarshal (old : list (option extent)) (j : option json) : list (option extent) * bool :=
  match j with
  | None => (old, false)
  | Some JNull => ([], true)
  | Some (JList l) => decode_slice old l
  | Some _ => (old, false)
  end.

Section Backend.
Context {W : Type}.
(* The server: None if no response arrives. *)
Variable serve : W -> message -> option response * W.
(* The connection breaks after this many bytes of the body of the response to
   the i-th request; None if it does not. *)
Variable breaks : nat -> option Z.
Notation st := (gb W).

(* http.go:120 client.Do(req), and 141 client.Get(url): the response,
   and whether its whole body can be read *)
Definition client_do (m : message) (s : st) : option (response * option Z) * st :=
  let (r, w) := serve (g_world s) m in
  (match r with Some p => Some (p, breaks (g_reqs s)) | None => None end,
   GB (g_size s) (g_extents s) (S (g_reqs s)) w).

(* http.go:140-162 getExtents: true if it succeeds *)
Definition getExtents (s : st) : bool * st :=
  match client_do (MExtents (lits "zero")) s with
  | (None, s) => (false, s)                                          (* 142-144 *)
  | (Some (p, cut), s) =>
      if negb (p_status p =? 200) then (false, s)                    (* 147-149 *)
      else match cut with
           | Some _ => (false, s)                                    (* 151-154 *)
           | None =>
               let (l, ok) := unmarshal (g_extents s) (p_json p) in  (* 156-159 *)
               (ok, GB (g_size s) l (g_reqs s) (g_world s))
           end
  end.

(* http.go:45-58 Size *)
Definition gsize (s : st) : gres Z * st :=
  if g_size s =? 0 then
    match getExtents s with
    | (false, s) => (GErr, s)                                        (* 51-53 *)
    | (true, s) =>
        match rev (g_extents s) with                                 (* 54 *)
        | [] | None :: _ => (GPanic, s)
        | Some last :: _ =>
            let size := u64 (e_start last + e_length last) in        (* 55 *)
            (GOk size, GB size (g_extents s) (g_reqs s) (g_world s))
        end
    end
  else (GOk (g_size s), s).

(* http.go:62-69 Extents, and the values of the wrapper, extent.go:32-53 *)
Definition gextents (s : st) : gres (list (option extent)) * st :=
  match g_extents s with
  | [] =>
      match getExtents s with
      | (false, s) => (GErr, s)
      | (true, s) => (GOk (g_extents s), s)
      end
  | l => (GOk l, s)
  end.

(* http.go:109-138 get: the response *)
Definition gget (offset length : Z) (s : st) : option (response * option Z) * st :=
  match client_do (MGet (Some (range_header offset length))) s with         (* 115-120 *)
  | (None, s) => (None, s)
  | (Some (p, cut), s) =>
      if negb (p_status p =? 206) then (None, s)                     (* 125-129 *)
      else if negb (match p_length p with Some n => n | None => -1 end =? length) then (None, s)  (* 131-135 *)
      else (Some (p, cut), s)
  end.

(* The bytes of a body that arrive: no more than Content-Length. *)
(* net/http, for http.go:97. *)
Definition arriving (length : Z) (p : response) (cut : option Z) : list byte :=
  let b := take length (p_body p) in
  match cut with None => b | Some k => take k b end.

(* http.go:72-102 ReadAt: n, the error, and the buffer.  None is a panic.  All
   errors but EOF have number 0. *)
Definition gread (buf : list byte) (off : Z) (s : st) : option (Z * rerr * list byte) * st :=
  match gsize s with
  | (GErr, s) => (Some (0, EErr 0, buf), s)                          (* 77-79 *)
  | (GPanic, s) => (None, s)
  | (GOk size, s) =>
      if u64 off >? size then (Some (0, EEOF, buf), s)               (* 81-83 *)
      else
        let '(length, eof) :=
          if u64 (u64 off + zlen buf) >? size then (u64 (size - u64 off), EEOF)  (* 86-89 *)
          else (zlen buf, ENil) in
        match gget off length s with
        | (None, s) => (Some (0, EErr 0, buf), s)                    (* 91-94 *)
        | (Some (p, cut), s) =>
            let data := arriving length p cut in                     (* 97 io.ReadFull *)
            let buf := data ++ drop (zlen data) buf in
            if zlen data <? length then (Some (0, EErr 0, buf), s)
            else (Some (length, eof, buf), s)
        end
  end.

End Backend.
