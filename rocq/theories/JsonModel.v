(* The texts of JSON: json.dumps and json.loads of Python's library, as called
   by the server, the admin client, the http backend, qemu_nbd.py, qemu_img.py
   and the client tools.  The library is not in /repo; the definitions cite the
   calls.  Paths are relative to /repo/ovirt_imageio/_internal, client/ and
   admin/ are in /repo/ovirt_imageio.

   A str is a list of code points (surrogates are code points of a str).
   Simplified: the limits of the recursion and of the length of an integer are
   left out, NaN and Infinity are left out. *)
From Coq Require Import ZArith List Bool String Ascii.
Import ListNotations.
Open Scope Z_scope.

(* str of Python, no line of /repo *)
Definition text := list Z.

(* The values json.loads makes and json.dumps takes, http.py:529 and
   backends/http.py:464, 494, 521.  A float is the number as written: sign,
   integral part, digits of the fraction, exponent.  Simplified: that the repr
   of a float is read as the same float is not modelled. *)
Inductive value :=
| VNull
| VBool (b : bool)
| VInt (n : Z)
| VReal (neg : bool) (ip : Z) (frac : list Z) (exp : option Z)
| VStr (s : text)
| VList (l : list value)
| VObj (d : list (text * value)).

(* ASCII text as code points, for the literals of the code below. *)
(* Python semantics, no line of /repo *)
Definition chars_of (s : string) : text :=
  map (fun a => Z.of_nat (nat_of_ascii a)) (list_ascii_of_string s).

(* ---- json.dumps ---- *)

(* str(n) of n >= 0, least digits last; for json.dumps in http.py:529 *)
Fixpoint dec_loop (fuel : nat) (n : Z) : text :=
  match fuel with
  | O => []
  | S fuel => if n <? 10 then [48 + n] else dec_loop fuel (n / 10) ++ [48 + n mod 10]
  end.
Definition dec (n : Z) : text := dec_loop (S (Z.to_nat (Z.log2 n))) n.

(* int.__repr__, for json.dumps in http.py:529 *)
Definition int_text (n : Z) : text := if n <? 0 then 45 :: dec (- n) else dec n.

(* The exponent of float.__repr__: a sign and two digits or more; for
   json.dumps in client/_ui.py:71 *)
Definition two_digits (n : Z) : text := if n <? 10 then 48 :: dec n else dec n.
Definition exp_text (e : option Z) : text :=
  match e with
  | None => []
  | Some n => 101 :: if n <? 0 then 45 :: two_digits (- n) else 43 :: two_digits n
  end.

(* float.__repr__, for json.dumps in client/_ui.py:71 *)
Definition real_text (neg : bool) (ip : Z) (frac : list Z) (e : option Z) : text :=
  (if neg then [45] else []) ++ dec ip ++
  (match frac with [] => [] | _ => 46 :: map (fun d => 48 + d) frac end) ++ exp_text e.

(* "\\u{0:04x}".format(n), json.encoder; for json.dumps in http.py:529 *)
Definition hex_digit (n : Z) : Z := if n <? 10 then 48 + n else 87 + n.
Definition u_escape (n : Z) : text :=
  [92; 117; hex_digit (n / 4096); hex_digit (n / 256 mod 16); hex_digit (n / 16 mod 16); hex_digit (n mod 16)].

(* py_encode_basestring_ascii of json.encoder, for json.dumps in http.py:529 *)
Definition escape (c : Z) : text :=
  if c =? 34 then [92; 34]
  else if c =? 92 then [92; 92]
  else if (32 <=? c) && (c <=? 126) then [c]
  else if c =? 10 then [92; 110]
  else if c =? 13 then [92; 114]
  else if c =? 9 then [92; 116]
  else if c =? 12 then [92; 102]
  else if c =? 8 then [92; 98]
  else if c <? 65536 then u_escape c
  else u_escape (55296 + (c - 65536) / 1024) ++ u_escape (56320 + (c - 65536) mod 1024).
Definition quote (s : text) : text := 34 :: flat_map escape s ++ [34].

(* ", ".join, for json.dumps in http.py:529 *)
Fixpoint join (l : list text) : text :=
  match l with
  | [] => []
  | [x] => x
  | x :: r => x ++ 44 :: 32 :: join r
  end.

(* json.dumps(v), http.py:529 *)
Fixpoint dumps (v : value) : text :=
  match v with
  | VNull => chars_of "null"
  | VBool true => chars_of "true"
  | VBool false => chars_of "false"
  | VInt n => int_text n
  | VReal neg ip frac e => real_text neg ip frac e
  | VStr s => quote s
  | VList l => 91 :: join (map dumps l) ++ [93]
  | VObj d => 123 :: join (map (fun p => match p with (k, x) => quote k ++ 58 :: 32 :: dumps x end) d) ++ [125]
  end.

(* ---- json.loads ---- *)

(* json.decoder.WHITESPACE, for json.loads in backends/http.py:494, 521 *)
Definition is_ws (c : Z) : bool := (c =? 32) || (c =? 9) || (c =? 10) || (c =? 13).
Fixpoint skip (t : text) : text :=
  match t with
  | c :: r => if is_ws c then skip r else t
  | [] => []
  end.

(* The digits t starts with, for json.loads in backends/http.py:521 *)
Fixpoint digits (t : text) : list Z * text :=
  match t with
  | c :: r =>
      if (48 <=? c) && (c <=? 57) then let (d, x) := digits r in (c - 48 :: d, x) else ([], t)
  | [] => ([], [])
  end.
(* int() of digits, for json.loads in backends/http.py:521 *)
Definition number_of (ds : list Z) : Z := fold_left (fun n d => 10 * n + d) ds 0.

(* The parts (\.\d+)? and ([eE][-+]?\d+)? of json.scanner.NUMBER_RE, for
   json.loads in backends/http.py:521 *)
Definition fraction (t : text) : list Z * text :=
  match t with
  | c :: x => if c =? 46 then match digits x with ([], _) => ([], t) | p => p end else ([], t)
  | [] => ([], t)
  end.
Definition sign (t : text) : bool * text :=
  match t with
  | c :: x => if c =? 45 then (true, x) else if c =? 43 then (false, x) else (false, t)
  | [] => (false, t)
  end.
Definition exponent (t : text) : option Z * text :=
  match t with
  | c :: x =>
      if (c =? 101) || (c =? 69) then
        let (neg, y) := sign x in
        match digits y with
        | ([], _) => (None, t)
        | (ds, z) => (Some (if neg then - number_of ds else number_of ds), z)
        end
      else (None, t)
  | [] => (None, t)
  end.
Definition number_rest (neg : bool) (n : Z) (t : text) : value * text :=
  let (fr, r1) := fraction t in
  let (ex, r2) := exponent r1 in
  match fr, ex with
  | [], None => (VInt (if neg then - n else n), r2)
  | _, _ => (VReal neg n fr ex, r2)
  end.

(* json.scanner.NUMBER_RE: the sign, 0 or digits without a leading zero; for
   json.loads in backends/http.py:521 *)
Definition number (t : text) : option (value * text) :=
  let (neg, t) := match t with c :: x => if c =? 45 then (true, x) else (false, t) | [] => (false, t) end in
  match t with
  | [] => None
  | c :: x =>
      if c =? 48 then Some (number_rest neg 0 x)
      else match digits t with
           | ([], _) => None
           | (ds, r) => Some (number_rest neg (number_of ds) r)
           end
  end.

(* _decode_uXXXX of json.decoder, for json.loads in backends/http.py:521 *)
Definition hex_value (c : Z) : option Z :=
  if (48 <=? c) && (c <=? 57) then Some (c - 48)
  else if (97 <=? c) && (c <=? 102) then Some (c - 87)
  else if (65 <=? c) && (c <=? 70) then Some (c - 55)
  else None.
Definition hex4 (t : text) : option (Z * text) :=
  match t with
  | a :: b :: c :: d :: r =>
      match hex_value a, hex_value b, hex_value c, hex_value d with
      | Some a, Some b, Some c, Some d => Some (4096 * a + 256 * b + 16 * c + d, r)
      | _, _, _, _ => None
      end
  | _ => None
  end.
(* A second \uXXXX after a high surrogate *)
Definition low_escape (t : text) : option (Z * text) :=
  match t with
  | a :: b :: r =>
      if (a =? 92) && (b =? 117) then
        match hex4 r with
        | Some (v, x) => if (56320 <=? v) && (v <=? 57343) then Some (v, x) else None
        | None => None
        end
      else None
  | _ => None
  end.
(* The character of a short escape *)
Definition short_escape (e : Z) : option Z :=
  if e =? 34 then Some 34 else if e =? 92 then Some 92 else if e =? 47 then Some 47
  else if e =? 98 then Some 8 else if e =? 102 then Some 12 else if e =? 110 then Some 10
  else if e =? 114 then Some 13 else if e =? 116 then Some 9 else None.

(* scanstring of json.decoder, strict, after the first quote; for json.loads in
   backends/http.py:494, 521 *)
Fixpoint scanstring (fuel : nat) (t : text) : option (text * text) :=
  match fuel with
  | O => None
  | S fuel =>
      let cons c r := match scanstring fuel r with Some (s, x) => Some (c :: s, x) | None => None end in
      match t with
      | [] => None
      | c :: r =>
          if c =? 34 then Some ([], r)
          else if c =? 92 then
            match r with
            | [] => None
            | e :: r =>
                if e =? 117 then
                  match hex4 r with
                  | None => None
                  | Some (u, r) =>
                      if (55296 <=? u) && (u <=? 56319) then
                        match low_escape r with
                        | Some (v, r) => cons (65536 + (u - 55296) * 1024 + (v - 56320)) r
                        | None => cons u r
                        end
                      else cons u r
                  end
                else match short_escape e with Some c => cons c r | None => None end
            end
          else if c <? 32 then None
          else cons c r
      end
  end.

(* dict(pairs): the last of equal keys wins; for json.loads in
   handlers/tickets.py:44, 64 *)
Fixpoint text_eqb (a b : text) : bool :=
  match a, b with
  | [], [] => true
  | x :: a, y :: b => (x =? y) && text_eqb a b
  | _, _ => false
  end.
Fixpoint assign (d : list (text * value)) (k : text) (x : value) : list (text * value) :=
  match d with
  | [] => [(k, x)]
  | (k', x') :: r => if text_eqb k k' then (k', x) :: r else (k', x') :: assign r k x
  end.
Definition dict_of (l : list (text * value)) : list (text * value) :=
  fold_left (fun d p => assign d (fst p) (snd p)) l [].

(* A literal name at the start of t; for json.loads in backends/http.py:521 *)
Fixpoint word (w : text) (t : text) : option text :=
  match w, t with
  | [], _ => Some t
  | a :: w, b :: t => if a =? b then word w t else None
  | _ :: _, [] => None
  end.

(* scan_once, JSONArray and JSONObject of json.scanner and json.decoder; for
   json.loads in backends/http.py:494, 521.  [items] and [members] are the
   loops, after the white space before an item. *)
Fixpoint scan (fuel : nat) (t : text) {struct fuel} : option (value * text) :=
  match fuel with
  | O => None
  | S fuel =>
      match t with
      | [] => None
      | c :: r =>
          if c =? 34 then
            match scanstring (S (List.length r)) r with Some (s, x) => Some (VStr s, x) | None => None end
          else if c =? 123 then
            match skip r with
            | [] => None
            | c' :: x =>
                if c' =? 125 then Some (VObj [], x)
                else match members fuel (c' :: x) with
                     | Some (d, y) => Some (VObj (dict_of d), y)
                     | None => None
                     end
            end
          else if c =? 91 then
            match skip r with
            | [] => None
            | c' :: x =>
                if c' =? 93 then Some (VList [], x)
                else match items fuel (c' :: x) with
                     | Some (l, y) => Some (VList l, y)
                     | None => None
                     end
            end
          else match word (chars_of "null") t with
          | Some x => Some (VNull, x)
          | None => match word (chars_of "true") t with
          | Some x => Some (VBool true, x)
          | None => match word (chars_of "false") t with
          | Some x => Some (VBool false, x)
          | None => number t
          end end end
      end
  end
with items (fuel : nat) (t : text) {struct fuel} : option (list value * text) :=
  match fuel with
  | O => None
  | S fuel =>
      match scan fuel t with
      | None => None
      | Some (v, r) =>
          match skip r with
          | [] => None
          | c :: x =>
              if c =? 93 then Some ([v], x)
              else if c =? 44 then
                match items fuel (skip x) with
                | Some (l, y) => Some (v :: l, y)
                | None => None
                end
              else None
          end
      end
  end
with members (fuel : nat) (t : text) {struct fuel} : option (list (text * value) * text) :=
  match fuel with
  | O => None
  | S fuel =>
      match t with
      | [] => None
      | q :: r =>
          if q =? 34 then
            match scanstring (S (List.length r)) r with
            | None => None
            | Some (k, r) =>
                match skip r with
                | [] => None
                | c :: r =>
                    if c =? 58 then
                      match scan fuel (skip r) with
                      | None => None
                      | Some (v, r) =>
                          match skip r with
                          | [] => None
                          | c :: x =>
                              if c =? 125 then Some ([(k, v)], x)
                              else if c =? 44 then
                                match members fuel (skip x) with
                                | Some (d, y) => Some ((k, v) :: d, y)
                                | None => None
                                end
                              else None
                          end
                      end
                    else None
                end
            end
          else None
      end
  end.

(* json.loads(s) of a str: JSONDecoder.decode; None is ValueError.
   backends/http.py:494, 521, qemu_img.py:57, 63 *)
Definition loads (t : text) : option value :=
  match scan (S (List.length t)) (skip t) with
  | Some (v, r) => match skip r with [] => Some v | _ => None end
  | None => None
  end.

(* json.detect_encoding: json.loads of bytes decodes them as UTF-8; handlers/
   images.py:157, tickets.py:44, 64, admin/_api.py:88.  Simplified: true when
   the encoding is utf-8, for bytes that do not start with a byte order mark. *)
Definition detects_utf8 (b : list Z) : bool :=
  match b with
  | a :: b' :: _ :: _ :: _ => negb (a =? 0) && negb (b' =? 0)
  | [a; b'] => negb (a =? 0) && negb (b' =? 0)
  | _ => true
  end.
Definition has_bom (b : list Z) : bool :=
  match b with
  | 255 :: 254 :: _ => true
  | 254 :: 255 :: _ => true
  | 0 :: 0 :: 254 :: 255 :: _ => true
  | 239 :: 187 :: 191 :: _ => true
  | _ => false
  end.

(* ---- the texts the code makes ---- *)

(* http.py:529 send_json: the body; ASCII characters are their bytes *)
Definition json_body (v : value) : text := dumps v ++ [10].

(* client/_api.py:468-482 _json_uri *)
Definition member_nodes (filename : text) (offset size : Z) : value :=
  VObj [(chars_of "file", VObj [
    (chars_of "driver", VStr (chars_of "raw"));
    (chars_of "offset", VInt offset);
    (chars_of "size", VInt size);
    (chars_of "file", VObj [
      (chars_of "driver", VStr (chars_of "file"));
      (chars_of "filename", VStr filename)])])].
Definition json_uri (filename : text) (offset size : Z) : text :=
  chars_of "json:" ++ dumps (member_nodes filename offset size).

(* qemu_nbd.py:151-171: the dict of the image *)
Definition image_nodes (block_device : bool) (filename fmt : text) (offset size : option Z)
    (backing_chain : bool) : value :=
  let file := VObj [(chars_of "driver", VStr (chars_of (if block_device then "host_device" else "file")));
                    (chars_of "filename", VStr filename)] in
  let qcow2 := text_eqb fmt (chars_of "qcow2") in
  match offset, size with
  | None, None =>
      VObj ([(chars_of "driver", VStr fmt); (chars_of "file", file)] ++
            (if qcow2 && negb backing_chain then [(chars_of "backing", VNull)] else []))
  | _, _ =>
      let image :=
        VObj ([(chars_of "driver", VStr (chars_of "raw")); (chars_of "file", file)] ++
              (match offset with Some n => [(chars_of "offset", VInt n)] | None => [] end) ++
              (match size with Some n => [(chars_of "size", VInt n)] | None => [] end)) in
      if qcow2 then VObj [(chars_of "driver", VStr (chars_of "qcow2")); (chars_of "file", image)]
      else image
  end.
(* qemu_nbd.py:173 *)
Definition image_argument (block_device : bool) (filename fmt : text) (offset size : option Z)
    (backing_chain : bool) : text :=
  chars_of "json:" ++ dumps (image_nodes block_device filename fmt offset size backing_chain).

(* client/_ui.py:61-72 JsonFormat.draw and 30-32 _write_line: what is written
   to the output; elapsed is a float (or an int) *)
Record update := Update { u_elapsed : value; u_transferred : Z; u_size : option Z; u_phase : option text }.
Definition progress (u : update) : value :=
  VObj ([(chars_of "transferred", VInt (u_transferred u));
         (chars_of "elapsed", u_elapsed u);
         (chars_of "description", VStr (match u_phase u with Some p => p | None => [] end))] ++
        (match u_size u with Some n => [(chars_of "size", VInt n)] | None => [] end)).
Definition draw_json (u : update) : text := dumps (progress u) ++ [10].
