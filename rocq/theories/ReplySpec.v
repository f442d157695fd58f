(* What a client sees in the bytes of a response (RFC 7230, section 3). *)
From Coq Require Import ZArith List Bool String.
From Verif Require Import UrlModel ReplyModel.
Import ListNotations.
Open Scope Z_scope.

(* The lines up to the empty one, and what follows.  A lone CR or LF is an
   error. *)
Fixpoint read_lines (l cur : list Z) : option (list (list Z) * list Z) :=
  match l with
  | [] => None
  | 13 :: 10 :: r =>
      match cur with
      | [] => Some ([], r)
      | _ => match read_lines r [] with Some (ls, rest) => Some (cur :: ls, rest) | None => None end
      end
  | c :: r => if (c =? 13) || (c =? 10) then None else read_lines r (cur ++ [c])
  end.

(* name ":" one space, value *)
Fixpoint field (l : list Z) : option (list Z * list Z) :=
  match l with
  | 58 :: 32 :: r => Some ([], r)
  | 58 :: _ => None
  | c :: r => match field r with Some (k, x) => Some (c :: k, x) | None => None end
  | [] => None
  end.
Fixpoint fields (l : list (list Z)) : option (list (list Z * list Z)) :=
  match l with
  | [] => Some []
  | x :: r => match field x, fields r with Some a, Some b => Some (a :: b) | _, _ => None end
  end.

(* The digits up to a space. *)
Fixpoint number (acc : Z) (l : list Z) : option Z :=
  match l with
  | 32 :: _ => Some acc
  | c :: r => if (48 <=? c) && (c <=? 57) then number (10 * acc + (c - 48)) r else None
  | [] => None
  end.

(* Status, header fields and the bytes that follow. *)
Definition parse_reply (l : list Z) : option (Z * list (list Z * list Z) * list Z) :=
  match read_lines l [] with
  | Some (status :: rest, body) =>
      match skip (lit "HTTP/1.1 ") status with
      | Some s => match number 0 s, fields rest with Some n, Some f => Some (n, f, body) | _, _ => None end
      | None => None
      end
  | _ => None
  end.

(* A value or a name that fits in a line, and can be encoded. *)
Definition clean_char (c : Z) : Prop := c <> 13 /\ c <> 10 /\ 0 <= c < 1114112 /\ ~ (55296 <= c <= 57343).
Definition clean (s : str) : Prop := Forall clean_char s.
Definition name_char (c : Z) : Prop := 32 < c < 127 /\ c <> 58.
Definition name (s : str) : Prop := s <> [] /\ Forall name_char s.
Definition line_bytes (l : list Z) : Prop := Forall (fun c => c <> 13 /\ c <> 10) l.
Definition clean_texts (t : texts) : Prop :=
  (forall n, line_bytes (x_phrase t n)) /\ line_bytes (x_server t) /\ line_bytes (x_date t).

(* The values set by these actions; the last one counts.  Names are the same
   when their lower case is. *)
Definition sets (a : act) (k : str) (x : hvalue) : Prop :=
  match a with
  | SetHeader k' x' => lower k' = k /\ x' = x
  | CloseConnection => k = lit "connection" /\ x = VText (lit "close")
  | _ => False
  end.
Inductive last_set : list act -> str -> hvalue -> Prop :=
| last_here l a k x : sets a k x -> last_set (l ++ [a]) k x
| last_before l a k x : last_set l k x -> (forall y, ~ sets a k y) -> last_set (l ++ [a]) k x.
(* The header of a response after these actions. *)
Definition header_is (l : list act) (k : str) (x : hvalue) : Prop :=
  last_set (SetHeader (lit "content-length") (VInt 0) :: l) k x.
Inductive last_status : list act -> Z -> Prop :=
| status_default : last_status [] 200
| status_here l n : last_status (l ++ [SetStatus n]) n
| status_before l a n : last_status l n -> (forall m, a <> SetStatus m) -> last_status (l ++ [a]) n.

(* Actions before the response starts. *)
Definition quiet (l : list act) : Prop := forall a d, In a l -> a <> Write d.
Definition clean_acts (l : list act) : Prop :=
  forall k x, In (SetHeader k x) l -> name k /\ (forall s, x = VText s -> clean s) /\ (forall n, x = VInt n -> 0 <= n).
Definition good_status (l : list act) : Prop := forall n, In (SetStatus n) l -> 0 <= n.

(* What the bytes of a value say: a text in UTF-8, or the digits of a number. *)
Definition says (x : hvalue) (b : list Z) : Prop :=
  match x with VText s => utf8 s = Some b | VInt n => number 0 (b ++ [32]) = Some n /\ b <> [] end.

(* The client gets this reply: the status, the server's own fields and exactly
   the header [h], each name once, and the body. *)
Definition replies (t : texts) (bytes : list Z) (code : Z) (h : str -> hvalue -> Prop) (body : list Z) : Prop :=
  exists hs bs, parse_reply bytes =
      Some (code, (lit "server", x_server t) :: (lit "date", x_date t) :: bs, body) /\
    NoDup (map fst hs) /\ (forall k x, In (k, x) hs <-> h k x) /\
    Forall2 (fun (p : str * hvalue) q => fst q = fst p /\ says (snd p) (snd q)) hs bs.

(* The request has this header, and it is not empty. *)
Definition asked (q : str -> option str) (name : str) : Prop := exists c r, q name = Some (c :: r).

(* CORS (fetch.spec.whatwg.org): a reply to a preflight request permits a method
   with any headers; any page can read a reply. *)
Fixpoint split_comma (s cur : str) : list str :=
  match s with
  | [] => [cur]
  | c :: r => if c =? 44 then cur :: split_comma r [] else split_comma r (cur ++ [c])
  end.
Definition readable (h : str -> hvalue -> Prop) : Prop := h (lit "access-control-allow-origin") (VText (lit "*")).
Definition permits (h : str -> hvalue -> Prop) (method : str) : Prop :=
  readable h /\ h (lit "access-control-allow-headers") (VText (lit "*")) /\
  exists m, h (lit "access-control-allow-methods") (VText m) /\ (m = lit "*" \/ In method (split_comma m [])).
Definition cors_name (k : str) : Prop :=
  In k (map lit ["access-control-allow-origin"; "access-control-allow-headers"; "access-control-allow-methods";
                 "access-control-max-age"]%string).
Definition no_cors (l : list act) : Prop := forall a k x, In a l -> sets a k x -> ~ cors_name k.

(* The bytes written by these actions. *)
Fixpoint written (l : list act) : list Z :=
  match l with [] => [] | Write d :: r => d ++ written r | _ :: r => written r end.

(* A handler with clean headers, and an error that can be sent. *)
Definition clean_error (e : exc) : Prop :=
  match e with
  | EHttp code message cr => 0 <= code /\ utf8 message <> None /\ (forall c, cr = Some c -> clean c)
  | EOther => True
  end.
Definition clean_handler (h : handler) : Prop :=
  clean_acts (h_acts h) /\ good_status (h_acts h) /\ (forall e, h_raises h = Some e -> clean_error e).

(* UTF-8 (RFC 3629, section 3): the bits of the code point. *)
Inductive utf8_of : Z -> list Z -> Prop :=
| u1 c : 0 <= c < 128 -> utf8_of c [c]
| u2 a b : 2 <= a < 32 -> 0 <= b < 64 -> utf8_of (64 * a + b) [192 + a; 128 + b]
| u3 a b d : 0 <= a < 16 -> 0 <= b < 64 -> 0 <= d < 64 -> 2048 <= 4096 * a + 64 * b + d ->
    ~ (55296 <= 4096 * a + 64 * b + d <= 57343) ->
    utf8_of (4096 * a + 64 * b + d) [224 + a; 128 + b; 128 + d]
| u4 a b d e : 0 <= a < 5 -> 0 <= b < 64 -> 0 <= d < 64 -> 0 <= e < 64 ->
    65536 <= 262144 * a + 4096 * b + 64 * d + e < 1114112 ->
    utf8_of (262144 * a + 4096 * b + 64 * d + e) [240 + a; 128 + b; 128 + d; 128 + e].
Inductive utf8_text : str -> list Z -> Prop :=
| ut_nil : utf8_text [] []
| ut_cons c b s l : utf8_of c b -> utf8_text s l -> utf8_text (c :: s) (b ++ l).

(* Names of headers that differ only in the case of ASCII letters. *)
Definition same_letter (c d : Z) : Prop :=
  c = d \/ exists i, 0 <= i < 26 /\ ((c = 65 + i /\ d = 97 + i) \/ (c = 97 + i /\ d = 65 + i)).
Definition same_name (a b : str) : Prop := Forall2 same_letter a b.

(* The methods of the resources of the remote service. *)
Definition methods (x : resource) : list string :=
  match x with Images => ["get"; "put"; "patch"; "options"] | _ => ["get"] end%string.
