(* NBD URLs and IPv6 quoting.
   Paths are relative to /repo/ovirt_imageio/_internal. *)
From Coq Require Import ZArith List Bool Ascii String.
Import ListNotations.
Open Scope Z_scope.

(* A Python string: code points. *)
(* Python semantics, no line of /repo. *)
Definition str := list Z.
(* Python semantics, no line of /repo. *)
Definition lit (s : string) : str := map (fun c => Z.of_N (N_of_ascii c)) (list_ascii_of_string s).
(* Python semantics, no line of /repo. *)
Definition has (c : Z) (s : str) : bool := existsb (Z.eqb c) s.
(* Python semantics, no line of /repo. *)
Definition NEWLINE := 10.
(* Python semantics, no line of /repo. *)
Definition COLON := 58.
(* Python semantics, no line of /repo. *)
Definition SLASH := 47.

(* What Python knows about characters that are not ASCII: their value as decimal
   digit (re: \d, int()) and white space (int()). *)
(* Python semantics, no line of /repo. *)
Record unicode := Unicode { u_digit : Z -> option Z; u_space : Z -> bool }.

(* ipv6.py:9-15 unquote_address *)
Definition unquote (host : str) : str :=
  if match host with c :: _ => c =? 91 | [] => false end && (last host 0 =? 93) && has COLON host
  then removelast (tl host) else host.

(* ipv6.py:18-24 quote_address *)
Definition quote (host : str) : str :=
  if has COLON host then 91 :: host ++ [93] else host.

(* sockutil.py:14-30 UnixAddress, 33-62 TCPAddress. *)
Inductive address :=
| Unix (path : str)
| Tcp (host : str) (port : Z).
(* sockutil.py:43-51 TCPAddress.__new__, for arguments of the right type *)
Definition tcp_address (host : str) (port : Z) : address := Tcp (unquote host) port.

(* str() of an int. Numbers of more than sys.get_int_max_str_digits() digits,
   for which Python raises, are not modelled. *)
(* Python semantics, for nbd.py:294-311. *)
Fixpoint dec_fuel (fuel : nat) (n : Z) : str :=
  match fuel with
  | O => []
  | S fuel => if n <? 10 then [48 + n] else dec_fuel fuel (n / 10) ++ [48 + n mod 10]
  end.
(* Python semantics, for nbd.py:294-311. *)
Definition dec (n : Z) : str :=
  if n <? 0 then 45 :: dec_fuel (S (Z.to_nat (Z.log2 (- n)))) (- n)
  else dec_fuel (S (Z.to_nat (Z.log2 n))) n.

(* nbd.py:289-298 UnixAddress.url, 300-310 TCPAddress.url; export None and ""
   do the same *)
Definition url (a : address) (export : str) : str :=
  (match a with
   | Unix path => lit "nbd:unix:" ++ path
   | Tcp host port => lit "nbd:" ++ quote host ++ [COLON] ++ dec port
   end)
  ++ match export with [] => [] | _ => lit ":exportname=" ++ export end.

(* The nice notation, nbd.py:328-331; no code in /repo builds it, the
   documentation shows it. *)
Definition nice_url (host : str) (port : Z) (export : str) : str :=
  lit "nbd://" ++ quote host ++ [COLON] ++ dec port ++ [SLASH] ++ export.

(* urllib.parse.urlparse() of Python 3.11, as used for the URL of a ticket
   (auth.py:39) and of qemu-nbd (qemu_nbd.py:88). The parts used by nbd.py.
   netloc_ok: whether the checks of the netloc pass (brackets, address in
   brackets, NFKC normalization). *)
Record parsed := Parsed { p_scheme : str; p_netloc : str; p_path : str }.
Fixpoint skip_while (f : Z -> bool) (s : str) : str :=
  match s with c :: r => if f c then skip_while f r else s | [] => [] end.
Fixpoint span (f : Z -> bool) (s : str) : str * str :=
  match s with
  | c :: r => if f c then let (a, b) := span f r in (c :: a, b) else ([], s)
  | [] => ([], [])
  end.
Definition is_alpha (c : Z) : bool := ((65 <=? c) && (c <=? 90)) || ((97 <=? c) && (c <=? 122)).
Definition ascii_digit (c : Z) : bool := (48 <=? c) && (c <=? 57).
Definition scheme_char (c : Z) : bool :=
  is_alpha c || ascii_digit c || (c =? 43) || (c =? 45) || (c =? 46).
Definition lower (c : Z) : Z := if (65 <=? c) && (c <=? 90) then c + 32 else c.
(* A scheme and the rest, or everything is the rest. *)
Definition split_scheme (u : str) : str * str :=
  match span (fun c => negb (c =? COLON)) u with
  | (c :: s, _ :: r) =>
      if is_alpha c && forallb scheme_char s then (map lower (c :: s), r) else ([], u)
  | _ => ([], u)
  end.
Definition not_delim (c : Z) : bool := negb ((c =? SLASH) || (c =? 63) || (c =? 35)).
Definition in_path (c : Z) : bool := negb ((c =? 63) || (c =? 35)).
Definition urlparse (netloc_ok : str -> bool) (u : str) : option parsed :=
  let u := skip_while (fun c => (0 <=? c) && (c <=? 32)) u in
  let u := filter (fun c => negb ((c =? 9) || (c =? 13) || (c =? 10))) u in
  let (scheme, u) := split_scheme u in
  match u with
  | 47 :: 47 :: r =>
      let (netloc, r) := span not_delim r in
      if netloc_ok netloc then Some (Parsed scheme netloc (fst (span in_path r))) else None
  | _ => if netloc_ok [] then Some (Parsed scheme [] (fst (span in_path u))) else None
  end.

Section Parse.
Variable w : unicode.

(* Python semantics, for nbd.py:27-28 and 321-361. *)
Definition digit (c : Z) : option Z :=
  if ascii_digit c then Some (c - 48) else if c <? 128 then None else u_digit w c.
(* Python semantics, for nbd.py:27-28 and 321-361. *)
Definition is_digit (c : Z) : bool := match digit c with Some _ => true | None => false end.
(* Python semantics, for nbd.py:27-28 and 321-361. *)
Definition digit_val (c : Z) : Z := match digit c with Some n => n | None => 0 end.
(* Python semantics, for nbd.py:27-28 and 321-361. *)
Definition value (s : str) : Z := fold_left (fun a c => 10 * a + digit_val c) s 0.

(* int(s): white space around, a sign, digits with single underscores between
   them. None: ValueError. The limit of the number of digits is not modelled. *)
(* Python semantics, for nbd.py:27-28 and 321-361. *)
Definition is_space (c : Z) : bool :=
  ((9 <=? c) && (c <=? 13)) || (c =? 32) || ((128 <=? c) && u_space w c).
(* Python semantics, for nbd.py:27-28 and 321-361. *)
Fixpoint int_digits (s : str) : option str :=
  match s with
  | [c] => if is_digit c then Some [c] else None
  | c :: ((95 :: r) as r0) =>
      if is_digit c then match int_digits r with Some l => Some (c :: l) | None => None end else None
  | c :: r => if is_digit c then match int_digits r with Some l => Some (c :: l) | None => None end else None
  | [] => None
  end.
(* Python semantics, for nbd.py:27-28 and 321-361. *)
Definition py_int (s : str) : option Z :=
  let s := rev (skip_while is_space (rev (skip_while is_space s))) in
  match s with
  | 45 :: r => match int_digits r with Some l => Some (- value l) | None => None end
  | 43 :: r => match int_digits r with Some l => Some (value l) | None => None end
  | _ => match int_digits s with Some l => Some (value l) | None => None end
  end.

(* re: a literal *)
(* Python's re, for nbd.py:22-28. *)
Fixpoint skip (p s : str) : option str :=
  match p, s with
  | [], _ => Some s
  | c :: p, d :: s => if c =? d then skip p s else None
  | _ :: _, [] => None
  end.
(* nbd.py:23, 28: the optional group with the export name: at most one more
   colon (greedy), a dot matches all but newline *)
Definition name_group (s : str) : option str :=
  match skip (lit "::exportname=") s with
  | Some r => Some (fst (span (fun c => negb (c =? NEWLINE)) r))
  | None =>
      match skip (lit ":exportname=") s with
      | Some r => Some (fst (span (fun c => negb (c =? NEWLINE)) r))
      | None => None
      end
  end.
(* nbd.py:22-23 UNIX_URL_PATH.match(): path, name. The path takes all characters
   up to a colon; the group is optional and nothing follows, so nothing is given
   back. *)
Definition unix_match (s : str) : option (str * option str) :=
  match skip (lit "unix:/") s with
  | None => None
  | Some r =>
      match span (fun c => negb (c =? COLON)) r with
      | ([], _) => None
      | (p, r) => Some (SLASH :: p, name_group r)
      end
  end.
(* nbd.py:27-28 TCP_URL_PATH.match(): host, port, name. The host is greedy: the
   longest host followed by a colon and a digit. *)
Fixpoint tcp_split (nonempty : bool) (s : str) : option (str * str) :=
  match s with
  | [] => None
  | c :: r =>
      match (if c =? NEWLINE then None else tcp_split true r) with
      | Some (h, t) => Some (c :: h, t)
      | None =>
          if nonempty && (c =? COLON) && match r with d :: _ => is_digit d | [] => false end
          then Some ([], r) else None
      end
  end.
Definition tcp_match (s : str) : option (str * str * option str) :=
  match tcp_split false s with
  | None => None
  | Some (h, r) =>
      let (p, r) := span is_digit r in Some (h, p, name_group r)
  end.

(* str.rsplit(":", 1) of a string with a colon *)
(* Python semantics, for nbd.py:321-361. *)
Fixpoint rsplit (s : str) : option (str * str) :=
  match s with
  | [] => None
  | c :: r =>
      match rsplit r with
      | Some (a, b) => Some (c :: a, b)
      | None => if c =? COLON then Some ([], r) else None
      end
  end.

(* nbd.py:321-359 _parse_url; None: Error or ValueError *)
Definition parse_url (u : parsed) : option (address * option str) :=
  if list_eq_dec Z.eq_dec (p_scheme u) (lit "nbd") then
  match rsplit (p_netloc u) with
  | Some (host, port) =>
      let export := match p_path u with 47 :: r => r | p => p end in
      match py_int port with
      | Some n => Some (tcp_address host n, Some export)
      | None => None
      end
  | None =>
      match p_netloc u with
      | _ :: _ => None
      | [] =>
          match unix_match (p_path u) with
          | Some (path, name) => Some (Unix path, name)
          | None =>
              match tcp_match (p_path u) with
              | Some (host, port, name) => Some (tcp_address host (value port), name)
              | None => None
              end
          end
      end
  end
  else None.

(* nbd.py:313-318 open with 372-374 Client.__init__: the address and the export
   name used. *)
Definition opens (netloc_ok : str -> bool) (u : str) : option (address * str) :=
  match urlparse netloc_ok u with
  | None => None
  | Some p =>
      match parse_url p with
      | None => None
      | Some (a, name) => Some (a, match name with Some n => n | None => [] end)
      end
  end.
End Parse.
