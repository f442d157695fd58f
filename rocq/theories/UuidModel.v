(* Model of the disk id of the command line: client/_options.py:363-384 and
   404, as used in client/_download.py:28-31 and client/_upload.py:53-57.
   Paths are relative to /repo/ovirt_imageio.  A text is a list of code
   points. *)
From Coq Require Import ZArith List Bool String.
From Verif Require Import UrlModel.
Import ListNotations.
Open Scope Z_scope.

(* Python's str.replace(p, "") in uuid.UUID, for client/_options.py:384: the
   occurrences of p from the left that do not overlap are removed.  [drop] is
   the number of characters of an occurrence that are still to be removed. *)
Fixpoint remove_from (p : str) (drop : nat) (s : str) : str :=
  match s with
  | [] => []
  | c :: r =>
      match drop with
      | S k => remove_from p k r
      | O => match skip p s with
             | Some _ => remove_from p (List.length p - 1) r
             | None => c :: remove_from p 0 r
             end
      end
  end.
(* As above, for client/_options.py:384. *)
Definition remove (p s : str) : str := remove_from p 0 s.

(* Python's str.strip("{}") in uuid.UUID, for client/_options.py:384 *)
Definition brace (c : Z) : bool := (c =? 123) || (c =? 125).
(* As above, for client/_options.py:384. *)
Definition strip_braces (s : str) : str := rev (skip_while brace (rev (skip_while brace s))).

(* Python's int(s, 16), for client/_options.py:384: the value of a digit *)
Definition hex_val (c : Z) : option Z :=
  if (48 <=? c) && (c <=? 57) then Some (c - 48)
  else if (97 <=? c) && (c <=? 102) then Some (c - 87)
  else if (65 <=? c) && (c <=? 70) then Some (c - 55)
  else None.

(* int(s, 16), for client/_options.py:384: digits with single underscores
   between them; [after]: the last character was a digit. *)
Fixpoint hex_digits (after : bool) (acc : Z) (s : str) : option Z :=
  match s with
  | [] => if after then Some acc else None
  | c :: r =>
      match hex_val c with
      | Some v => hex_digits true (16 * acc + v) r
      | None => if after && (c =? 95) then hex_digits false acc r else None
      end
  end.

(* int(s, 16), for client/_options.py:384: the white space of ASCII *)
Definition white (c : Z) : bool := ((9 <=? c) && (c <=? 13)) || (c =? 32).

(* int(s, 16), for client/_options.py:384: white space and decimal digits of
   Unicode become those of ASCII, another character outside of ASCII is never
   accepted ('?'). *)
Definition to_ascii (w : unicode) (c : Z) : Z :=
  if c <? 128 then c
  else if u_space w c then 32
  else match u_digit w c with Some v => 48 + v | None => 63 end.

(* int(s, 16), for client/_options.py:384: the optional prefix 0x or 0X and
   one underscore after it *)
Definition skip_0x (s : str) : str :=
  match s with
  | 48 :: x :: r =>
      if (x =? 120) || (x =? 88) then match r with 95 :: r' => r' | _ => r end else s
  | _ => s
  end.

(* int(s, 16), for client/_options.py:384 *)
Definition int16 (w : unicode) (s : str) : option Z :=
  let s := map (to_ascii w) s in
  let s := rev (skip_while white (rev (skip_while white s))) in
  match s with
  | 45 :: r => option_map Z.opp (hex_digits false 0 (skip_0x r))
  | 43 :: r => hex_digits false 0 (skip_0x r)
  | _ => hex_digits false 0 (skip_0x s)
  end.

(* uuid.UUID(hex), for client/_options.py:384: the 128 bit number; None:
   ValueError. *)
Definition uuid_of (w : unicode) (s : str) : option Z :=
  let s := remove (lit "uuid:") (remove (lit "urn:") s) in
  let s := remove [45] (strip_braces s) in
  if (List.length s =? 32)%nat
  then match int16 w s with
       | Some n => if (0 <=? n) && (n <? 2 ^ 128) then Some n else None
       | None => None
       end
  else None.

(* Python's '%032x' % n in str(UUID), for client/_options.py:384; the last
   [k] digits, which are all of them as n is less than 2 ** 128. *)
Definition hex_char (v : Z) : Z := if v <? 10 then 48 + v else 87 + v.
(* As above, for client/_options.py:384. *)
Fixpoint hex_text (k : nat) (n : Z) : str :=
  match k with
  | O => []
  | S k => hex_text k (n / 16) ++ [hex_char (n mod 16)]
  end.

(* str(uuid.UUID), for client/_options.py:384 *)
Definition uuid_str (n : Z) : str :=
  let h := hex_text 32 n in
  firstn 8 h ++ [45] ++ firstn 4 (skipn 8 h) ++ [45] ++ firstn 4 (skipn 12 h) ++ [45]
  ++ firstn 4 (skipn 16 h) ++ [45] ++ skipn 20 h.

(* client/_options.py:383-384 *)
Definition validate_uuid (w : unicode) (id : str) : option str := option_map uuid_str (uuid_of w id).

(* client/_options.py:368-377, 404: the value given to the command, or
   ValueError, for which argparse prints the usage and exits.  The message is
   not modelled. *)
Definition UUID (w : unicode) (value : str) : option str := validate_uuid w value.
