(* HTTP header values: Range, Content-Range and Content-Length
   (/repo/ovirt_imageio/_internal/http.py).

   A header value is a list of 8 bit characters: Python decodes header lines
   as latin-1 (http/client.py parse_headers), so every character of a header
   is one of these.  Among them, the regular expression \d matches exactly
   0..9 (the superscripts of latin-1 are not decimal digits). *)
From Coq Require Import ZArith List Bool Ascii String.
Import ListNotations.
Open Scope Z_scope.

(* Python semantics, no line of /repo. *)
Definition str := list ascii.

(* How a parser fails: http.Error with a status code (http.py:52-60), or the
   ValueError of int(). *)
Inductive hexc :=
| HttpError (code : Z)
| ValueError.

(* http.py:28, http.py:35 *)
Definition BAD_REQUEST : Z := 400.
Definition REQUESTED_RANGE_NOT_SATISFIABLE : Z := 416.

(* re: \d on a latin-1 character (http.py:635, http.py:715). *)
Definition is_digit (c : ascii) : bool :=
  let n := N_of_ascii c in (48 <=? n)%N && (n <=? 57)%N.

(* Python semantics, no line of /repo. *)
Definition digit_val (c : ascii) : Z := Z.of_N (N_of_ascii c) - 48.

(* int(s) for s made of digits only, as used at http.py:690, 692, 697, 756,
   761, 771.  Since Python 3.11 (and in later versions of 3.6-3.10) int()
   raises ValueError if there are more than sys.get_int_max_str_digits()
   digits (4300 by default): [lim] is this limit, None for a Python without
   it. *)
Definition int_of_digits (lim : option Z) (s : str) : Z + hexc :=
  if match lim with Some m => m <? Z.of_nat (List.length s) | None => false end
  then inr ValueError
  else inl (fold_left (fun acc c => 10 * acc + digit_val c) s 0).

(* re: a literal prefix of the pattern; None if it does not match. *)
(* Python's re, for http.py:635 and 715. *)
Fixpoint skip_prefix (p s : str) : option str :=
  match p, s with
  | [], _ => Some s
  | c :: p, d :: s => if Ascii.eqb c d then skip_prefix p s else None
  | _ :: _, [] => None
  end.

(* re: a group of zero or more \d (http.py:635).  Greedy; giving characters back never helps here because what
   follows in both patterns ('-', '/', end) is never a digit. *)
Fixpoint span_digits (s : str) : str * str :=
  match s with
  | c :: r =>
      if is_digit c then let (a, b) := span_digits r in (c :: a, b)
      else ([], s)
  | [] => ([], [])
  end.

(* re: $ without MULTILINE matches at the end, and before a newline that is
   the last character. *)
(* Python's re, for http.py:635 and 715. *)
Definition newline : ascii := ascii_of_N 10.
(* Python's re, for http.py:635 and 715. *)
Definition at_end (s : str) : bool :=
  match s with
  | [] => true
  | [c] => Ascii.eqb c newline
  | _ => false
  end.

(* Python's re, for http.py:635 and 715. *)
Definition chr (s : str) (c : ascii) : option str := skip_prefix [c] s.

(* http.py:635 and 674, 681: match the pattern: bytes= DIGITS - DIGITS end,
   where DIGITS is a possibly empty group of digits; the two groups. *)
Definition range_rx (h : str) : option (str * str) :=
  match skip_prefix (list_ascii_of_string "bytes=") h with
  | None => None
  | Some s =>
      let (a, s) := span_digits s in
      match chr s "-" with
      | None => None
      | Some s =>
          let (b, s) := span_digits s in
          if at_end s then Some (a, b) else None
      end
  end.

(* http.py:637-639 Range.__init__ *)
Record range := Range { r_first : Z; r_last : option Z }.

(* Python semantics, no line of /repo. *)
Definition bind {A B} (m : A + hexc) (f : A -> B + hexc) : B + hexc :=
  match m with inl a => f a | inr e => inr e end.
Notation "'do' x <- m ; f" := (bind m (fun x => f))
  (at level 60, x binder, right associativity).

(* http.py:642-705 Range.parse *)
Definition range_parse (lim : option Z) (header : str) : range + hexc :=
  match range_rx header with
  | None => inr (HttpError REQUESTED_RANGE_NOT_SATISFIABLE)        (* 675-679 *)
  | Some (first, last) =>
      match first with
      | [] =>
          match last with
          | [] => inr (HttpError REQUESTED_RANGE_NOT_SATISFIABLE)  (* 683-688 *)
          | _ => do n <- int_of_digits lim last ; inl (Range (- n) None)  (* 690 *)
          end
      | _ =>
          do f <- int_of_digits lim first ;                        (* 692 *)
          match last with
          | [] => inl (Range f None)                               (* 693-695 *)
          | _ =>
              do l <- int_of_digits lim last ;                     (* 697 *)
              if l <? f
              then inr (HttpError REQUESTED_RANGE_NOT_SATISFIABLE)
              else inl (Range f (Some l))
          end
      end
  end.

(* re: a group of one or more \d (http.py:715) *)
Definition digits1 (s : str) : option (str * str) :=
  match span_digits s with
  | ([], _) => None
  | r => Some r
  end.

(* A group of digits or a star: the digits, or None for the star (the
   comparisons with the star at http.py:758 and http.py:768 are part of it). *)
Definition digits_or_star (s : str) : option (option str * str) :=
  match digits1 s with
  | Some (a, r) => Some (Some a, r)
  | None =>
      match chr s "*" with
      | Some r => Some (None, r)
      | None => None
      end
  end.

(* http.py:715 and 748, 754: match the pattern: bytes, a space, DIGITS - LAST /
   COMPLETE end, where LAST and COMPLETE are digits or a star; the groups. *)
Definition content_range_rx (h : str) : option (str * option str * option str) :=
  match skip_prefix (list_ascii_of_string "bytes ") h with
  | None => None
  | Some s =>
      match digits1 s with
      | None => None
      | Some (a, s) =>
          match chr s "-" with
          | None => None
          | Some s =>
              match digits_or_star s with
              | None => None
              | Some (b, s) =>
                  match chr s "/" with
                  | None => None
                  | Some s =>
                      match digits_or_star s with
                      | None => None
                      | Some (c, s) => if at_end s then Some (a, b, c) else None
                      end
                  end
              end
          end
      end
  end.

(* http.py:717-720 ContentRange.__init__ *)
Record content_range :=
  ContentRange { cr_first : Z; cr_last : option Z; cr_complete : option Z }.

(* http.py:722-778 ContentRange.parse *)
Definition content_range_parse (lim : option Z) (header : str)
  : content_range + hexc :=
  match content_range_rx header with
  | None => inr (HttpError BAD_REQUEST)
  | Some (first, last, complete) =>
      do f <- int_of_digits lim first ;
      do l <- match last with
              | None => inl None
              | Some last =>
                  do l <- int_of_digits lim last ;
                  if l <? f then inr (HttpError BAD_REQUEST) else inl (Some l)
              end ;
      do c <- match complete with
              | None => inl None
              | Some complete =>
                  do c <- int_of_digits lim complete ;
                  if match l with Some l => c <=? l | None => false end
                  then inr (HttpError BAD_REQUEST) else inl (Some c)
              end ;
      inl (ContentRange f l c)
  end.

(* The white space of latin-1 that int() skips: not 28 to 31, unlike str.strip(). *)
(* Python semantics, for int() in http.py:386. *)
Definition is_space (c : ascii) : bool :=
  let n := N_of_ascii c in
  ((9 <=? n) && (n <=? 13) || (n =? 32)
   || (n =? 133) || (n =? 160))%N.

(* Python semantics, for int() in http.py:386. *)
Fixpoint lstrip (s : str) : str :=
  match s with
  | c :: r => if is_space c then lstrip r else s
  | [] => []
  end.
(* Python semantics, for int() in http.py:386. *)
Definition strip (s : str) : str := rev (lstrip (rev (lstrip s))).

(* The digits of an int() literal: digits, single underscores between them.
   Returns the digits without the underscores. *)
(* Python semantics, for int() in http.py:386. *)
Fixpoint int_digits (s : str) : option str :=
  match s with
  | [] => None
  | c :: r =>
      if is_digit c then
        match r with
        | [] => Some [c]
        | d :: r' =>
            if Ascii.eqb d "_" then
              match int_digits r' with Some l => Some (c :: l) | None => None end
            else
              match int_digits r with Some l => Some (c :: l) | None => None end
        end
      else None
  end.

(* int(value) of a latin-1 string (http.py:386): surrounding white space, an
   optional sign, digits possibly separated by underscores. *)
Definition py_int (lim : option Z) (s : str) : Z + hexc :=
  let s := strip s in
  let '(sign, s) :=
    match s with
    | c :: r => if Ascii.eqb c "-" then (-1, r)
                else if Ascii.eqb c "+" then (1, r) else (1, s)
    | [] => (1, [])
    end in
  match int_digits s with
  | None => inr ValueError
  | Some ds => do n <- int_of_digits lim ds ; inl (sign * n)
  end.

(* http.py:369-396 Request.content_length, first evaluation ([value] is the
   header, None if missing). *)
Definition content_length (lim : option Z) (value : option str)
  : option Z + hexc :=
  match value with
  | None => inl None
  | Some v =>
      match py_int lim v with
      | inr _ => inr (HttpError BAD_REQUEST)                       (* 387-390 *)
      | inl n =>
          if n <? 0 then inr (HttpError BAD_REQUEST)               (* 391-394 *)
          else inl (Some n)
      end
  end.
