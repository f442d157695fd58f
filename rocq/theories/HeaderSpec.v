(* What the Range, Content-Range and Content-Length headers are, written as a
   grammar, independent of the parsers. *)
From Coq Require Import ZArith List Ascii String.
From Verif Require Import HeaderModel.
Import ListNotations.
Open Scope Z_scope.

Definition lit (s : string) : str := list_ascii_of_string s.

(* c is the digit with value v *)
Definition digit (c : ascii) (v : Z) : Prop :=
  0 <= v /\ nth_error (lit "0123456789") (Z.to_nat v) = Some c.

(* s is a decimal number (one digit or more) with value n *)
Inductive decimal : str -> Z -> Prop :=
| dec_one c v : digit c v -> decimal [c] v
| dec_more s n c v : decimal s n -> digit c v -> decimal (s ++ [c]) (10 * n + v).

(* RFC 7233: a Range header with one range of bytes. *)
Inductive ranges :=
| From (n : Z)          (* bytes=N-   *)
| FromTo (n m : Z)      (* bytes=N-M  *)
| Suffix (n : Z).       (* bytes=-N   *)

Inductive range_form : str -> ranges -> Prop :=
| form_from a n :
    decimal a n -> range_form (lit "bytes=" ++ a ++ lit "-") (From n)
| form_from_to a b n m :
    decimal a n -> decimal b m -> n <= m ->
    range_form (lit "bytes=" ++ a ++ lit "-" ++ b) (FromTo n m)
| form_suffix b n :
    decimal b n -> range_form (lit "bytes=-" ++ b) (Suffix n).

(* RFC 7233 section 2.1: offset i of a representation of len bytes is
   selected. *)
Definition selects (r : ranges) (len i : Z) : Prop :=
  0 <= i < len /\
  match r with
  | From n => n <= i
  | FromTo n m => n <= i <= m
  | Suffix n => len - n <= i
  end.

(* Meaning of the object made by the parser, as documented: a negative first
   counts from the end, without last the range goes to the end. *)
Definition object_selects (r : range) (len i : Z) : Prop :=
  0 <= i < len /\
  match r_last r with
  | Some l => r_first r <= i <= l
  | None => if r_first r <? 0 then len + r_first r <= i else r_first r <= i
  end.

(* Object for a form. *)
Definition range_of (r : ranges) : range :=
  match r with
  | From n => Range n None
  | FromTo n m => Range n (Some m)
  | Suffix n => Range (- n) None
  end.

(* A number or a star (None). *)
Inductive number_or_star : str -> option Z -> Prop :=
| is_number s n : decimal s n -> number_or_star s (Some n)
| is_star : number_or_star (lit "*") None.

(* RFC 7233 section 4.2 with last and complete optional; the numbers must be
   consistent. *)
Inductive content_range_form : str -> Z -> option Z -> option Z -> Prop :=
| cr_form a b c first last complete :
    decimal a first -> number_or_star b last -> number_or_star c complete ->
    (forall l, last = Some l -> first <= l) ->
    (forall l n, last = Some l -> complete = Some n -> l < n) ->
    content_range_form (lit "bytes " ++ a ++ lit "-" ++ b ++ lit "/" ++ c)
      first last complete.

Definition ends_with_newline (s : str) : Prop :=
  exists r, s = r ++ [ascii_of_N 10].
