(* What a disk id of the command line should mean. *)
From Coq Require Import ZArith List Bool String.
From Verif Require Import UrlModel.
Import ListNotations.
Open Scope Z_scope.

(* A hexadecimal digit and its value, in either case (RFC 4122). *)
Definition digit_is (c v : Z) : Prop :=
  (48 <= c <= 57 /\ v = c - 48) \/ (97 <= c <= 102 /\ v = c - 97 + 10) \/ (65 <= c <= 70 /\ v = c - 65 + 10).
Definition hex (c : Z) : Prop := exists v, digit_is c v.
Definition lower_hex (c : Z) : Prop := 48 <= c <= 57 \/ 97 <= c <= 102.

(* The digits of two texts are the same, the second has small letters. *)
Definition same_digits (a b : str) : Prop :=
  Forall2 (fun c d => lower_hex d /\ exists v, digit_is c v /\ digit_is d v) a b.

(* The usual form of the 32 digits [d]. *)
Inductive hyphenated : str -> str -> Prop :=
| Hyphenated a b c e f :
    List.length a = 8%nat -> List.length b = 4%nat -> List.length c = 4%nat ->
    List.length e = 4%nat -> List.length f = 12%nat ->
    hyphenated (a ++ b ++ c ++ e ++ f) (a ++ lit "-" ++ b ++ lit "-" ++ c ++ lit "-" ++ e ++ lit "-" ++ f).

(* How people write a UUID with the digits [d]. *)
Inductive written (d : str) : str -> Prop :=
| Plain : written d d
| Usual s : hyphenated d s -> written d s
| Braces s : hyphenated d s -> written d (lit "{" ++ s ++ lit "}")
| Urn s : hyphenated d s -> written d (lit "urn:uuid:" ++ s).

(* The engine takes this form. *)
Definition canonical (s : str) : Prop :=
  exists d, List.length d = 32%nat /\ Forall lower_hex d /\ hyphenated d s.

(* [s] is [d] with hyphens anywhere. *)
Inductive with_hyphens : str -> str -> Prop :=
| WNil : with_hyphens [] []
| WHyphen d s : with_hyphens d s -> with_hyphens d (45 :: s)
| WDigit c d s : hex c -> with_hyphens d s -> with_hyphens (c :: d) (c :: s).

(* The characters that can be in an accepted text: digits, those of urn:uuid:,
   braces and hyphens, and what int() takes besides digits. *)
Definition usable (w : unicode) (c : Z) : Prop :=
  hex c \/ In c (lit "urn:uid:{}-_xX+") \/ 9 <= c <= 13 \/ c = 32 \/
  (128 <= c /\ (u_space w c = true \/ exists v, u_digit w c = Some v)).
