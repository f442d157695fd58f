(* Which addresses can be told by a URL. *)
From Coq Require Import ZArith List Bool.
From Verif Require Import UrlModel.
Import ListNotations.
Open Scope Z_scope.

(* Characters that have no meaning for URLs in general: not "?", "#", tab,
   newline, carriage return. *)
Definition plain (s : str) : Prop := forall c, In c s -> ~ In c [63; 35; 9; 10; 13].

(* A colon followed by a digit somewhere. *)
Definition port_like (w : unicode) (s : str) : Prop :=
  exists a d b, s = a ++ 58 :: d :: b /\ is_digit w d = true.

(* A path of a socket: absolute, not just "/", without colon. *)
Definition socket_path (s : str) : Prop := exists r, s = 47 :: r /\ r <> [] /\ ~ In 58 r.

Definition starts (p s : str) : Prop := exists r, s = p ++ r.

(* Ports in the nice notation are read by int(): decimal digits, also ones that
   are not ASCII, single underscores between them, a sign and white space
   around. *)
Definition digit_of (w : unicode) (c v : Z) : Prop :=
  (48 <= c <= 57 /\ v = c - 48) \/ (128 <= c /\ u_digit w c = Some v).
Definition space_of (w : unicode) (c : Z) : Prop :=
  In c [9; 10; 11; 12; 13; 32] \/ (128 <= c /\ u_space w c = true).
Inductive digits_of (w : unicode) : str -> list Z -> Prop :=
| do_one c v : digit_of w c v -> digits_of w [c] [v]
| do_more c v s l : digit_of w c v -> digits_of w s l -> digits_of w (c :: s) (v :: l)
| do_under c v s l : digit_of w c v -> digits_of w s l -> digits_of w (c :: 95 :: s) (v :: l).
Fixpoint number (l : list Z) : Z :=
  match l with [] => 0 | v :: r => v * 10 ^ Z.of_nat (List.length r) + number r end.
Definition int_of (w : unicode) (s : str) (n : Z) : Prop :=
  exists a sign d b l,
    s = a ++ sign ++ d ++ b /\ Forall (space_of w) a /\ Forall (space_of w) b /\ digits_of w d l /\
    ((sign = [45] /\ n = - number l) \/ ((sign = [] \/ sign = [43]) /\ n = number l)).

(* No character is both white space and a digit. *)
Definition sane (w : unicode) : Prop := forall c, u_space w c = true -> u_digit w c = None.

(* The scheme nbd, in lower or upper case. *)
Definition any_case_nbd (s : str) : Prop :=
  exists n b d, s = [n; b; d] /\ In n [110; 78] /\ In b [98; 66] /\ In d [100; 68].
