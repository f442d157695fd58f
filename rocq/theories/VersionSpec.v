(* What the version of qemu-nbd should be. *)
From Coq Require Import ZArith List.
Import ListNotations.
Open Scope Z_scope.

(* A number in decimal. *)
Inductive number : list Z -> Z -> Prop :=
| number_digit d : 0 <= d <= 9 -> number [48 + d] d
| number_more s n d : number s n -> 0 <= d <= 9 -> number (s ++ [48 + d]) (10 * n + d).

(* A name without white space. *)
Definition plain_name (s : list Z) : Prop := s <> [] /\ Forall (fun c => 33 <= c <= 126) s.

(* "qemu-nbd 5.1.0 (qemu-kvm-5.1.0-20.el8)" and further lines: the name, a
   space, three numbers with dots, and nothing or anything after a space or
   the end of the line. *)
Definition prints (out : list Z) (a b c : Z) : Prop :=
  exists name ta tb tc rest, plain_name name /\ number ta a /\ number tb b /\ number tc c /\
    out = name ++ [32] ++ ta ++ [46] ++ tb ++ [46] ++ tc ++ rest /\
    (rest = [] \/ exists r, rest = 32 :: r \/ rest = 10 :: r).

(* Version a.b.c is 5.2.0 or newer. *)
Definition at_least_5_2 (a b c : Z) : Prop := 5 < a \/ (a = 5 /\ (2 < b \/ (b = 2 /\ 0 <= c))).

(* Texts with dots between them. *)
Inductive dotted : list (list Z) -> list Z -> Prop :=
| dotted_one t : ~ In 46 t -> dotted [t] t
| dotted_more t ts s : ~ In 46 t -> dotted ts s -> dotted (t :: ts) (t ++ [46] ++ s).
