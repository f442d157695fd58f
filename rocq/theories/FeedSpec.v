(* What copying and reading should do. *)
From Coq Require Import ZArith List.
Import ListNotations.

(* [l] starts with the first n bytes of what was to come, and the rest is
   left. *)
Definition moved (n : nat) (before got after : list Z) : Prop := before = got ++ after /\ length got = n.

(* All bytes of a list of pieces. *)
Inductive joined : list (list Z) -> list Z -> Prop :=
| joined_nil : joined [] []
| joined_cons a l b : joined l b -> joined (a :: l) (a ++ b).
