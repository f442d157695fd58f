(* What the properties of checksum requests mean. *)
From Coq Require Import ZArith List Bool Ascii String.
From Coq.Strings Require Import Byte.
From Verif Require Import BytesLib HeaderModel HeaderSpec BlkhashModel BlkhashSpec.
Import ListNotations.
Open Scope Z_scope.

(* The white space of latin-1 that int() skips. *)
Definition space (c : ascii) : Prop :=
  let n := Z.of_N (N_of_ascii c) in
  9 <= n <= 13 \/ n = 32 \/ n = 133 \/ n = 160.

(* Digits with single underscores between them, and the digits alone. *)
Inductive grouped : str -> str -> Prop :=
| grouped_one c v : digit c v -> grouped [c] [c]
| grouped_more c v s d : digit c v -> grouped s d -> grouped (c :: s) (c :: d)
| grouped_under c v s d : digit c v -> grouped s d -> grouped (c :: "_"%char :: s) (c :: d).

(* Texts that Python takes for an integer. *)
Inductive int_text : str -> Z -> Prop :=
| int_plain a t d b n : Forall space a -> grouped t d -> decimal d n -> Forall space b ->
    int_text (a ++ t ++ b) n
| int_plus a t d b n : Forall space a -> grouped t d -> decimal d n -> Forall space b ->
    int_text (a ++ "+"%char :: t ++ b) n
| int_minus a t d b n : Forall space a -> grouped t d -> decimal d n -> Forall space b ->
    int_text (a ++ "-"%char :: t ++ b) (- n).

(* The value of a parameter in a query (keys of a dict are distinct; otherwise the
   first). *)
Inductive parameter (name : str) : list (str * str) -> option str -> Prop :=
| no_parameter q : (forall v, ~ In (name, v) q) -> parameter name q None
| a_parameter p v q : (forall w, ~ In (name, w) p) -> parameter name (p ++ (name, v) :: q) (Some v).

(* Block sizes allowed: 1 to 16 MiB, a multiple of 4096; 4 MiB by default. *)
Definition allowed_block_size (n : Z) : Prop := 1048576 <= n <= 16777216 /\ (4096 | n).
Definition asks_block_size (q : list (str * str)) (n : Z) : Prop :=
  (parameter (lit "block_size") q None /\ n = 4194304) \/
  (exists s, parameter (lit "block_size") q (Some s) /\ int_text s n).
(* Algorithms: one of the list; blake2b by default. *)
Definition asks_algorithm (q : list (str * str)) (algorithms : list str) (a : str) : Prop :=
  (parameter (lit "algorithm") q None /\ a = lit "blake2b") \/
  (parameter (lit "algorithm") q (Some a) /\ In a algorithms).

(* Reads are complete. *)
Definition complete_reads (bs : Z) (ans : list cans) : Prop :=
  forall a n, In a ans -> ca_count a = Some n -> bs <= n.
(* No read fails, and nobody cancels. *)
Definition no_failure (bs size : Z) (ans : list cans) : Prop :=
  (block_count bs size <= List.length ans)%nat /\
  forall a, In a ans -> ca_cancel a = false /\ exists n, ca_count a = Some n /\ bs <= n.

(* Two messages with the same digest. *)
Definition collision (func : list byte -> list byte) : Prop :=
  exists x y, x <> y /\ func x = func y.
