(* What is expected from the admin client. *)
From Coq Require Import ZArith List Bool String.
From Verif Require Import UrlModel ControlModel ControlSpec AdminModel.
Import ListNotations.
Open Scope Z_scope.

(* An id that can be used in a URL as is: printable ASCII without "?" and "%",
   such as a UUID. *)
Definition plain_char (c : Z) : Prop := 32 < c < 127 /\ c <> 63 /\ c <> 37.
Definition plain (id : str) : Prop := id <> [] /\ Forall plain_char id.

(* The decoder of the library keeps ASCII. *)
Definition keeps_ascii (utf8 : list Z -> str) : Prop := forall l, Forall (fun c => 0 <= c < 128) l -> utf8 l = l.

(* The parser of queries understands the queries of the client. *)
Definition parses (parse_query : str -> list (str * str)) : Prop :=
  forall x, In x ["y"; "n"]%string -> parse_query (lit "run=" ++ lit x) = [(lit "run", lit x)].

(* A call succeeded. *)
Definition ok {A} (r : A + aexc) : Prop := exists x, r = inl x.

(* Percent-encoding (RFC 3986, 2.1): [quoted s t] when [s] stands for the bytes
   [t]: other characters for themselves, "%" and two hexadecimal digits for a
   byte. *)
Definition digits : list (Z * Z) :=
  [(48, 0); (49, 1); (50, 2); (51, 3); (52, 4); (53, 5); (54, 6); (55, 7); (56, 8); (57, 9);
   (65, 10); (66, 11); (67, 12); (68, 13); (69, 14); (70, 15);
   (97, 10); (98, 11); (99, 12); (100, 13); (101, 14); (102, 15)].
Inductive quoted : list Z -> list Z -> Prop :=
| q_nil : quoted [] []
| q_char c s t : c <> 37 -> quoted s t -> quoted (c :: s) (c :: t)
| q_byte a b x y s t : In (a, x) digits -> In (b, y) digits -> quoted s t ->
    quoted (37 :: a :: b :: s) (16 * x + y :: t)
(* a percent sign that starts no such triple stands for itself *)
| q_percent a b s t : (forall x y, ~ (In (a, x) digits /\ In (b, y) digits)) ->
    quoted (a :: b :: s) t -> quoted (37 :: a :: b :: s) (37 :: t)
| q_end c s : (s = [] \/ exists a, s = [a] /\ a <> 37) -> c = 37 -> quoted (c :: s) (c :: s).

(* What a request to run the profiler should do, for the given parameters of
   the query. *)
Inductive profiles (p : profiler) (run clock : option str) : Z -> profiler -> Prop :=
| not_installed : y_installed p = false -> profiles p run clock 404 p
| starts c : y_installed p = true -> run = Some (lit "y") -> y_running p = None ->
    ((clock = None /\ c = lit "cpu") \/ (clock = Some c /\ (c = lit "cpu" \/ c = lit "wall"))) ->
    profiles p run clock 200 (Profiler true (Some c) (y_saved p))
| stops c : y_installed p = true -> run = Some (lit "n") -> y_running p = Some c ->
    profiles p run clock 200 (Profiler true None (S (y_saved p)))
| refused : y_installed p = true ->
    ~ (run = Some (lit "y") /\ y_running p = None /\
       (clock = None \/ clock = Some (lit "cpu") \/ clock = Some (lit "wall"))) ->
    ~ (run = Some (lit "n") /\ y_running p <> None) ->
    profiles p run clock 400 p.
