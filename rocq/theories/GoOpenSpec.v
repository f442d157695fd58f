(* What the Go program should open. *)
From Coq Require Import ZArith List Bool String.
From Verif Require Import UrlModel GoOpenModel.
Import ListNotations.
Open Scope Z_scope.

(* Small and capital letters of a scheme are the same (RFC 3986 3.1). *)
Definition same_letter (a b : Z) : Prop := a = b \/ (65 <= a <= 90 /\ b = a + 32).
Definition has_scheme (sch s : str) : Prop :=
  exists a r, s = a ++ lit ":" ++ r /\ Forall2 same_letter a sch.

(* A URL with an authority, as nbd://host:10809/export, https://host/path or
   nbd+unix:///?socket=/path: no control characters, no fragment. *)
Definition visible (c : Z) : Prop := 32 <= c /\ c <> 127 /\ c <> 35.
Inductive authority_url (y : sys) (sch : str) : str -> Prop :=
| AuthorityUrl a host path query :
    Forall2 same_letter a sch ->
    Forall visible host -> Forall visible path -> Forall visible query ->
    ~ In 47 host -> ~ In 63 host -> (host = [] \/ authority_ok y host = true) ->
    ~ In 63 path -> ~ In 37 path -> (path = [] \/ exists p, path = 47 :: p) ->
    (query = [] \/ exists q, query = 63 :: q) ->
    authority_url y sch (a ++ lit "://" ++ host ++ path ++ query).

(* Quoting of the path of a URL (RFC 3986 2.1): every byte that is not a
   letter, digit, or one of - . _ ~ and the slash is written with % and two
   digits. *)
Definition unreserved (c : Z) : bool :=
  ((65 <=? c) && (c <=? 90)) || ((97 <=? c) && (c <=? 122)) || ((48 <=? c) && (c <=? 57))
  || existsb (Z.eqb c) (lit "-._~/").
Definition digit16 (v : Z) : Z := nth (Z.to_nat v) (lit "0123456789ABCDEF") 0.
Definition quoted (p : str) : str :=
  flat_map (fun c => if unreserved c then [c] else [37; digit16 (c / 16); digit16 (c mod 16)]) p.

(* The words of a command line of the qemu programs: an operand that starts
   with a hyphen is an option, one with a colon before the first slash names a
   protocol, others are files. *)
Inductive meaning := MOption | MProtocol | MFile (f : str).
Definition qemu_operand (f : str) : meaning :=
  if hd 0 f =? 45 then MOption
  else if existsb (Z.eqb 58) (fst (span (fun c => negb (c =? 47)) f)) then MProtocol
  else MFile f.

(* Handles of libnbd that are open after some events. *)
Fixpoint handles (l : list event) : Z :=
  match l with
  | [] => 0
  | Create :: l => handles l + 1
  | Close :: l => handles l - 1
  | _ :: l => handles l
  end.
