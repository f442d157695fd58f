(* What should happen to the connection of an NBD client, from the log of the
   calls of its socket. *)
From Coq Require Import List Bool Arith.
From Verif Require Import SessionModel.
Import ListNotations.

(* Nothing is interrupted: all that is raised are Exceptions. *)
Definition calm (sys : nat -> option exc) : Prop := forall n, sys n <> Some XBase.

(* Ending a session. *)
Definition goodbye (e : event) : Prop :=
  match e with ESend MAbort _ | ESend (MDisc _) _ => True | _ => False end.
Definition sending (e : event) : Prop := match e with ESend _ _ => True | _ => False end.

(* The socket was created, used, and then closed, once. *)
Definition closed_once (log : list event) : Prop :=
  exists l, log = ECreate :: l ++ [EClose] /\ ~ In ECreate l /\ ~ In EClose l.

(* One message ends the session; nothing is sent after it. *)
Definition ended_by (m : msg) (log : list event) : Prop :=
  exists a b ok, log = a ++ ESend m ok :: b /\
    (forall e, In e a -> ~ goodbye e) /\ (forall e, In e b -> ~ sending e).
