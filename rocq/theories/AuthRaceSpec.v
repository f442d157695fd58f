(* What may be expected of overlapping control requests, in terms of the trace
   of visible events only. *)
From Coq Require Import List Bool Arith.
From Verif Require Import TicketModel AuthRaceModel.
Import ListNotations.

(* The ticket stored under id after the trace. *)
Fixpoint stored_from (x : option nat) (tr : list gevent) (id : nat) : option nat :=
  match tr with
  | [] => x
  | GAdd i o :: r => stored_from (if i =? id then Some o else x) r id
  | GClear :: r => stored_from None r id
  | GRemoved _ i :: r => stored_from (if i =? id then None else x) r id
  | _ :: r => stored_from x r id
  end.
Definition stored_at (tr : list gevent) (id : nat) : option nat := stored_from None tr id.

(* The events of one ticket. *)
Fixpoint events_of (o : nat) (tr : list gevent) : list event :=
  match tr with
  | GObj i e :: r => if i =? o then e :: events_of o r else events_of o r
  | _ :: r => events_of o r
  | [] => []
  end.

(* At some time after the DELETE k of id started, x was stored under id. *)
Definition seen_during (tr : list gevent) (k id : nat) (x : option nat) : Prop :=
  exists tr1 tr2 tr3, tr = tr1 ++ GDelStart k id :: tr2 ++ tr3
                      /\ stored_at (tr1 ++ GDelStart k id :: tr2) id = x.

(* A ticket is dead: after [before] nothing runs or is open, and nothing
   happens in [after]. *)
Definition no_activity (after : list event) : Prop :=
  forall c x, ~ In (EOpStart c) after /\ ~ In (EOpIO c x) after /\ ~ In (EOpEnd c) after
              /\ ~ In (EAttach c x) after /\ ~ In (EReport c true) after.

(* Control requests for one ticket do not overlap. *)
Definition opened (tr : list gevent) (k id : nat) : Prop :=
  In (GDelStart k id) tr /\ forall code, ~ In (GDelEnd k id code) tr.
Definition changes (e : gevent) (id : nat) : Prop :=
  match e with
  | GAdd i _ => i = id
  | GDelStart _ i => i = id
  | GClear => True
  | _ => False
  end.
Definition sequential (tr : list gevent) : Prop :=
  forall tr1 e tr2 id k, tr = tr1 ++ e :: tr2 -> changes e id -> ~ opened tr1 k id.
