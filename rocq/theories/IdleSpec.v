(* What is expected from the idle time. *)
From Coq Require Import ZArith List Bool.
From Verif Require Import IdleModel.
Import ListNotations.
Open Scope Z_scope.

(* No operation has ended without its touch() being complete. *)
Definition settled (s : state) : Prop :=
  forall t, threads s t = TIdle \/ threads s t = TRun.

(* The next report, made from a state. *)
Definition reports_idle (delay : Z) (s s' : state) (seen n : Z) : Prop :=
  step delay s s' /\ reports s' = (seen, clock s, n) :: reports s /\ ~ (reader s = RIdle).

(* Ticks since the last use of the ticket: the end of an operation, OPTIONS or
   adding the ticket. *)
Definition unused_for (s : state) (n : Z) : Prop :=
  In (clock s - n) (ended s) /\ forall e, In e (ended s) -> e <= clock s - n.

(* The second state comes after the first one. *)
Inductive later (delay : Z) (s : state) : state -> Prop :=
| l_same : later delay s s
| l_step s1 s2 : later delay s s1 -> step delay s1 s2 -> later delay s s2.

(* At a tick, before the given state, nothing was using the ticket. *)
Definition was_inactive (delay tick : Z) (seen : Z) (s : state) : Prop :=
  exists s0, reachable delay tick s0 /\ later delay s0 s /\ clock s0 = seen /\
    forall t, threads s0 t <> TRun.

(* What a reader of the idle time was told last. *)
Definition told (s : state) (seen at_tick n : Z) : Prop :=
  exists l, reports s = (seen, at_tick, n) :: l.
