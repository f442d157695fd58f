(** * What "everything a connection opened is closed" means.

    Stated on what can be observed only: the events, latest first. *)

From Coq Require Import List Bool ZArith.
From Verif Require Import ResourceModel.
Import ListNotations.
Local Open Scope nat_scope.

Definition log_of (l : list action) (log : list ev) : Prop :=
  exists s, run init l = Some s /\ s_log s = log.

Definition is_close (x : nat) (e : ev) : bool :=
  match e with EClosed y => Nat.eqb y x | _ => false end.

(** How many times the file or socket of context [x] was closed. *)
Definition closes (log : list ev) (x : nat) : nat :=
  List.length (filter (is_close x) log).

(** The uuid a ticket was added with: the [t]-th ticket added. *)
Definition uuids (l : list action) : list nat :=
  flat_map (fun a => match a with AAdd u _ => [u] | _ => [] end) l.

Definition timeouts (l : list action) : list Z :=
  flat_map (fun a => match a with AAdd _ n => [n] | _ => [] end) l.

(** Another ticket with the same uuid was used on the same connection, after
    this one. *)
Definition replaced (l : list action) (log : list ev) (c t : nat) : Prop :=
  exists t' x' b u, t' <> t /\ In (EServed c t' x' b) log /\
    nth_error (uuids l) t' = Some u /\ nth_error (uuids l) t = Some u.

(** The connection [c] has ended, and it is the cause of no leak. *)
Definition smooth (l : list action) (log : list ev) (c : nat) : Prop :=
  forall t x, In (EOpened c t x) log ->
    ~ In (ENoBuffer x) log /\ ~ In (ENoTimeout x) log /\
    ~ In (ECloseError x) log /\ ~ replaced l log c t.

(** The connections that a ticket shows in its status at the end. *)
Definition shows (l : list action) (t n : nat) : Prop :=
  exists s, run init l = Some s /\ connections s t = n.

(** The buffer of context [x] is mapped at the end. *)
Definition mapped (l : list action) (x : nat) : Prop :=
  exists s b, run init l = Some s /\ nth_error (s_ctxs s) x = Some b /\
    x_buffer b = true.

(** No fault in this step: buffers are allocated, closing does not raise. *)
Definition kind (a : action) : bool :=
  match a with
  | ACancelClose _ os =>
      forallb (fun o => match o with Cok => true | _ => false end) os
  | AGet _ _ (Onobuffer | Oopened (Cfailed | Ckept)) => false
  | ACloser _ (Cfailed | Ckept) => false
  | _ => true
  end.

(** Timeouts that a socket takes. *)
Definition sane (n : Z) : Prop := (0 <= n <= 9223372036)%Z.
