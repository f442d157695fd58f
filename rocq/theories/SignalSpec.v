(* What is expected when a termination signal comes during a copy. *)
From Coq Require Import ZArith List Bool.
From Verif Require Import BytesLib ClientIoModel ClientIoSpec SignalModel.
Import ListNotations.
Open Scope Z_scope.

(* The signals of an execution. *)
Fixpoint signals (tr : list event) : list Z :=
  match tr with
  | [] => []
  | Signal n :: tr => n :: signals tr
  | _ :: tr => signals tr
  end.

(* The first signal: one that came before the copy, or the first one since. *)
Definition first_signal (before : option Z) (tr : list event) : option Z :=
  match before with Some n => Some n | None => hd_error (signals tr) end.

(* Nothing raises but check_terminated(). *)
Definition quiet (e : event) : Prop :=
  match e with Signal _ => True | Check _ ok => ok = true | Run l => fine l end.

(* Worker i is busy with request r: it looked for signals before. *)
Definition busy (s : state) (i : nat) (r : request) : Prop :=
  checked s i = true /\ exists w, nth_error (workers (io s)) i = Some w /\
  (w_state w = WZero r \/ exists a b n, w_state w = WCopy r a b n).

(* Worker i will not look for signals again: it got its STOP request and looked
   for them, or it ended. *)
Definition last_look (s : state) (w : worker) (i : nat) : Prop :=
  match w_state w with
  | WFlush => checked s i = true
  | WClosing | WDone | WCancel | WError | WFailed => True
  | _ => False
  end.

(* The steps that are not signals. *)
Definition is_signal (e : event) : bool := match e with Signal _ => true | _ => false end.
