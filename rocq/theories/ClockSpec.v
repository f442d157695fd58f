(* What is expected from a clock: sums over the calls that succeeded. *)
From Coq Require Import ZArith List Bool String.
From Verif Require Import ClockModel.
Import ListNotations.
Open Scope Z_scope.

(* A call with its result and its time. *)
Definition event := (call * bool * Z)%type.

Definition name_of (x : call) : string := match x with CStart n | CStop n | CAbort n => n end.
Definition is_start (x : call) : bool := match x with CStart _ => true | _ => false end.
Definition is_stop (x : call) : bool := match x with CStop _ => true | _ => false end.

(* The calls of a name that succeeded, in order. *)
Definition done_of (n : string) (l : list event) : list event :=
  filter (fun e => let '(x, ok, _) := e in ok && String.eqb (name_of x) n) l.

Definition time_of (e : event) : Z := snd e.
Definition sum (l : list Z) : Z := fold_right Z.add 0 l.

Definition starts (n : string) (l : list event) : Z :=
  sum (map time_of (filter (fun e => is_start (fst (fst e))) (done_of n l))).
Definition ends (n : string) (l : list event) : Z :=
  sum (map time_of (filter (fun e => negb (is_start (fst (fst e)))) (done_of n l))).
Definition completed (n : string) (l : list event) : Z :=
  Z.of_nat (List.length (filter (fun e => is_stop (fst (fst e))) (done_of n l))).

(* The time of the last call of a name, if it was a start. *)
Definition running (n : string) (l : list event) : option Z :=
  match rev (done_of n l) with
  | (CStart _, _, t) :: _ => Some t
  | _ => None
  end.

(* A call may be made: start when not running, the others when running. *)
Definition allowed (l : list event) (x : call) : bool :=
  match running (name_of x) l with
  | None => is_start x
  | Some _ => negb (is_start x)
  end.

(* What a clock knows about a name: seconds, ops, bytes, started. *)
Definition view (n : string) (c : clock) : Z * Z * Z * option Z :=
  match lookup n c with
  | Some s => (s_seconds s, s_ops s, s_bytes s, s_started s)
  | None => (0, 0, 0, None)
  end.
