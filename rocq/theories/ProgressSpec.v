(* What is expected from the progress bar. *)
From Coq Require Import ZArith List Bool String.
From Verif Require Import ProgressModel.
Import ListNotations.
Open Scope Z_scope.

(* The calls that count: those before the bar is closed. *)
Fixpoint open_part (l : list op) : list op :=
  match l with
  | [] => []
  | OClose :: _ => []
  | x :: l => x :: open_part l
  end.

Definition closes (l : list op) : bool := existsb (fun x => match x with OClose => true | _ => false end) l.

(* Bytes transferred, and the phase and size set last. *)
Fixpoint moved (l : list op) : Z :=
  match l with
  | [] => 0
  | OUpdate n :: l => n + moved l
  | _ :: l => moved l
  end.

Fixpoint phase_after (p : option string) (l : list op) : option string :=
  match l with
  | [] => p
  | OPhase s :: l => phase_after s l
  | _ :: l => phase_after p l
  end.

Fixpoint size_after (n : option Z) (l : list op) : option Z :=
  match l with
  | [] => n
  | OSize m :: l => size_after m l
  | _ :: l => size_after n l
  end.

Definition no_size (l : list op) : Prop := forall n, ~ In (OSize n) l.
Definition forward (l : list op) : Prop := forall n, In (OUpdate n) l -> 0 <= n.
Definition changes (l : list op) : nat :=
  List.length (filter (fun x => match x with OPhase _ | OSize _ => true | _ => false end) l).
