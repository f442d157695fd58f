(* What a sparse stream of libvirt means, and what the example does with it. *)
From Coq Require Import ZArith List Bool.
From Verif Require Import BytesLib LibvirtModel StreamSpec.
Import ListNotations.
Open Scope Z_scope.

(* The contents of the volume: a hole is read as zeros. *)
Fixpoint contents (s : list segment) : list byte :=
  match s with
  | [] => []
  | SegData d :: s => d ++ contents s
  | SegHole n :: s => repeat x00 (Z.to_nat n) ++ contents s
  end.

(* Holes have a positive length. *)
Definition sound (s : list segment) : Prop := forall n, In (SegHole n) s -> 0 < n.

(* Nothing follows the first hole. *)
Fixpoint hole_last (s : list segment) : Prop :=
  match s with
  | [] => True
  | SegData _ :: s => hole_last s
  | SegHole _ :: s => s = []
  end.

(* The runs of data and the holes, each at the number of bytes of data before
   it: [run] is the data at offset, before s. *)
Fixpoint packed (offset : Z) (run : list byte) (s : list segment) : list frame :=
  match s with
  | [] => [FData offset run]
  | SegData d :: s => packed offset (run ++ d) s
  | SegHole n :: s => FData offset run :: FZero (offset + zlen run) n :: packed (offset + zlen run) [] s
  end.

(* The stream works. *)
Definition flowing (answers : nat -> answer) : Prop := forall k, exists n, answers k = AGives n.
