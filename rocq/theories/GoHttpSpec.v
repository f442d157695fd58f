(* What is expected from the HTTP backend of the Go program. *)
From Coq Require Import ZArith List Bool Ascii String.
From Verif Require Import BytesLib HeaderModel HttpModel OpsModel OpsTheorems ImagesModel ExtentsModel
  HttpBackendModel HttpBackendSpec GoModel GoSpec GoHttpModel.
Import ListNotations.
Open Scope Z_scope.

(* The extent as Go has it: without "hole". *)
Definition go_extent (e : image_extent) : extent :=
  match e with
  | ZeroExtent start length zero _ => Extent start length zero
  | DirtyExtent start length _ zero => Extent start length zero
  end.

(* The extents of an image of this size fit in 64 bits. *)
Definition fitting (total : Z) (e : senv) : Prop :=
  forall img l, zlen img = total -> se_ext e false img = Some l ->
  Forall (fun x => 0 <= e_start (go_extent x) < 2 ^ 64 /\ 0 <= e_length (go_extent x) < 2 ^ 64) l.

(* Calls of a backend, and what they give. *)
Inductive gcall := GSize | GExtents | GRead (buf : list byte) (off : Z).
Inductive gout :=
| OSize (r : gres Z)
| OExtents (r : gres (list (option extent)))
| ORead (r : option (Z * rerr * list byte)).

Definition grun_call {W} (serve : W -> message -> option response * W) (breaks : nat -> option Z)
  (c : gcall) (s : gb W) : gout * gb W :=
  match c with
  | GSize => let (r, s) := gsize serve breaks s in (OSize r, s)
  | GExtents => let (r, s) := gextents serve breaks s in (OExtents r, s)
  | GRead buf off => let (r, s) := gread serve breaks buf off s in (ORead r, s)
  end.

Fixpoint grun {W} (serve : W -> message -> option response * W) (breaks : nat -> option Z)
  (cs : list gcall) (s : gb W) : list gout * gb W :=
  match cs with
  | [] => ([], s)
  | c :: cs =>
      let (r, s) := grun_call serve breaks c s in
      let (rs, s) := grun serve breaks cs s in (r :: rs, s)
  end.

(* What a call should give for an image with these extents at some time. *)
Definition good_call (img : list byte) (ext : list extent -> Prop) (c : gcall) (r : gout) : Prop :=
  match c, r with
  | GSize, OSize GErr => True
  | GSize, OSize (GOk n) => n = zlen img
  | GExtents, OExtents GErr => True
  | GExtents, OExtents (GOk l) => exists es, l = map Some es /\ ext es
  | GRead buf off, ORead (Some (n, e, buf')) => reader_at img off buf n e buf'
  | _, _ => False
  end.

(* Offsets are int64, lengths int. *)
Definition go_call (c : gcall) : Prop :=
  match c with
  | GRead buf off => zlen buf < 2 ^ 63 /\ - 2 ^ 63 <= off < 2 ^ 63
  | _ => True
  end.

(* The extents that a JSON document means for Go: a missing member and null
   are the zero value, everything of another type or out of range an error. *)
Definition uint_member (j : option json) (n : Z) : Prop :=
  match j with
  | None | Some JNull => n = 0
  | Some (JInt m) => n = m /\ 0 <= m < 2 ^ 64
  | _ => False
  end.

Definition bool_member (j : option json) (b : bool) : Prop :=
  match j with
  | None | Some JNull => b = false
  | Some (JBool c) => b = c
  | _ => False
  end.

Definition means_extent (j : json) (e : option extent) : Prop :=
  match j, e with
  | JNull, None => True
  | JObj d, Some e =>
      uint_member (lookup d (lits "start")) (e_start e) /\
      uint_member (lookup d (lits "length")) (e_length e) /\
      bool_member (lookup d (lits "zero")) (e_zero e)
  | _, _ => False
  end.

Definition means_extents (j : option json) (l : list (option extent)) : Prop :=
  match j with
  | Some JNull => l = []
  | Some (JList js) => Forall2 means_extent js l
  | _ => False
  end.
