(* What the properties of the client copy mean. *)
From Coq Require Import ZArith List Bool.
From Coq.Strings Require Import Byte.
From Verif Require Import BytesLib ExtentsModel ExtentsSpec ClientIoModel.
Import ListNotations.
Open Scope Z_scope.

(* Requests covering [a, b) in order, without gaps or overlaps, each of at
   most m bytes. *)
Inductive covers (op : opcode) (m : Z) : Z -> Z -> list request -> Prop :=
| covers_last : forall a b, b - a <= m -> covers op m a b [Request op a (b - a)]
| covers_more : forall a b n l, 0 < n <= m -> covers op m (a + n) b l ->
    covers op m a b (Request op a n :: l).

(* Byte i is in the extent. *)
Definition within (e : image_extent) (i : Z) : Prop :=
  start_of e <= i < start_of e + length_of e.

(* The extents are of the kind asked for, and what is reported as zero reads
   as zeros. *)
Definition honest_extents (dirty : bool) (src : list byte) (exts : list image_extent) : Prop :=
  forall e, In e exts ->
  match e with
  | ZeroExtent _ _ z _ => dirty = false /\ (z = true -> forall i, within e i -> getb src i = x00)
  | DirtyExtent _ _ _ z => dirty = true /\ (z = true -> forall i, within e i -> getb src i = x00)
  end.

(* The extents that must be copied: for an incremental copy the dirty ones,
   otherwise all, except zeros when zero is false, and holes when hole is
   false. *)
Definition selected (zero hole : bool) (e : image_extent) : bool :=
  match e with
  | DirtyExtent _ _ d _ => d
  | ZeroExtent _ _ z h => negb z || (zero && (negb h || hole))
  end.

(* The destination after the copy of src over d: selected extents as in the
   source, the rest as before. *)
Definition copied (zero hole : bool) (src d : list byte) (exts : list image_extent)
  (d' : list byte) : Prop :=
  (forall e i, In e exts -> within e i ->
     getb d' i = if selected zero hole e then getb src i else getb d i)
  /\ zlen d <= zlen d' <= Z.max (zlen d) (zlen src).

(* Backend calls that do not raise do all the work; reads give all the bytes
   asked for also when a later write raises. *)
Definition complete (l : label) : Prop :=
  match l with
  | LWorker _ _ a => a_read a = None /\ (a_ok a = true -> a_written a = None)
  | _ => True
  end.

(* A label in which something raises. *)
Definition fails (l : label) : Prop :=
  match l with
  | LWorker _ _ a => a_ok a = false
  | LMainFail => True
  | LMain _ => False
  end.

(* A label without failures. *)
Definition fine (l : label) : Prop :=
  match l with
  | LWorker _ _ a => a_ok a = true
  | LMain _ => True
  | LMainFail => False
  end.

(* The requests among some actions. *)
Fixpoint requests (l : list action) : list request :=
  match l with
  | [] => []
  | Put r :: l => r :: requests l
  | Skip _ :: l => requests l
  end.

(* The copy is over. *)
Definition finished (s : st) : Prop := exists b, main s = MDone b.

(* Worker i is about to call a backend, or to close one. *)
Definition uses_backend (x : wstate) : Prop :=
  match x with
  | WNew | WZero _ | WCopy _ _ _ _ | WFlush | WClosing | WCancel => True
  | _ => False
  end.

(* In this step a backend call of a worker raises, or the main thread gets an
   exception while it adds the workers and goes over the extents. *)
Definition raises (l : label) (s : st) : Prop :=
  match l with
  | LWorker i _ a => a_ok a = false /\
      exists w, nth_error (workers s) i = Some w /\ uses_backend (w_state w)
  | LMainFail => True
  | LMain _ => False
  end.

(* The threads of a queue system that still have something to do are all
   waiting. *)
Definition stuck {A} (y : qsys A) : Prop :=
  (exists i o l, nth_error (y_threads y) i = Some (o :: l)) /\
  forall i k, qsys_step i k y = None.
