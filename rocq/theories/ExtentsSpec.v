(* Specification of extents, without the functions of ExtentsModel.v computing
   them. *)
From Coq Require Import ZArith List Bool String.
From Coq.Init Require Import Byte.
From Verif Require Import BytesLib NbdModel NbdSpec ExtentsModel.
Import ListNotations.
Open Scope Z_scope.

(* Number of bytes described. *)
Fixpoint total (l : list extent) : Z :=
  match l with [] => 0 | e :: r => e_length e + total r end.

(* The flags of byte i of the area described by l. *)
Inductive at_byte : list extent -> Z -> Z -> Prop :=
| at_head e r i : 0 <= i < e_length e -> at_byte (e :: r) i (e_flags e)
| at_tail e r i f : at_byte r i f -> at_byte (e :: r) (e_length e + i) f.

(* No two neighbours with the same flags. *)
Definition distinct_neighbours (l : list extent) : Prop :=
  forall l1 a b l2, l = l1 ++ a :: b :: l2 -> e_flags a <> e_flags b.

(* The flags a reply gives to byte i: those of base:allocation, and those of
   the dirty bitmap when asking for dirty extents, otherwise those of the
   allocation depth if the server reported it. *)
Definition reply_flags (dirty : bool) (bitmap : option string) (d : dict) (i f : Z) : Prop :=
  exists base a, assoc "base:allocation" d = Some base /\ at_byte base i a /\
  if dirty
  then exists name l b, bitmap = Some name /\ assoc name d = Some l /\ at_byte l i b /\ f = Z.lor a b
  else match assoc "qemu:allocation-depth" d with
       | Some l => exists b, at_byte l i b /\ f = Z.lor a b
       | None => f = a
       end.

(* The replies received during a run: offset and length asked, and result. *)
Inductive calls (v : env) (k : client) : st -> list (Z * Z * dict) -> st -> Prop :=
| no_calls s : calls v k s [] s
| one_call s o n d s1 tr s2 : NbdModel.extents v k o n s = (inl d, s1) -> calls v k s1 tr s2 ->
    calls v k s ((o, n, d) :: tr) s2.

(* Extents of an image: contiguous, not empty, from a to b. *)
Definition start_of (e : image_extent) := match e with ZeroExtent s _ _ _ | DirtyExtent s _ _ _ => s end.
Definition length_of (e : image_extent) := match e with ZeroExtent _ n _ _ | DirtyExtent _ n _ _ => n end.
Inductive tiles : Z -> Z -> list image_extent -> Prop :=
| tiles_end a : tiles a a []
| tiles_one a b e l : start_of e = a -> 0 < length_of e -> tiles (a + length_of e) b l -> tiles a b (e :: l).
(* The same kind. *)
Definition same_kind (e e' : image_extent) : Prop :=
  match e, e' with
  | ZeroExtent _ _ z h, ZeroExtent _ _ z' h' => z = z' /\ h = h'
  | DirtyExtent _ _ d z, DirtyExtent _ _ d' z' => d = d' /\ z = z'
  | _, _ => False
  end.
(* What an extent says with flags f of the server: bit 1 means reading zeros,
   bit 3 not allocated in the image, bit 2 dirty. *)
Definition says (e : image_extent) (f : Z) : Prop :=
  match e with
  | ZeroExtent _ _ z h => z = Z.testbit f 1 /\ h = Z.testbit f 3
  | DirtyExtent _ _ d z => d = Z.testbit f 2 /\ z = Z.testbit f 1
  end.

(* Everything a server sends in reply to the requests needed for the range
   [offset, stop), when the flags of byte i in context c are F c i, the first
   handle is h, and ctx is the second context used, if any. The server may
   answer with any number of extents (at least one byte), also more than
   asked for, and in the contexts differently. *)
Definition status_true (k : client) (F : string -> Z -> Z) (offset : Z) (c : chunk) : Prop :=
  match c with
  | CStatus id ds => forall name kind, k_meta k id = Some name -> kind_of k name kind ->
      forall i f, at_byte (extents_of kind ds) i f -> F name (offset + i) = f
  | _ => True
  end.
(* The chunks contain one chunk for the context, describing n bytes. *)
Definition reports (k : client) (cs : list chunk) (name : string) (n : Z) : Prop :=
  exists id ds kind, In (CStatus id ds) cs /\ k_meta k id = Some name /\ kind_of k name kind
  /\ (forall id' ds', In (CStatus id' ds') cs -> k_meta k id' = Some name -> ds' = ds)
  /\ total (extents_of kind ds) = n.
Inductive honest (k : client) (F : string -> Z -> Z) (ctx : option string) (stop : Z)
  : Z -> Z -> list byte -> Prop :=
| honest_end h offset : stop <= offset -> honest k F ctx stop h offset []
| honest_reply h offset cs l n n2 l' :
    offset < stop -> reply_bytes h cs l ->
    Forall (answers k (OExtents offset (Z.min (stop - offset) (2 ^ 31)))) cs ->
    Forall (status_true k F offset) cs ->
    reports k cs "base:allocation" n ->
    match ctx with
    | Some name => reports k cs name n2
    | None => n2 = n
    end ->
    (ctx = None ->
     forall id ds, In (CStatus id ds) cs -> k_meta k id <> Some "qemu:allocation-depth"%string) ->
    honest k F ctx stop (h + 1) (offset + Z.min n n2) l' ->
    honest k F ctx stop h offset (l ++ l').
Definition flags_of (F : string -> Z -> Z) (ctx : option string) (i : Z) : Z :=
  match ctx with
  | Some name => Z.lor (F "base:allocation"%string i) (F name i)
  | None => F "base:allocation"%string i
  end.
