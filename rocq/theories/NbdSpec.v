(* The NBD protocol messages, as relations between values and bytes,
   independent of the code of the client. *)
From Coq Require Import ZArith List Bool String.
From Coq.Init Require Import Byte.
From Verif Require Import BytesLib NbdModel.
Import ListNotations.
Open Scope Z_scope.

(* The number denoted by big endian bytes. *)
Fixpoint value (l : list byte) : Z :=
  match l with
  | [] => 0
  | b :: r => Z.of_N (Byte.to_N b) * 256 ^ zlen r + value r
  end.
(* l is the unsigned number x in n bytes. *)
Definition u (n : Z) (x : Z) (l : list byte) : Prop := zlen l = n /\ value l = x.

(* C: 32 bits magic, 16 bits flags, 16 bits type, 64 bits handle, 64 bits
   offset, 32 bits length *)
Definition request_bytes (flags type handle offset length : Z) (l : list byte) : Prop :=
  exists a b c d e f,
    l = a ++ b ++ c ++ d ++ e ++ f
    /\ u 4 0x25609513 a /\ u 2 flags b /\ u 2 type c /\ u 8 handle d
    /\ u 8 offset e /\ u 4 length f.

(* Chunks of a structured reply. *)
Inductive chunk :=
| CNone
| CData (offset : Z) (data : list byte)
| CHole (offset size : Z)
| CStatus (id : Z) (descs : list (Z * Z))        (* length, flags *)
| CError (code : Z) (msg : list byte)
| CErrorOffset (code : Z) (msg : list byte) (offset : Z).

Inductive descs_bytes : list (Z * Z) -> list byte -> Prop :=
| no_descs : descs_bytes [] []
| one_desc n f a b l r : u 4 n a -> u 4 f b -> descs_bytes r l ->
    descs_bytes ((n, f) :: r) (a ++ b ++ l).

Inductive payload_bytes : chunk -> Z -> list byte -> Prop :=
| p_none : payload_bytes CNone 0 []
| p_data o d a : u 8 o a -> payload_bytes (CData o d) 1 (a ++ d)
| p_hole o n a b : u 8 o a -> u 4 n b -> payload_bytes (CHole o n) 2 (a ++ b)
| p_status i ds a l : u 4 i a -> descs_bytes ds l -> payload_bytes (CStatus i ds) 5 (a ++ l)
| p_error c m a b : u 4 c a -> u 2 (zlen m) b -> payload_bytes (CError c m) 32769 (a ++ b ++ m)
| p_error_offset c m o a b e : u 4 c a -> u 2 (zlen m) b -> u 8 o e ->
    payload_bytes (CErrorOffset c m o) 32770 (a ++ b ++ m ++ e).

(* S: 32 bits magic, 16 bits flags (bit 0: last chunk), 16 bits type, 64 bits
   handle, 32 bits length of payload, payload *)
Definition chunk_bytes (handle : Z) (done : bool) (c : chunk) (l : list byte) : Prop :=
  exists a b ty d e f x fl,
    l = a ++ b ++ f ++ d ++ e ++ x
    /\ u 4 0x668e33ef a /\ u 2 fl b /\ Z.odd fl = done /\ u 2 ty f /\ u 8 handle d
    /\ u 4 (zlen x) e /\ payload_bytes c ty x.

(* A structured reply: chunks, the last one marked. *)
Inductive reply_bytes (handle : Z) : list chunk -> list byte -> Prop :=
| last_chunk c l : chunk_bytes handle true c l -> reply_bytes handle [c] l
| more_chunks c l cs l' : c <> CNone -> (forall x m, c <> CError x m) ->
    chunk_bytes handle false c l -> reply_bytes handle cs l' ->
    reply_bytes handle (c :: cs) (l ++ l').

(* A simple reply: 32 bits magic, 32 bits error, 64 bits handle, data. *)
Definition simple_bytes (error handle : Z) (data : list byte) (l : list byte) : Prop :=
  exists a b c, l = a ++ b ++ c ++ data
    /\ u 4 0x67446698 a /\ u 4 error b /\ u 8 handle c.

(* Chunk c is a true answer about the part [offset, offset + n) of img, and not
   an error. *)
Definition truthful (img : list byte) (offset n : Z) (c : chunk) : Prop :=
  match c with
  | CData o d => offset <= o /\ o + zlen d <= offset + n
                 /\ forall i, 0 <= i < zlen d -> getb d i = getb img (o + i)
  | CHole o m => 0 < m /\ offset <= o /\ o + m <= offset + n
                 /\ forall i, 0 <= i < m -> getb img (o + i) = x00
  | CNone => True
  | _ => False
  end.
Definition covers (c : chunk) (i : Z) : Prop :=
  match c with
  | CData o d => o <= i < o + zlen d
  | CHole o m => o <= i < o + m
  | _ => False
  end.

(* An error a server may report: no code is 0, the codes of the protocol
   are far below 2^31. *)
Definition is_error (c : chunk) : Prop :=
  match c with
  | CError code _ | CErrorOffset code _ _ => 0 < code < 2 ^ 31
  | _ => False
  end.

(* The extents a list of descriptors stands for in a context. *)
Definition flags_in (c : context) (f : Z) : Z :=
  match c with
  | ALLOC => (if Z.testbit f 0 then 1 else 0) + (if Z.testbit f 1 then 2 else 0)
  | DIRTY => if Z.testbit f 0 then 4 else 0
  | DEPTH => if f =? 0 then 8 else 0
  end.
Definition extents_of (c : context) (ds : list (Z * Z)) : list extent :=
  map (fun d => Extent (fst d) (flags_in c (snd d))) ds.

(* The kind of a context, by its name. *)
Definition kind_of (k : client) (name : string) (c : context) : Prop :=
  match c with
  | DIRTY => k_dirty k = Some name
  | DEPTH => k_dirty k <> Some name /\ name = "qemu:allocation-depth"%string
  | ALLOC => k_dirty k <> Some name /\ name <> "qemu:allocation-depth"%string
  end.

(* Nothing wrong with sending. *)
Definition can_send (v : env) : Prop := forall i, v_send v i = None.

(* The operations of the client. *)
Inductive op :=
| ORead (offset : Z) (buf : list byte)
| OWrite (offset : Z) (data : list byte)
| OZero (offset length : Z) (punch_hole : bool)
| OFlush
| OExtents (offset length : Z).
Definition do_op (v : env) (k : client) (o : op) : M unit :=
  match o with
  | ORead a b => readinto v k a b
  | OWrite a b => write v k a b
  | OZero a b p => zero v k a b p
  | OFlush => flush v k
  | OExtents a b => fun s => let '(r, s') := extents v k a b s in
                             (match r with inl _ => inl tt | inr e => inr e end, s')
  end.
Definition run_ops (v : env) (k : client) (l : list op) (s : st) : st :=
  fold_left (fun s o => snd (do_op v k o s)) l s.

(* What the protocol demands to be sent for an operation: flags, type,
   offset, length and data; nothing when the server did not announce support. *)
Definition demanded (k : client) (o : op) : option (Z * Z * Z * Z * list byte) :=
  match o with
  | ORead a b => Some (0, 0, a, zlen b, [])
  | OWrite a b => Some (0, 1, a, zlen b, b)
  | OZero a b p => if Z.testbit (k_tflags k) 6
                   then Some (if p then 0 else 2, 6, a, b, []) else None
  | OFlush => if Z.testbit (k_tflags k) 2 then Some (0, 3, 0, 0, []) else None
  | OExtents a b => Some (0, 7, a, b, [])
  end.
(* The fields fit in the message. *)
Definition fits (o : op) : Prop :=
  match o with
  | ORead a b => 0 <= a < 2 ^ 64 /\ zlen b < 2 ^ 32
  | OWrite a b => 0 <= a < 2 ^ 64 /\ zlen b < 2 ^ 32
  | OZero a b _ => 0 <= a < 2 ^ 64 /\ 0 <= b < 2 ^ 32
  | OFlush => True
  | OExtents a b => 0 <= a < 2 ^ 64 /\ 0 <= b < 2 ^ 32
  end.
(* The bytes demanded for a list of operations, the first handle being h. *)
Inductive all_sent (k : client) : Z -> list op -> Z -> list byte -> Prop :=
| sent_nothing h : all_sent k h [] h []
| sent_skip h o l h' d : demanded k o = None -> all_sent k h l h' d -> all_sent k h (o :: l) h' d
| sent_one h o l h' fl ty off len data b d :
    demanded k o = Some (fl, ty, off, len, data) ->
    request_bytes fl ty h off len b -> all_sent k (h + 1) l h' d ->
    all_sent k h (o :: l) h' (b ++ data ++ d).

(* A chunk that fits as (a part of) an answer to an operation. *)
Definition answers (k : client) (o : op) (c : chunk) : Prop :=
  match c, o with
  | CNone, _ => True
  | CData p d, ORead a b => a <= p /\ p + zlen d <= a + zlen b
  | CHole p n, ORead a b => 0 < n /\ a <= p /\ p + n <= a + zlen b
  | CStatus i ds, OExtents a b =>
      k_meta k i <> None /\ ds <> [] /\ zlen ds <= (2 ^ 32 - 1) / 4096 /\ k_minblock k <> 0
      /\ Forall (fun d => fst d <> 0 /\ fst d mod k_minblock k = 0) ds
  | _, _ => False
  end.

(* The value of a key in a dictionary. *)
Fixpoint assoc {A} (name : string) (l : list (string * A)) : option A :=
  match l with
  | [] => None
  | (n, x) :: r => if String.eqb n name then Some x else assoc name r
  end.
