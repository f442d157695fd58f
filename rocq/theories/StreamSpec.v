(* The format of sparse streams, as documented in examples/sparse-stream, and
   what backup and restore are. *)
From Coq Require Import ZArith List Bool String.
From Verif Require Import BytesLib OpsTheorems ExtentsModel ExtentsSpec ClientIoSpec HttpBackendModel TransferSpec.
Import ListNotations.
Open Scope Z_scope.

(* ---- the format ---- *)

Definition text (s : string) : list byte := list_byte_of_string s.
Definition CRLF : list byte := [x0d; x0a].

(* A number of 64 bits as 16 hexadecimal digits. *)
Definition nibble (n : Z) : byte := nth (Z.to_nat n) (text "0123456789abcdef") x00.
Definition number (n : Z) : list byte :=
  map (fun i => nibble (n / 16 ^ (15 - Z.of_nat i) mod 16)) (seq 0 16).
Definition small (n : Z) : Prop := 0 <= n < 2 ^ 64.

Definition header (kind : string) (start length : Z) : list byte :=
  text kind ++ text " " ++ number start ++ text " " ++ number length ++ CRLF.

(* The first field of a header. *)
Definition is_kind (kind : string) : Prop := zlen (text kind) = 4 /\ ~ In x20 (text kind).

Inductive frame :=
| FData (start : Z) (data : list byte)
| FZero (start length : Z).

Definition frame_bytes (f : frame) : list byte :=
  match f with
  | FData start data => header "data" start (zlen data) ++ data ++ CRLF
  | FZero start length => header "zero" start length
  end.

Definition stream_of (meta : list byte) (fs : list frame) : list byte :=
  header "meta" 0 (zlen meta) ++ meta ++ CRLF ++ flat_map frame_bytes fs ++ header "stop" 0 0.

Definition fstart (f : frame) : Z := match f with FData a _ | FZero a _ => a end.
Definition flength (f : frame) : Z := match f with FData _ d => zlen d | FZero _ n => n end.
Definition valid (f : frame) : Prop := small (fstart f) /\ small (flength f).

(* The number of bytes in data frames. *)
Fixpoint data_bytes (fs : list frame) : Z :=
  match fs with
  | [] => 0
  | FData _ d :: fs => zlen d + data_bytes fs
  | FZero _ _ :: fs => data_bytes fs
  end.

(* ---- restore ---- *)

(* What the frames do to an image, one after the other. *)
Definition written (f : frame) (img img' : list byte) : Prop :=
  match f with
  | FData start data => replaced img img' start (zlen data) (getb data)
  | FZero start length => replaced img img' start length (fun _ => x00)
  end.
Fixpoint restored (fs : list frame) (img img' : list byte) : Prop :=
  match fs with
  | [] => img' = img
  | f :: fs => exists img1, written f img img1 /\ restored fs img1 img'
  end.

(* Byte i is in the range of the frame. *)
Definition inside (f : frame) (i : Z) : Prop := fstart f <= i < fstart f + flength f.

(* ---- backup ---- *)

(* The extent is reported as zero. *)
Definition extent_zero (e : image_extent) : bool :=
  match e with ZeroExtent _ _ z _ => z | DirtyExtent _ _ _ z => z end.

(* The frame has the bytes of the image in the extent; zeros are not sent. *)
Definition frame_of (img : list byte) (e : image_extent) (f : frame) : Prop :=
  fstart f = start_of e /\ flength f = length_of e /\
  match f with
  | FData start data => extent_zero e = false /\ is_range img start (zlen data) data
  | FZero start length => extent_zero e = true /\ forall i, start <= i < start + length -> getb img i = x00
  end.

(* Is the extent part of the backup? *)
Definition wanted (e : image_extent) : bool :=
  match e with
  | ZeroExtent _ _ _ _ => true
  | DirtyExtent _ _ dirty _ => dirty
  end.

(* Every change since the base is reported as dirty. *)
Definition tracked (envs : nat -> senv) (img base : list byte) : Prop :=
  forall i l e, se_ext (envs i) true img = Some l -> In e l -> wanted e = false ->
  forall j, within e j -> getb base j = getb img j.

(* A client that did not ask for extents yet is TransferSpec.fresh; writing to
   standard output takes all the data. *)
Definition takes_all (total : Z) (nets : nat -> net) : Prop :=
  forall k i, exists c, n_dst (nets k) i = Some c /\ total <= c.
