(* What is expected from ImageioClient: the image as an array of bytes. *)
From Coq Require Import ZArith List Bool.
From Verif Require Import BytesLib HttpModel OpsModel OpsTheorems ImagesModel ImagesSpec HttpBackendModel
  HttpBackendSpec ApiModel.
Import ListNotations.
Open Scope Z_scope.

Inductive acall :=
| ARead (offset : Z) (buf : list byte)
| AWrite (offset : Z) (buf : list byte)
| AZero (offset length : Z)
| AReadFrom (src : list byte) (offset length : Z)
| AWriteTo (offset length : Z)
| ASize
| AFlush
| AClose (fails : option cexc).

(* The range of a call, as documented. *)
Definition range_of (a : acall) : option (Z * Z) :=
  match a with
  | ARead offset buf | AWrite offset buf => Some (offset, zlen buf)
  | AZero offset length | AReadFrom _ offset length | AWriteTo offset length => Some (offset, length)
  | _ => None
  end.

(* The value of a call (0 for None) or its exception, and bytes as in
   HttpBackendSpec. *)
Definition run_api {W} (server : W -> message -> option response * W) (o : net) (a : acall) (c : client W)
  : outcome * client W :=
  match a with
  | ARead offset buf => let '(r, b, c) := cl_read server o offset buf c in (Out r b, c)
  | AWrite offset buf => let '(r, c) := cl_write server o offset buf c in (Out r [], c)
  | AZero offset n => let '(r, c) := cl_zero server o offset n c in (Out r [], c)
  | AReadFrom src offset n => let '(r, b, c) := cl_read_from server o src offset n c in (Out r b, c)
  | AWriteTo offset n => let '(r, b, c) := cl_write_to server o offset n c in (Out r b, c)
  | ASize => let '(r, c) := cl_size server c in (Out r [], c)
  | AFlush => let '(r, c) := cl_flush server c in (Out r [], c)
  | AClose f => let '(r, c) := cl_close f c in
                (Out (match r with inl _ => inl 0 | inr e => inr e end) [], c)
  end.

Fixpoint run_apis {W} (server : W -> message -> option response * W) (nets : nat -> net)
  (i : nat) (l : list acall) (c : client W) : list outcome * client W :=
  match l with
  | [] => ([], c)
  | a :: l =>
      let (r, c) := run_api server (nets i) a c in
      let (rs, c) := run_apis server nets (S i) l c in (r :: rs, c)
  end.

Definition ok (r : outcome) : Prop := exists n, o_result r = inl n.

(* A part of the range [offset, offset + n) was replaced. *)
Definition partly (img img' : list byte) (offset n : Z) (f : Z -> byte) : Prop :=
  exists k, 0 <= k <= Z.max 0 n /\ replaced img img' offset k f.

(* What a call does to an array.  Calls have no position: each says its
   offset.  A call changes nothing outside of its range, and nothing at all if
   the range is not inside of the image; such a call does not succeed. *)
Definition api_call (o : net) (a : acall) (img : list byte) (r : outcome) (img' : list byte) : Prop :=
  match a with
  | ARead offset buf =>
      img' = img /\
      (ok r -> o_result r = inl (zlen buf) /\ is_range img offset (zlen buf) (o_bytes r))
  | AWrite offset buf =>
      partly img img' offset (zlen buf) (getb buf) /\
      (ok r -> replaced img img' offset (zlen buf) (getb buf))
  | AZero offset n =>
      partly img img' offset n (fun _ => x00) /\
      (ok r -> replaced img img' offset n (fun _ => x00))
  | AReadFrom src offset n =>
      partly img img' offset n (getb src) /\
      (ok r -> n <= zlen src /\ o_bytes r = drop n src /\ replaced img img' offset n (getb src))
  | AWriteTo offset n =>
      img' = img /\
      (ok r -> (forall i, exists c, n_dst o i = Some c /\ n <= c) -> is_range img offset n (o_bytes r))
  | ASize => img' = img /\ (ok r -> o_result r = inl (zlen img))
  | AFlush | AClose _ => img' = img
  end /\
  (forall offset n, range_of a = Some (offset, n) -> 0 < n -> ~ (0 <= offset /\ offset + n <= zlen img) ->
     ~ ok r /\ img' = img).

Fixpoint api_calls (nets : nat -> net) (i : nat) (l : list acall) (img : list byte) (rs : list outcome)
  (img' : list byte) : Prop :=
  match l, rs with
  | [], [] => img' = img
  | a :: l, r :: rs =>
      exists img1, api_call (nets i) a img r img1 /\ api_calls nets (S i) l img1 rs img'
  | _, _ => False
  end.

(* Calls that ask the server for data or changes. *)
Definition does_io (a : acall) : bool :=
  match a with
  | ARead _ buf => negb (zlen buf =? 0)
  | AWrite _ _ | AZero _ _ | AReadFrom _ _ _ | AWriteTo _ _ => true
  | _ => false
  end.
