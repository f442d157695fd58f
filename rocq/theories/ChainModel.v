(* Where the extents of Transfer and Checksum come from: the backends.
   Paths are relative to /repo/ovirt_imageio/_internal. *)
From Coq Require Import ZArith List Bool.
From Coq.Strings Require Import Byte.
From Verif Require Import BytesLib ExtentsModel BlkhashModel.
From Verif Require NbdModel.
Import ListNotations.
Open Scope Z_scope.

(* backends/file.py:149-156 extents of a file or block device; None is
   UnsupportedOperation. *)
Definition file_extents (dirty : bool) (img : list byte) : option (list image_extent) :=
  if dirty then None                                                    (* 150-153 *)
  else Some [ZeroExtent 0 (zlen img) false false].                      (* 156 *)

(* backends/memory.py:146-151 extents of the memory backend, created without
   the extents option; None is UnsupportedOperation. *)
Definition memory_extents (dirty : bool) (img : list byte) : option (list image_extent) :=
  if dirty then None                                                    (* 153-156 *)
  else Some [ZeroExtent 0 (zlen img) false false].                      (* 149-151 *)

(* handlers/extents.py:44-49, ../client/_io.py:79, 111: all extents of the NBD backend
   in state [s]; None is any exception (the handler answers 404 for
   UnsupportedOperation and 500 for others, simplified). *)
Definition nbd_extents (v : NbdModel.env) (k : NbdModel.client) (has_base : bool) (s : NbdModel.st)
  (dirty : bool) : option (list image_extent) :=
  match backend_extents v k has_base (if dirty then QDirty else QZero) s with
  | (out, inl _, _) => Some out
  | _ => None
  end.

(* blkhash.py:185-186 split uses the start, length and zero of an extent,
   given by handlers/checksum.py:126 (for ../client/_api.py:262-263 as well). *)
Definition ext_of (e : image_extent) : ext :=
  match e with
  | ZeroExtent start length zero _ => Ext start length zero
  | DirtyExtent start length _ zero => Ext start length zero
  end.
