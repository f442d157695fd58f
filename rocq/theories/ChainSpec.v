(* What it means that the extents of a backend are right. *)
From Coq Require Import ZArith List Bool String.
From Coq.Strings Require Import Byte.
From Verif Require Import BytesLib ExtentsModel ExtentsSpec ChainModel.
From Verif Require NbdModel NbdSpec HttpBackendModel.
Import ListNotations.
Open Scope Z_scope.

(* An NBD server that serves [img] over a connection in state [s]: it answers
   requests for extents with the flags F (base:allocation, and the context [ctx]
   if any), and what it reports as zero reads as zeros.  The rest of the input
   are replies to later requests. *)
Definition nbd_serves (v : NbdModel.env) (k : NbdModel.client) (has_base dirty : bool)
  (s : NbdModel.st) (img : list byte) : Prop :=
  NbdModel.k_size k = zlen img /\ 0 < zlen img <= 2 ^ 64 /\
  (has_base = false -> dirty = false) /\
  (has_base = true ->
   NbdSpec.can_send v /\ NbdModel.k_structured k = true /\
   0 <= NbdModel.s_counter s /\ NbdModel.s_counter s + zlen img <= 2 ^ 64 /\
   exists F ctx l rest,
     (if dirty then ctx <> None /\ NbdModel.k_dirty k = ctx
      else ctx = None \/ ctx = Some "qemu:allocation-depth"%string) /\
     honest k F ctx (zlen img) (NbdModel.s_counter s) 0 l /\ NbdModel.s_in s = l ++ rest /\
     forall i, 0 <= i < zlen img -> Z.testbit (flags_of F ctx i) 1 = true -> getb img i = x00).

(* A server with images in files or block devices. *)
Definition file_backed (envs : nat -> HttpBackendModel.senv) : Prop :=
  forall i dirty img, HttpBackendModel.se_ext (envs i) dirty img = file_extents dirty img.

(* A server with an image of [total] bytes served to it by an NBD server; the
   extents asked for are the zero or the dirty ones. *)
Definition nbd_backed (dirty : bool) (total : Z) (envs : nat -> HttpBackendModel.senv) : Prop :=
  forall i img, zlen img = total -> exists v k has_base s,
    HttpBackendModel.se_ext (envs i) dirty img = nbd_extents v k has_base s dirty /\
    nbd_serves v k has_base dirty s img.
