(* What the properties of nbdutil.copy mean. *)
From Coq Require Import ZArith List Bool.
From Coq.Strings Require Import Byte.
From Verif Require Import BytesLib NbdModel ExtentsSpec NbdCopyModel.
Import ListNotations.
Open Scope Z_scope.

(* The extents describe the source: they cover it, and what is reported as zero
   (bit 1 of the flags) reads as zeros. *)
Definition truthful (src : list byte) (l : list extent) : Prop :=
  Forall (fun e => 0 <= e_length e) l /\ total l = zlen src /\
  forall i f, at_byte l i f -> Z.testbit f 1 = true -> getb src i = x00.

(* No NBD client call raises. *)
Definition fine (l : label) : Prop :=
  match l with LReader ok => ok = true | LWriter ok _ => ok = true end.

(* In this step an NBD client call raises. *)
Definition raises (l : label) (s : st) : Prop :=
  match l with
  | LReader ok => ok = false /\
      match s_r s with RNext _ _ | RRead _ _ _ _ => True | _ => False end
  | LWriter ok _ => ok = false /\ match s_w s with WDo _ => True | _ => False end
  end.

(* copy() returned or raised. *)
Definition finished (s : st) : Prop := exists b, s_r s = RDone b.

(* What copy() is given: exports of the same size, a source with truthful
   extents, positive block size and depth. *)
Definition given (c : config) (d0 : list byte) : Prop :=
  (exists E, f_exts c = map Some E /\ truthful (f_src c) E) /\
  0 < f_buf c /\ (0 < f_depth c)%nat /\ zlen d0 = zlen (f_src c).

(* No thread can run, whatever the servers answer. *)
Definition stuck_state (c : config) (s : st) : Prop := forall l, step c l s = None.
