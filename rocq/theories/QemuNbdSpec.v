(* What is expected from running qemu-nbd, and from opening and closing. *)
From Coq Require Import ZArith List Bool String Lia.
From Coq.Strings Require Import Byte.
From Verif Require Import BytesLib QemuNbdModel.
Import ListNotations.
Open Scope Z_scope.

(* ---- what an image shows ---- *)

Section View.
(* Content of files, and of the disk in an image of some format: the bytes of
   the image, and whether its backing file is ignored. *)
Variable fs : string -> list byte.
Variable decode : string -> list byte -> bool -> list byte.

Definition range (offset size : option Z) (b : list byte) : list byte :=
  let o := match offset with Some o => o | None => 0 end in
  sub o (match size with Some n => n | None => zlen b - o end) b.

(* Meaning of block nodes in QEMU. *)
Fixpoint view (n : node) : list byte :=
  match n with
  | NProtocol _ f => fs f
  | NRange n o s => range o s (view n)
  | NFormat f n nb => if String.eqb f "raw" then view n else decode f (view n) nb
  end.

(* The disk the caller wants to see: the one in the image of format [fmt] that
   is stored in a part of a file, without the backing file if not [chain]. *)
Definition wanted (image fmt : string) (offset size : option Z) (chain : bool) : list byte :=
  let bytes := match offset, size with
               | None, None => fs image
               | _, _ => range offset size (fs image)
               end in
  if String.eqb fmt "raw" then bytes
  else decode fmt bytes (String.eqb fmt "qcow2" && negb chain).
End View.

(* ---- what is held ---- *)

Definition count (f : call * answer -> bool) (l : list (call * answer)) : Z :=
  fold_right (fun x n => (if f x then 1 else 0) + n) 0 l.

(* Processes started and not reaped. *)
Definition processes (l : list (call * answer)) : Z :=
  count (fun x => match x with (CPopen _, AOk) => true | _ => false end) l -
  count (fun x => match x with (CReap _, AOk) => true | _ => false end) l.
(* Temporary directories, connections to the server. *)
Definition directories (l : list (call * answer)) : Z :=
  count (fun x => match x with (CMkdtemp, AOk) => true | _ => false end) l -
  count (fun x => match x with (CRmtree, AOk) => true | _ => false end) l.
Definition connections (l : list (call * answer)) : Z :=
  count (fun x => match x with (COpenHttp _, AOk) => true | _ => false end) l -
  count (fun x => match x with (CCloseHttp, _) => true | _ => false end) l.

(* The environment in which nothing is left behind: connecting fails only
   because the socket is not there yet, waiting for the process fails only by
   timeout and never after killing it, and directories can be removed. *)
Definition polite (x : call * answer) : Prop :=
  match x with
  | (CConnect, a) => a = AOk \/ a = ARefused
  | (CReap false, a) => a = AOk \/ a = ATimeout
  | (CReap true, a) => a = AOk
  | (CRmtree, a) => a = AOk
  | _ => True
  end.

Definition worked (l : list (call * answer)) : Prop := exists a, In (CWork, a) l.
Definition initial : st := St 0 0 [] false.

(* A clock: it does not go back, and sleeping takes at least the time asked
   for.  [l] is the calls between two readings. *)
Definition slept (l : list (call * answer)) : Z :=
  fold_right (fun x n => (match x with (CSleep t, _) => t | _ => 0 end) + n) 0 l.
Definition attempts (l : list (call * answer)) : Z :=
  count (fun x => match x with (CConnect, _) => true | _ => false end) l.

(* The clock of [e] when wait_for_socket starts at reading [k] and sleeps
   min(step, deadline - now) after each reading that is before the deadline. *)
Definition clock_ok (e : env) (k : nat) (timeout step : Z) : Prop :=
  e_now e k <= e_now e (S k) /\
  forall i, (k < i)%nat -> e_now e i < e_now e k + timeout ->
    e_now e i + Z.min step (e_now e k + timeout - e_now e i) <= e_now e (S i).

(* ---- operations ---- *)

Inductive operation :=
| Upload (filename : string) (proxy : bool) (max_writers max_workers : Z) (info : image_info) (chain : bool)
| Download (filename fmt : string) (incremental proxy : bool) (max_readers max_workers : Z)
| Local (filename : string) (info : image_info) (bitmap : option string).

Definition perform (e : env) (fuel : nat) (o : operation) : M (option unit) :=
  match o with
  | Upload f p mr mw i c => upload e fuel f p mr mw i c
  | Download f fmt inc p mr mw => download e fuel f fmt inc p mr mw
  | Local f i b => local e fuel f i b
  end.
Definition result (e : env) (fuel : nat) (o : operation) := fst (perform e fuel o initial).
(* The calls, newest first. *)
Definition calls (e : env) (fuel : nat) (o : operation) := s_log (snd (perform e fuel o initial)).

Definition has_proxy (o : operation) : bool :=
  match o with Upload _ p _ _ _ _ | Download _ _ _ p _ _ => p | Local _ _ _ => false end.
Definition writes (o : operation) : bool := match o with Download _ _ _ _ _ _ => true | _ => false end.
(* The disk of an operation. *)
Definition disk (fs : string -> list byte) (decode : string -> list byte -> bool -> list byte) (o : operation) : list byte :=
  match o with
  | Upload f _ _ _ i c => wanted fs decode f (i_format i) (i_offset i) (i_size i) c
  | Download f fmt _ _ _ _ => wanted fs decode f fmt None None true
  | Local f i _ => wanted fs decode f (i_format i) (i_offset i) (i_size i) true
  end.
(* Operations on a whole file; on a part of a file only raw, or qcow2 with its
   backing file. *)
Definition supported (o : operation) : Prop :=
  let ok i c := (i_offset i = None /\ i_size i = None) \/ i_format i = "raw"%string \/
                (i_format i = "qcow2"%string /\ c = true) in
  match o with Upload _ _ _ _ i c => ok i c | Local _ i _ => ok i true | Download _ _ _ _ _ _ => True end.
Definition clients (o : operation) : Z :=
  match o with
  | Upload _ _ mr mw _ _ => Z.min mr mw + 1
  | Download _ _ _ _ mr mw => Z.min mr mw
  | Local _ _ _ => 1
  end.

(* The process is given 10 seconds; a clock for it. *)
Definition good_clock (e : env) : Prop := forall k, clock_ok e k 10000 STEP.

(* The image file and format of an operation; whether its backing files are
   ignored; the bitmap shown. *)
Definition file_of (o : operation) : string := match o with Upload f _ _ _ _ _ | Download f _ _ _ _ _ | Local f _ _ => f end.
Definition format_of (o : operation) : string :=
  match o with Upload _ _ _ _ i _ | Local _ i _ => i_format i | Download _ fmt _ _ _ _ => fmt end.
Definition alone (o : operation) : bool := match o with Upload _ _ _ _ _ c => negb c | _ => false end.
Definition bitmap_of (o : operation) : option string := match o with Local _ _ b => b | _ => None end.
(* qemu-nbd 5.2.0 or newer. *)
Definition recent (version : list Z) : Prop :=
  exists a b c, version = [a; b; c] /\ (5 < a \/ (a = 5 /\ 2 < b) \/ (a = 5 /\ b = 2 /\ 0 <= c)).
(* How the file of an image is accessed. *)
Inductive reads_file (driver file : string) : node -> Prop :=
| reads_protocol : reads_file driver file (NProtocol driver file)
| reads_range n o s : reads_file driver file n -> reads_file driver file (NRange n o s)
| reads_format f n b : reads_file driver file n -> reads_file driver file (NFormat f n b).
