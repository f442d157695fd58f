(* Notions used by the statements about requests sharing one image
   (StorageTheorems). *)
From Coq Require Import ZArith List Bool.
From Verif Require Import BytesLib FileModel FileSpec OpsModel StorageModel.
Import ListNotations.
Open Scope Z_scope.

(* The range of bytes of a request. *)
Definition first_of (r : request) : Z :=
  match r with Get _ o _ _ => o | Put _ _ o _ _ _ => o | Zero o _ _ _ => o end.
Definition size_of (r : request) : Z :=
  match r with Get _ _ n _ => n | Put _ _ _ n _ _ => n | Zero _ n _ _ => n end.
Definition in_range (r : request) (i : Z) : Prop := first_of r <= i < first_of r + size_of r.

Definition reads_only (r : request) : Prop :=
  match r with Get _ _ _ _ => True | _ => False end.

(* A byte in the blocks of a request: the blocks of [bs] bytes that have a byte
   of the range, [lo, hi). *)
Definition lo_block (bs : Z) (r : request) : Z := bs * (first_of r / bs).
Definition hi_block (bs : Z) (r : request) : Z :=
  bs * ((first_of r + size_of r + bs - 1) / bs).

(* Two requests that do not disturb each other: they only read, or they have
   no block in common. *)
Definition apart (k1 k2 : connection) : Prop :=
  let (r1, r2) := (k_request k1, k_request k2) in
  (reads_only r1 /\ reads_only r2) \/
  hi_block (c_bs (k_cfg k1)) r1 <= lo_block (c_bs (k_cfg k2)) r2 \/
  hi_block (c_bs (k_cfg k2)) r2 <= lo_block (c_bs (k_cfg k1)) r1.

(* The request and its backend are valid for an image of [size] bytes: what is
   written is inside of the image with all its blocks; and the kernel does one
   block requests completely (FileSpec). *)
Record valid (size : Z) (k : connection) : Prop := {
  v_bs : pow2 (c_bs (k_cfg k));
  v_first : 0 <= first_of (k_request k);
  v_size : 0 <= size_of (k_request k);
  v_in : reads_only (k_request k) \/ hi_block (c_bs (k_cfg k)) (k_request k) <= size;
  v_dev : c_block (k_cfg k) = true -> size mod c_bs (k_cfg k) = 0;
  v_reads : whole_reads (k_cfg k);
  v_writes : whole_writes (k_cfg k);
  v_buf : match k_request k with
          | Put _ buflen _ _ _ _ => 0 < buflen
          | _ => True
          end
}.

(* Nothing goes wrong: the system calls work, reads give whole blocks, the
   connection works, nothing is cancelled, and the buffers have whole blocks. *)
Definition calm (size : Z) (k : connection) : Prop :=
  works (k_cfg k) /\ size_of (k_request k) < Z.of_nat (k_fuel k) /\
  match k_request k with
  | Get buf offset n o =>
      (forall i p l m, c_kernel (k_cfg k) i (CRead p l) = Done m -> 0 < m /\ m mod c_bs (k_cfg k) = 0) /\
      0 < zlen buf /\ zlen buf mod c_bs (k_cfg k) = 0 /\
      (0 < n \/ offset mod c_bs (k_cfg k) = 0) /\ offset + n <= size /\
      forall i, ra_send (o i) = None /\ ra_cancel (o i) = false
  | Put body buflen offset n flush o =>
      n <= zlen body /\ (offset mod c_bs (k_cfg k) = 0 \/ c_bs (k_cfg k) <= buflen) /\
      (forall i, exists m, wo_read o i = Some m /\ 0 < m) /\
      (forall i, wo_cancel o i = false) /\ wo_flush o = true
  | Zero offset n flush o =>
      (forall i, wo_cancel o i = false) /\ wo_flush o = true
  end.

(* All the pairs of different connections. *)
Definition all_apart (ks : list connection) : Prop :=
  forall i j k1 k2, i <> j -> nth_error ks i = Some k1 -> nth_error ks j = Some k2 -> apart k1 k2.

(* All the requests ended. *)
Definition all_done (ts : list thread) : Prop := Forall (fun t => result t <> None) ts.

(* What a request that succeeded must have done: [d] is the content when the
   requests started, [d'] when they ended. *)
Definition served (r : request) (d d' sent : list byte) : Prop :=
  match r with
  | Get _ offset size _ =>
      zlen sent = size /\ forall i, 0 <= i < size -> getb sent i = getb d (offset + i)
  | Put body _ offset size _ _ =>
      size <= zlen body /\
      forall i, 0 <= i < size -> getb d' (offset + i) = getb body i
  | Zero offset size _ _ =>
      forall i, 0 <= i < size -> getb d' (offset + i) = x00
  end.
