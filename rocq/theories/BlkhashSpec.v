(* What the checksum properties mean, independent of the code. *)
From Coq Require Import ZArith List Bool.
From Coq.Strings Require Import Byte.
From Verif Require Import BytesLib BlkhashModel.
Import ListNotations.
Open Scope Z_scope.

(* The extents cover [from, to) without gaps or overlaps. *)
Inductive tile : Z -> list ext -> Z -> Prop :=
| tile_nil : forall a, tile a [] a
| tile_cons : forall a e l b,
    e_start e = a -> 0 < e_length e -> tile (a + e_length e) l b ->
    tile a (e :: l) b.

(* Some extent reports the byte at i as zero. *)
Definition zero_at (exts : list ext) (i : Z) : Prop :=
  exists e, In e exts /\ e_zero e = true /\ e_start e <= i < e_start e + e_length e.

(* What is reported as zero is zero. *)
Definition truthful (img : list byte) (exts : list ext) : Prop :=
  forall i, zero_at exts i -> getb img i = x00.

(* The number of blocks of an image of n bytes. *)
Definition block_count (bs n : Z) : nat := Z.to_nat ((n + bs - 1) / bs).

(* The blocks of an image: block_size bytes each, the last one may be
   shorter. *)
Definition image_blocks (bs : Z) (img : list byte) : list (list byte) :=
  map (fun i => sub (Z.of_nat i * bs) bs img) (seq 0 (block_count bs (zlen img))).

(* The block based checksum: the digest of the digests of the blocks. *)
Definition checksum_of (func : list byte -> list byte) (bs : Z) (img : list byte)
  : list byte :=
  func (concat (map func (image_blocks bs img))).
