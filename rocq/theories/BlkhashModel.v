(* Model of block based checksums: ovirt_imageio/_internal/blkhash.py, the
   checksum operation of handlers/checksum.py and is_zero of ioutil.c.

   The hash algorithm is a parameter: func maps a message to its digest.  A
   hashlib object is the list of bytes given to update() so far, and digest()
   is func of these bytes; this is the contract of hashlib.  hexdigest() is a
   printed form of digest() and is not modelled. *)
From Coq Require Import ZArith List Bool.
From Coq.Strings Require Import Byte.
From Verif Require Import BytesLib OpsModel.
Import ListNotations.
Open Scope Z_scope.

(* ---- is_zero, ioutil.c:91-137 ---- *)

(* ioutil.c:115-128, the loop over the first 16 bytes.  n is the number of
   iterations left, the list is the rest of the buffer, from p.  inl is the
   result when the function leaves the loop with goto, inr is the rest of the
   buffer after the loop. *)
Fixpoint first_bytes (n : nat) (p : list byte) : bool + list byte :=
  match n with
  | O => inr p
  | S n' =>
    match p with
    | [] => inl true                                            (* 116-119 *)
    | x :: p' =>
      if Byte.eqb x x00 then first_bytes n' p'                  (* 126-127 *)
      else inl false                                            (* 121-124 *)
    end
  end.

(* memcmp(a, b, n) == 0 where n = len(b) <= len(a), ioutil.c:131. *)
Fixpoint memcmp_eq (a b : list byte) {struct b} : bool :=
  match b with
  | [] => true
  | y :: b' =>
    match a with
    | x :: a' => Byte.eqb x y && memcmp_eq a' b'
    | [] => false
    end
  end.

(* ioutil.c:91-137, is_zero.  Parsing of the arguments is not modelled. *)
Definition is_zero (buf : list byte) : bool :=
  match first_bytes 16 buf with
  | inl res => res
  | inr p => memcmp_eq buf p
  end.

(* ---- Blocks ---- *)

(* extent.py:7, the fields of ZeroExtent used by split(). *)
Record ext := Ext { e_start : Z; e_length : Z; e_zero : bool }.

(* blkhash.py:115-125, Block. *)
Record block := Block { b_start : Z; b_length : Z; b_zero : bool }.

(* blkhash.py:127-140, Block.merge; the new values of self and other. *)
Definition merge (self other : block) (bs : Z) : block * block :=
  let stolen := Z.min (bs - b_length self) (b_length other) in
  let other := Block (b_start other + stolen) (b_length other - stolen) (b_zero other) in
  let self := Block (b_start self) (b_length self + stolen)
                    (b_zero self && b_zero other) in
  (self, other).

(* blkhash.py:142-153, Block.split: the new block and the new value of self.
   The assertion is the condition of the only caller's loop. *)
Definition split_block (self : block) (bs : Z) : block * block :=
  (Block (b_start self) bs (b_zero self),
   Block (b_start self + bs) (b_length self - bs) (b_zero self)).

(* blkhash.py:198-199, the loop yielding complete blocks: the yielded blocks
   and the rest.  None: out of fuel. *)
Fixpoint full_blocks (fuel : nat) (current : block) (bs : Z)
  : option (list block * block) :=
  match fuel with
  | O => None
  | S fuel' =>
    if bs <=? b_length current then
      let (b, rest) := split_block current bs in
      match full_blocks fuel' rest bs with
      | Some (l, rest) => Some (b :: l, rest)
      | None => None
      end
    else Some ([], current)
  end.

(* blkhash.py:185-203, the loop of split() with the yield after the loop
   (205-206).  The generator is modelled by the list of the yielded blocks. *)
Fixpoint split_loop (fuel : nat) (exts : list ext) (partial : option block) (bs : Z)
  : option (list block) :=
  match exts with
  | [] => Some (match partial with Some p => [p] | None => [] end)
  | e :: exts' =>
    let current := Block (e_start e) (e_length e) (e_zero e) in
    let rest (current : block) :=
      match full_blocks fuel current bs with
      | None => None
      | Some (l, c) =>
        let partial := if b_length c =? 0 then None else Some c in   (* 202-203 *)
        match split_loop fuel exts' partial bs with
        | Some l' => Some (l ++ l')
        | None => None
        end
      end in
    match partial with
    | None => rest current
    | Some p =>
      let (p, current) := merge p current bs in                      (* 190 *)
      if b_length p <? bs then split_loop fuel exts' (Some p) bs     (* 191-192 *)
      else
        match rest current with
        | Some l => Some (p :: l)                                    (* 194 *)
        | None => None
        end
    end
  end.

(* blkhash.py:160-206, split. *)
Definition split (fuel : nat) (exts : list ext) (bs : Z) : option (list block) :=
  split_loop fuel exts None bs.

Section Hash.

Variable func : list byte -> list byte.

(* blkhash.py:18-44, Hash: the bytes given to self._hash, _block_size and
   _zero_block_digest. *)
Record hash := Hash {
  h_input : list byte;
  h_block_size : Z;
  h_zero_digest : list byte
}.

(* blkhash.py:37-44, Hash.__init__. *)
Definition hash_new (bs : Z) : hash := Hash [] bs (func (zeros bs)).

(* blkhash.py:46-48, Hash.update. *)
Definition hash_update (h : hash) (data : list byte) : hash :=
  Hash (h_input h ++ func data) (h_block_size h) (h_zero_digest h).

(* blkhash.py:50-57, Hash.zero. *)
Definition hash_zero (h : hash) (count : Z) : hash :=
  if count =? h_block_size h then
    Hash (h_input h ++ h_zero_digest h) (h_block_size h) (h_zero_digest h)
  else
    Hash (h_input h ++ func (zeros count)) (h_block_size h) (h_zero_digest h).

(* blkhash.py:59-60, Hash.digest. *)
Definition hash_digest (h : hash) : list byte := func (h_input h).

(* ---- checksum.Operation ---- *)

(* Answers of the environment for one block. *)
(* For handlers/checksum.py:112-147: what extents() and readinto() give. *)
Record cans := CAns {
  ca_count : option Z;   (* backend.seek and readinto: None raises *)
  ca_cancel : bool       (* self._canceled when tested *)
}.

(* The local variables of handlers/checksum.py:112-147. *)
Record cst := CSt {
  c_buf : list byte;     (* content of self._buf *)
  c_done : Z;            (* self._done *)
  c_hash : hash;
  c_reads : list (Z * Z) (* position and length of the readinto calls *)
}.

(* checksum.py:127-141, the body of the loop in Operation._run for a block.
   The backend contract: seek(start) and readinto(view) store count bytes of
   the image found at start, 0 <= count <= len(view), never past the end of the
   image.  Blocks have a positive length, no larger than the buffer, so the
   slice [:length] needs only py_stop. *)
Definition run_block (img : list byte) (detect : bool) (b : block) (a : cans) (s : cst)
  : cst * option outcome :=
  let finish (s : cst) :=
    let s := CSt (c_buf s) (c_done s + b_length b) (c_hash s) (c_reads s) in  (* 138 *)
    (s, if ca_cancel a then Some Canceled else None) in              (* 140-141 *)
  if b_zero b then
    finish (CSt (c_buf s) (c_done s) (hash_zero (c_hash s) (b_length b)) (c_reads s))
  else
    let n := py_stop (b_length b) (zlen (c_buf s)) in                (* 130 *)
    let reads := c_reads s ++ [(b_start b, n)] in
    match ca_count a with
    | None => (CSt (c_buf s) (c_done s) (c_hash s) reads, Some Failed)
    | Some k =>
      let count := clamp 0 (Z.min n (zlen img - b_start b)) k in
      let buf := splice (c_buf s) 0 (sub (b_start b) count img) in   (* 131-132 *)
      let view := take n buf in
      let h :=
        if detect && is_zero view then hash_zero (c_hash s) (b_length b)
        else hash_update (c_hash s) view in                          (* 133-136 *)
      finish (CSt buf (c_done s) h reads)
    end.

(* checksum.py:126-141, the loop of Operation._run. *)
Fixpoint run_blocks (img : list byte) (detect : bool) (blocks : list block)
  (ans : list cans) (s : cst) : cst * outcome :=
  match blocks with
  | [] => (s, Success)
  | b :: blocks' =>
    match run_block img detect b (hd (CAns None false) ans) s with
    | (s, Some o) => (s, o)
    | (s, None) => run_blocks img detect blocks' (tl ans) s
    end
  end.

(* checksum.py:112-147, Operation._run, also reached by compute(), 150-155.
   exts is what backend.extents("zero") returns, an extents() call that fails
   is not modelled.  The algorithm and the digest size are part of func.  The
   result is the digest.  When the answers of the environment run out, the
   backend fails. *)
Definition run_checksum (fuel : nat) (img : list byte) (exts : list ext)
  (detect : bool) (buf : list byte) (ans : list cans)
  : option (cst * (list byte + outcome)) :=
  let bs := zlen buf in
  match split fuel exts bs with
  | None => None
  | Some blocks =>
    Some match run_blocks img detect blocks ans (CSt buf 0 (hash_new bs) []) with
         | (s, Success) => (s, inl (hash_digest (c_hash s)))
         | (s, o) => (s, inr o)
         end
  end.

(* ---- checksum of a file ---- *)

(* blkhash.py:108-112, _read_block.  pos is the position in the file, done the
   local pos; every readinto() returns at least one byte unless the position
   is the end of the file (blocking read of a regular file).  ans are the
   counts, an exhausted list means that the view is filled.  The result is the
   buffer, the file position and the unused answers. *)
Fixpoint read_block (fuel : nat) (img : list byte) (pos : Z) (length : Z)
  (buf : list byte) (done : Z) (ans : list Z)
  : option (list byte * Z * list Z) :=
  match fuel with
  | O => None
  | S fuel' =>
    if done <? length then
      let room := Z.min (zlen buf - done) (Z.max 0 (zlen img - pos)) in
      let k := clamp (Z.min 1 room) room (hd room ans) in
      read_block fuel' img (pos + k) length (splice buf done (sub pos k img))
                 (done + k) (tl ans)
    else Some (buf, pos, ans)
  end.

(* blkhash.py:87-93, the loop over the full blocks. *)
Fixpoint file_blocks (fuel : nat) (img : list byte) (detect : bool) (bs : Z)
  (length pos : Z) (buf : list byte) (h : hash) (ans : list Z)
  : option (Z * Z * list byte * hash * list Z) :=
  match fuel with
  | O => None
  | S fuel' =>
    if bs <=? length then
      match read_block fuel img pos bs buf 0 ans with
      | None => None
      | Some (buf, pos, ans) =>
        let h := if detect && is_zero buf then hash_zero h bs
                 else hash_update h buf in
        file_blocks fuel' img detect bs (length - bs) pos buf h ans
      end
    else Some (length, pos, buf, h, ans)
  end.

(* blkhash.py:66-105, checksum.  size is what os.path.getsize() returned, img
   the content found when the file is read.  Errors from the file system are
   not modelled. *)
Definition file_checksum (fuel : nat) (img : list byte) (size : Z) (detect : bool)
  (bs : Z) (ans : list Z) : option (list byte) :=
  match file_blocks fuel img detect bs size 0 (zeros bs) (hash_new bs) ans with
  | None => None
  | Some (length, pos, buf, h, ans) =>
    if length =? 0 then Some (hash_digest h)
    else
      let view := take (py_stop length (zlen buf)) buf in             (* 97 *)
      match read_block fuel img pos length view 0 ans with
      | None => None
      | Some (view, _, _) => Some (hash_digest (hash_update h view))  (* 98-99 *)
      end
  end.

End Hash.
