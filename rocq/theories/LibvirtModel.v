(* examples/libvirt-stream: copying a libvirt volume, over ImageioClient of
   ApiModel. *)
From Coq Require Import ZArith List Bool.
From Verif Require Import BytesLib HttpBackendModel ApiModel.
Import ListNotations.
Open Scope Z_scope.

(* ---- the libvirt stream ---- *)

(* What a sparse stream of libvirt sends, examples/libvirt-stream:144-147. *)
Inductive segment :=
| SegData (d : list byte)
| SegHole (n : Z).

(* How a call of the stream goes, examples/libvirt-stream:99-114. *)
Inductive answer :=
| AGives (n : Z)    (* at most n bytes, but some *)
| ABlocks           (* -2 *)
| AFails.           (* libvirtError *)

(* How the programs fail: an exception of the client, RuntimeError in
   examples/libvirt-stream:104, 158, or libvirtError. *)
Inductive lexc :=
| LClient (e : cexc)
| LRuntime
| LLibvirt.

(* What recvFlags returns, examples/libvirt-stream:99-127. *)
Inductive received :=
| RBlock
| RHole
| RData (d : list byte).

(* libvirt's virStream.recvFlags(nbytes, VIR_STREAM_RECV_STOP_AT_HOLE), for
   examples/libvirt-stream:99-101: the data before the next hole or the end, at
   least one byte of it and at most nbytes. *)
Fixpoint recv (a : answer) (nbytes : Z) (s : list segment) : (received + lexc) * list segment :=
  match a with
  | AFails => (inr LLibvirt, s)
  | ABlocks => (inl RBlock, s)
  | AGives m =>
      match s with
      | [] => (inl (RData []), [])
      | SegHole _ :: _ => (inl RHole, s)
      | SegData [] :: s => recv a nbytes s
      | SegData d :: r =>
          let n := Z.max 1 (Z.min m (Z.min nbytes (zlen d))) in
          (inl (RData (take n d)), SegData (drop n d) :: r)
      end
  end.

(* libvirt's virStream.recvHole(), for examples/libvirt-stream:114. *)
Definition recv_hole (a : answer) (s : list segment) : (Z + lexc) * list segment :=
  match a, s with
  | AFails, _ => (inr LLibvirt, s)
  | _, SegHole n :: s => (inl n, s)
  | _, _ => (inl 0, s)
  end.

(* ---- frames ---- *)

(* What iter_frames yields, examples/libvirt-stream:89-91. *)
Definition vframe : Type := Z * Z * option (list byte).

(* examples/libvirt-stream:97-132, the loop of iter_frames: all frames that it
   yields, and how it ends.  [buf] are the first [length] bytes of the buffer;
   the k-th call of the stream goes as [answers] says.  Simplified: the frames
   are listed at once; the caller of the generator does not use the stream
   between them. *)
Fixpoint iter_loop (answers : nat -> answer) (size : Z) (fuel k : nat) (offset length : Z) (buf : list byte)
    (s : list segment) : list vframe * (unit + lexc) :=
  match fuel with
  | O => ([], inr LRuntime)
  | S fuel =>
      match recv (answers k) (size - length) s with                  (* 99-101 *)
      | (inr x, _) => ([], inr x)
      | (inl RBlock, _) => ([], inr LRuntime)                        (* 103-104 *)
      | (inl RHole, s) =>                                            (* 107 *)
          let '(out, offset, length) :=
            if length =? 0 then ([], offset, length)                 (* 108 *)
            else ([(offset, length, Some (take length buf))], offset + length, 0) in   (* 109-112 *)
          match recv_hole (answers (S k)) s with                     (* 114 *)
          | (inr x, _) => (out, inr x)
          | (inl n, s) =>
              let offset' := offset + length in                      (* 115 *)
              let (fs, r) := iter_loop answers size fuel (S (S k)) offset' length (take length buf) s in
              (out ++ (offset, n, None) :: fs, r)
          end
      | (inl (RData []), _) =>                                       (* 119-124 *)
          (if length =? 0 then [] else [(offset, length, Some (take length buf))], inl tt)
      | (inl (RData res), s) =>
          let buf := take length buf ++ res in                       (* 127 *)
          let length := length + zlen res in                         (* 128 *)
          if length =? size then                                     (* 129 *)
            let (fs, r) := iter_loop answers size fuel (S k) (offset + length) 0 [] s in
            ((offset, length, Some buf) :: fs, r)                    (* 130-132 *)
          else iter_loop answers size fuel (S k) offset length buf s
      end
  end.

(* No code: an iteration of examples/libvirt-stream:97-132 takes a byte or a
   hole. *)
Fixpoint steps (s : list segment) : nat :=
  match s with
  | [] => 0
  | SegData d :: s => (length d + steps s)%nat
  | SegHole _ :: s => S (steps s)
  end.

(* examples/libvirt-stream:77-132 iter_frames *)
Definition iter_frames (answers : nat -> answer) (size : Z) (s : list segment) : list vframe * (unit + lexc) :=
  iter_loop answers size (S (steps s)) 0 0 0 [] s.                   (* 93-95 *)

(* examples/libvirt-stream:77 *)
Definition buffer_size : Z := 4 * 1024 ^ 2.

Section Libvirt.
Context {W : Type}.
Variable server : W -> message -> option response * W.
Variable nets : nat -> net.
(* The environment of the k-th call of the client is nets k. *)

(* examples/libvirt-stream:164-169; also the sum of the updates of the
   progress. *)
Fixpoint copy_loop (k : nat) (fs : list vframe) (done : Z) (c : client W) : (unit + lexc) * Z * client W :=
  match fs with
  | [] => (inl tt, done, c)
  | (start, length, data) :: fs =>
      let (r, c) :=
        match data with
        | Some (b :: d) => cl_write server (nets k) start (b :: d) c (* 165-166 *)
        | _ => cl_zero server (nets k) start length c                (* 168 *)
        end in
      match r with
      | inr e => (inr (LClient e), done, c)
      | inl _ => copy_loop (S k) fs (done + length) c                (* 169 *)
      end
  end.

(* examples/libvirt-stream:150-179, inside of the with statement; src_size is
   vol.info()[1] *)
Definition copy_body (answers : nat -> answer) (src_size : Z) (s : list segment) (c : client W)
  : (unit + lexc) * Z * client W :=
  match cl_size server c with                                        (* 154 *)
  | (inr e, c) => (inr (LClient e), 0, c)
  | (inl dst_size, c) =>
      if dst_size <? src_size then (inr LRuntime, 0, c)              (* 157-158 *)
      else
        let (fs, end_) := iter_frames answers buffer_size s in
        let '(r, done, c) := copy_loop 0 fs 0 c in                   (* 164-169 *)
        match r, end_ with
        | inr x, _ | inl _, inr x => (inr x, done, c)
        | inl _, inl _ =>
            let '(r, done, c) :=
              if src_size <? dst_size then                           (* 173 *)
                match cl_zero server (nets (length fs)) src_size (dst_size - src_size) c with   (* 174-175 *)
                | (inr e, c) => (inr (LClient e), done, c)
                | (inl _, c) => (inl tt, done + (dst_size - src_size), c)                       (* 176 *)
                end
              else (inl tt, done, c) in
            match r with
            | inr x => (inr x, done, c)
            | inl _ =>
                match cl_flush server c with                         (* 179 *)
                | (inr e, c) => (inr (LClient e), done, c)
                | (inl _, c) => (inl tt, done, c)
                end
            end
        end
  end.

(* examples/libvirt-stream:148-181, with an open client.  [fails] is an error
   of closing the client, client/_api.py:439-449, and [unfinished] says that
   stream.finish() raises.  Simplified: connecting to libvirt and the drawing of
   the progress are not modelled. *)
Definition copy (answers : nat -> answer) (src_size : Z) (s : list segment) (fails : option cexc)
    (unfinished : bool) (c : client W) : (unit + lexc) * Z * client W :=
  let '(r, done, c) := copy_body answers src_size s c in
  let (x, c) := cl_close fails c in
  let r := match r, x with inl _, inr e => inr (LClient e) | _, _ => r end in
  (if unfinished then inr LLibvirt else r, done, c).                 (* 180-181 *)

End Libvirt.
