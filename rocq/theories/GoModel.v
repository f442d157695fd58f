(* The Go program /repo/go/ovirt-img: its NBD backend (nbd/nbd.go), the extents
   of /repo/go/imageio/extent.go and the map command (map.go).

   libnbd is an oracle: what its calls return.  Not modelled: the command line
   and profiling (main.go), finding the backend for an address (backend.go). *)
From Coq Require Import ZArith List Bool Ascii String.
From Verif Require Import BytesLib HeaderModel HttpModel ImagesModel HttpBackendModel.
Import ListNotations.
Open Scope Z_scope.

(* Go's conversions and arithmetic of uint64, for nbd.go:116-130, 171-181. *)
Definition u64 (n : Z) : Z := n mod 2 ^ 64.
(* Go's conversion to uint32, for nbd.go:128. *)
Definition u32 (n : Z) : Z := n mod 2 ^ 32.

(* nbd.go:15-19, units.go:7-11 *)
Definition maxExtent : Z := 1024 * 1024 * 1024.

(* nbd.go:195-200 min *)
Definition min (a b : Z) : Z := if a <? b then a else b.

(* extent.go:7-17 *)
Record extent := Extent { e_start : Z; e_length : Z; e_zero : bool }.

(* How a call of nbd.go:99-163 ends. *)
Inductive result (A : Type) :=
| Returns (a : A)
| Fails (errno : Z)   (* a libnbd error *)
| Panics              (* an index out of range *)
| Loops.              (* not finished after the given number of rounds *)
Arguments Returns {A}. Arguments Fails {A}. Arguments Panics {A}. Arguments Loops {A}.

(* ---- extents ---- *)

(* libnbd's BlockStatus, called in nbd.go:153: the calls of the callback with
   (metacontext == "base:allocation", entries, *error), and its error. *)
Record status := Status { s_calls : list (bool * list Z * Z); s_err : option Z }.

(* syscall.EINTR, nbd.go:157 *)
Definition EINTR : Z := 4.

(* nbd.go:141-147, the callback *)
Definition callback (result : list Z) (c : bool * list Z * Z) : list Z :=
  let '(base, e, error) := c in if base && (error =? 0) then e else result.

Section Extents.
(* The n-th BlockStatus call, for an offset and a length. *)
Variable libnbd : nat -> Z -> Z -> status.

(* nbd.go:138-163 blockStatus; the second result is the number of calls so far *)
Fixpoint blockStatus (tries : nat) (n : nat) (result : list Z) (offset length : Z)
  : GoModel.result (list Z) * nat :=
  match tries with
  | O => (Loops, n)
  | S tries =>
      let s := libnbd n offset length in
      let result := fold_left callback (s_calls s) result in
      match s_err s with
      | None => (Returns result, S n)                                (* 154-156 *)
      | Some e =>
          if e =? EINTR then blockStatus tries (S n) result offset length
          else (Fails e, S n)                                        (* 157-159 *)
      end
  end.

(* nbd.go:127-132; [got] are the entries of the result *)
Fixpoint collect (size : Z) (entries : list Z) (offset : Z) (got : list Z) : result (Z * list Z) :=
  match entries with
  | [] => Returns (offset, got)
  | e :: entries =>
      if offset <? size then
        match entries with
        | [] => Panics                                               (* 129 *)
        | flags :: entries =>
            let length := u32 (min (u64 (size - offset)) e) in
            collect size entries (u64 (offset + length)) (got ++ [length; flags])
        end
      else Returns (offset, got)
  end.

(* nbd.go:116-135 *)
Fixpoint extents_loop (rounds tries : nat) (n : nat) (size offset : Z) (got : list Z) : result (list Z) :=
  match rounds with
  | O => Loops
  | S rounds =>
      if offset <? size then
        let length := min (u64 (size - offset)) maxExtent in
        match blockStatus tries n [] offset length with
        | (Returns entries, n) =>
            match collect size entries offset got with
            | Returns (offset, got) => extents_loop rounds tries n size offset got
            | Fails e => Fails e
            | Panics => Panics
            | Loops => Loops
            end
        | (Fails e, _) => Fails e                                    (* 119-121 *)
        | (Panics, _) => Panics
        | (Loops, _) => Loops
        end
      else Returns got
  end.

(* nbd.go:99-136 Extents: the entries of the ExtentsResult, started at 0 *)
Definition extents (rounds tries : nat) (size : Z) : result (list Z) := extents_loop rounds tries 0 size 0 [].

End Extents.

(* The attributes of an ExtentsResult, nbd.go:205-215.  Simplified: the entries
   from the index [next] on instead of all entries and the index. *)
Record iter := Iter { i_rest : list Z; i_start : Z }.

(* nbd.go:218-220 Next *)
Definition next (r : iter) : bool := 0 <? zlen (i_rest r) - 1.

(* nbd.go:231-234: merge pairs with the same flags *)
Fixpoint merge (flags length : Z) (rest : list Z) : Z * list Z :=
  match rest with
  | l :: f :: rest' =>
      if flags =? f then merge flags (u64 (length + l)) rest' else (length, rest)
  | _ => (length, rest)
  end.

(* libnbd.STATE_ZERO, nbd.go:236 *)
Definition STATE_ZERO : Z := 2.

(* nbd.go:224-241 Value; None is a panic *)
Definition value (r : iter) : option (extent * iter) :=
  match i_rest r with
  | length :: flags :: rest =>
      let (length, rest) := merge flags length rest in
      let zero := Z.land flags STATE_ZERO =? STATE_ZERO in
      Some (Extent (i_start r) length zero, Iter rest (u64 (i_start r + length)))
  | _ => None
  end.

(* The values of a loop calling Next and Value, map.go:53-55.  [fuel] is the
   number of entries at most. *)
Fixpoint values (fuel : nat) (r : iter) : list extent :=
  match fuel with
  | O => []
  | S fuel =>
      if next r then match value r with Some (e, r) => e :: values fuel r | None => [] end
      else []
  end.

(* ---- the map command ---- *)

(* Go's %v of a bool, for map.go:55 *)
Definition show_bool (b : bool) : str := if b then lits "true" else lits "false".

(* fmt.Fprintf of map.go:55 with the format of map.go:49 *)
Definition show_extent (e : extent) : str :=
  lits "{""start"": " ++ show (e_start e) ++ lits ", ""length"": " ++ show (e_length e) ++
  lits ", ""zero"": " ++ show_bool (e_zero e) ++ lits "}".

(* map.go:57-60: the format for all but the first extent, ",\n " before it *)
Definition separator : str := lits "," ++ [ascii_of_N 10; " "%char].

(* map.go:53-61 *)
Fixpoint write_loop (first : bool) (l : list extent) : str :=
  match l with
  | [] => []
  | e :: l => (if first then [] else separator) ++ show_extent e ++ write_loop false l
  end.

(* map.go:47-64 writeExtents, with the values of the result *)
Definition writeExtents (l : list extent) : str :=
  lits "[" ++ write_loop true l ++ lits "]" ++ [ascii_of_N 10].

(* What is done with a handle of libnbd, nbd.go:30-54, 68-83, 190-193. *)
Inductive hevent := HCreate | HShutdown | HClose.

(* nbd.go:29-62 ConnectFile and nbd.go:66-88 Connect: the errors of Create,
   AddMetaContext, ConnectUri or ConnectSystemdSocketActivation, and GetSize.
   true: connected. *)
Definition connect (create add_context connect_uri get_size : option Z) : bool * list hevent :=
  match create with
  | Some _ => (false, [])
  | None =>
      match add_context with
      | Some _ => (false, [HCreate; HClose])
      | None =>
          match connect_uri with
          | Some _ => (false, [HCreate; HClose])
          | None =>
              match get_size with
              | Some _ => (false, [HCreate])                         (* 56-59, 82-85 *)
              | None => (true, [HCreate])
              end
          end
      end
  end.

(* nbd.go:190-193 Close *)
Definition close : list hevent := [HShutdown; HClose].

(* What a run of map.go:16-31 does. *)
Record run := Run {
  r_exit : option Z;        (* the exit status; None: it does not exit *)
  r_out : str;              (* what reached the standard output *)
  r_handle : list hevent
}.

(* The standard output takes [room] bytes and fails then; None: takes all.
   The errors of w.Flush() and fmt.Fprintf are not checked, map.go:29-30. *)
Definition take_out (room : option nat) (s : str) : str :=
  match room with None => s | Some n => firstn n s end.

(* map.go:16-31 mapURL, with an NBD backend; log.Fatalf exits with status 1
   without the deferred Close; a panic runs it and exits with 2 *)
Definition mapURL (libnbd : nat -> Z -> Z -> status) (rounds tries : nat) (size : Z) (room : option nat)
  (create add_context connect_uri get_size : option Z) : run :=
  match connect create add_context connect_uri get_size with
  | (false, h) => Run (Some 1) [] h                                  (* 18-20 *)
  | (true, h) =>
      match extents libnbd rounds tries size with
      | Fails _ => Run (Some 1) [] h                                 (* 24-26 *)
      | Panics => Run (Some 2) [] (h ++ close)
      | Loops => Run None [] h
      | Returns entries =>
          let l := values (List.length entries) (Iter entries 0) in
          Run (Some 0) (take_out room (writeExtents l)) (h ++ close)
      end
  end.

(* ---- reading ---- *)

(* The error of ReadAt, nbd.go:166-186. *)
Inductive rerr := ENil | EEOF | EErr (errno : Z).

(* nbd.go:166-186 ReadAt.  [pread] is libnbd's Pread for an offset and a length:
   the bytes in the buffer and its error.  The results are n, the error, the
   buffer after it, and the request made. *)
Definition readAt (pread : Z -> Z -> list byte * option Z) (size : Z) (buf : list byte) (off : Z)
  : Z * rerr * list byte * option (Z * Z) :=
  if u64 off >? size then (0, EEOF, buf, None)                       (* 171-173 *)
  else
    let '(length, eof) :=
      if u64 (u64 off + zlen buf) >? size then (u64 (size - u64 off), EEOF)  (* 176-179 *)
      else (zlen buf, ENil) in
    let (data, err) := pread (u64 off) length in
    let buf := data ++ drop (zlen data) buf in
    match err with
    | Some e => (0, EErr e, buf, Some (u64 off, length))             (* 181-183 *)
    | None => (length, eof, buf, Some (u64 off, length))
    end.
