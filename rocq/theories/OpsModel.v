(* Model of ovirt_imageio/_internal/ops.py: Read, Write, Zero, Flush.

   The environment (backend, client connection, cancellation) is an oracle
   that answers each call; all theorems quantify over all oracles.  Loops take
   a fuel argument and give None when it runs out; that no run is lost this
   way is proved in OpsTheorems (termination theorems).
   Not modelled: stats clocks (they only record). *)
From Coq Require Import ZArith List Bool.
From Verif Require Import BytesLib.
Import ListNotations.
Open Scope Z_scope.

(* util.py:39-41, round_up. *)
Definition round_up (n size : Z) : Z :=
  let n := n + size - 1 in n - n mod size.

(* How Operation._run ends. *)
Inductive outcome :=
| Success
| PartialContent    (* errors.PartialContent, ops.py:100, 111, 192 *)
| Canceled          (* ops.Canceled, ops.py:121, 195, 234 *)
| Failed.           (* any exception raised by the backend or the connection *)

(* Limit an answer of the environment to what its contract allows. *)
(* No code: a contract of the environment. *)
Definition clamp (lo hi n : Z) : Z := Z.max lo (Z.min hi n).

(* ---- Read, ops.py:78-121 ---- *)

(* Answer of the environment during one _read_chunk call. *)
Record rans := RAns {
  ra_count : option Z;   (* src.readinto: None raises, otherwise the count *)
  ra_send : option Z;    (* dst.write: None succeeds, Some k raises after k
                            bytes were sent *)
  ra_cancel : bool       (* self._canceled when it is tested (line 120) *)
}.

(* The local variables of ops.py:90-121. *)
Record rst := RSt {
  r_pos : Z;                  (* position of the backend, tell() *)
  r_buf : list byte;          (* content of self._buf *)
  r_done : Z;                 (* self._done *)
  r_sent : list byte;         (* bytes given to self._dst.write *)
  r_calls : list (Z * Z);     (* position and length of readinto calls *)
  r_chunks : nat              (* _read_chunk calls *)
}.

(* ops.py:98-121, Read._read_chunk.  The backend contract: readinto(view)
   stores count bytes of the image found at the current position, with
   0 <= count <= len(view), never past the end of the image, and advances the
   position by count.  Slices of the buffer follow Python's rules, negative
   bounds included. *)
Definition read_chunk (img : list byte) (bs size skip : Z) (s : rst) (a : rans)
  : rst * option outcome :=
  let s := RSt (r_pos s) (r_buf s) (r_done s) (r_sent s) (r_calls s) (S (r_chunks s)) in
  if negb (r_pos s mod bs =? 0) then (s, Some PartialContent)         (* 99-100 *)
  else
    let todo := size - r_done s in
    let aligned_todo := round_up todo bs in                           (* 104 *)
    let n := py_stop aligned_todo (zlen (r_buf s)) in                 (* 106 *)
    let calls := r_calls s ++ [(r_pos s, n)] in
    match ra_count a with
    | None => (RSt (r_pos s) (r_buf s) (r_done s) (r_sent s) calls (r_chunks s),
               Some Failed)
    | Some c =>
        let count := clamp 0 (Z.min n (Z.max 0 (zlen img - r_pos s))) c in
        let buf := sub (r_pos s) count img ++ drop count (r_buf s) in (* 108 *)
        let pos := r_pos s + count in
        if count =? 0 then                                            (* 110-111 *)
          (RSt pos buf (r_done s) (r_sent s) calls (r_chunks s), Some PartialContent)
        else
          let n := Z.min (count - skip) todo in                       (* 113 *)
          let view := py_slice skip (skip + n) buf in                 (* 114 *)
          match ra_send a with                                        (* 116 *)
          | Some k => (RSt pos buf (r_done s) (r_sent s ++ take k view) calls (r_chunks s),
                       Some Failed)
          | None =>
              (RSt pos buf (r_done s + n) (r_sent s ++ view) calls (r_chunks s),
               if ra_cancel a then Some Canceled else None)           (* 118-121 *)
          end
    end.

(* ops.py:95-96, the loop of Read._run; [o] answers the chunk number k. *)
Fixpoint read_loop (fuel : nat) (img : list byte) (bs size : Z) (o : nat -> rans)
  (s : rst) : option (rst * outcome) :=
  match fuel with
  | O => None
  | S fuel =>
      if size - r_done s =? 0 then Some (s, Success)
      else match read_chunk img bs size 0 s (o (r_chunks s)) with
           | (s, Some e) => Some (s, e)
           | (s, None) => read_loop fuel img bs size o s
           end
  end.

(* ops.py:90-96, Read._run with the buffer holding [buf]; seek succeeds. *)
Definition read_run (fuel : nat) (img buf : list byte) (bs offset size : Z)
  (o : nat -> rans) : option (rst * outcome) :=
  let skip := offset mod bs in                                        (* 91 *)
  let s := RSt (offset - skip) buf 0 [] [] 0 in                       (* 92 *)
  if skip =? 0 then read_loop fuel img bs size o s
  else match read_chunk img bs size skip s (o O) with                 (* 93-94 *)
       | (s, Some e) => Some (s, e)
       | (s, None) => read_loop fuel img bs size o s
       end.

(* ---- Write, ops.py:124-195 ---- *)

(* Visible effects on the backend, in order. *)
(* What ops.py:124-253 does to the backend. *)
Inductive effect :=
| EWrite (pos len : Z)
| EZero (pos len : Z)
| EFlush.

(* Answers of the backend to write(v) or zero(n). *)
(* The environment of ops.py:124-253. *)
Inductive wans :=
| WOk (n : Z)      (* n bytes done *)
| WFail (k : Z).   (* raises; the first k bytes may have been done *)

(* The environment of ops.py:124-253. *)
Record woracle := WOracle {
  wo_read : nat -> option Z;   (* i-th src.readinto: None raises *)
  wo_write : nat -> wans;      (* i-th dst.write or dst.zero *)
  wo_cancel : nat -> bool;     (* self._canceled at the i-th test *)
  wo_flush : bool              (* false if dst.flush() raises *)
}.

(* The local variables of ops.py:144-196 and 224-238. *)
Record wst := WSt {
  w_img : list byte;       (* content of the backend *)
  w_pos : Z;               (* position of the backend *)
  w_body : list byte;      (* bytes not yet read from the client *)
  w_done : Z;              (* self._done *)
  w_log : list effect;
  w_ri : nat; w_wi : nat; w_ci : nat   (* answers used so far *)
}.

(* ops.py:170-178: read up to count bytes in the buffer of length buflen.
   [got] are the bytes in view[0:read].  The source contract: readinto(v)
   stores n <= len(v) bytes of the body. *)
Fixpoint fill (fuel : nat) (o : woracle) (buflen count : Z) (s : wst) (got : list byte)
  : option (wst * list byte * option outcome) :=
  match fuel with
  | O => None
  | S fuel =>
      if zlen got <? count then                                       (* 171 *)
        let room := Z.max 0 (Z.min count buflen - zlen got) in        (* 169, 172 *)
        let s' := fun body => WSt (w_img s) (w_pos s) body (w_done s) (w_log s)
                                  (S (w_ri s)) (w_wi s) (w_ci s) in
        match wo_read o (w_ri s) with                                 (* 174 *)
        | None => Some (s' (w_body s), got, Some Failed)
        | Some c =>
            let n := clamp 0 (Z.min room (zlen (w_body s))) c in
            if n =? 0 then Some (s' (w_body s), got, None)            (* 176-177 *)
            else fill fuel o buflen count (s' (drop n (w_body s)))
                      (got ++ take n (w_body s))                      (* 178 *)
        end
      else Some (s, got, None)
  end.

(* ops.py:180-186: write all the bytes read.  The backend contract: write(v)
   stores the first n bytes of v, 1 <= n <= len(v), at the current position,
   and advances it by n; when it raises, any number of leading bytes may have
   been stored. *)
Fixpoint drain (fuel : nat) (o : woracle) (s : wst) (data : list byte)
  : option (wst * option outcome) :=
  match fuel with
  | O => None
  | S fuel =>
      match data with
      | [] => Some (s, None)
      | _ =>
          match wo_write o (w_wi s) with
          | WOk c =>
              let n := clamp 1 (zlen data) c in
              drain fuel o
                (WSt (splice (w_img s) (w_pos s) (take n data)) (w_pos s + n)
                     (w_body s) (w_done s) (w_log s ++ [EWrite (w_pos s) n])
                     (w_ri s) (S (w_wi s)) (w_ci s))
                (drop n data)
          | WFail c =>
              let k := clamp 0 (zlen data) c in
              Some (WSt (splice (w_img s) (w_pos s) (take k data)) (w_pos s)
                        (w_body s) (w_done s) (w_log s ++ [EWrite (w_pos s) k])
                        (w_ri s) (S (w_wi s)) (w_ci s), Some Failed)
          end
      end
  end.

(* How a chunk ends: go on, ops.EOF (line 191), or an outcome. *)
Inductive chunk_end := Go | Eof | Stop (e : outcome).

(* ops.py:167-195, Write._write_chunk; size = None if not known. *)
Definition write_chunk (fuel : nat) (o : woracle) (buflen : Z) (size : option Z)
  (count : Z) (s : wst) : option (wst * chunk_end) :=
  match fill fuel o buflen count s [] with
  | None => None
  | Some (s, got, Some e) => Some (s, Stop e)
  | Some (s, got, None) =>
      match drain fuel o s got with
      | None => None
      | Some (s, Some e) => Some (s, Stop e)
      | Some (s, None) =>
          let s' := fun ci => WSt (w_img s) (w_pos s) (w_body s) (w_done s + zlen got) (* 188 *)
                                  (w_log s) (w_ri s) (w_wi s) ci in
          if zlen got <? count then                                   (* 189-192 *)
            match size with
            | None => Some (s' (w_ci s), Eof)
            | Some _ => Some (s' (w_ci s), Stop PartialContent)
            end
          else Some (s' (S (w_ci s)),
                     if wo_cancel o (w_ci s) then Stop Canceled else Go)
      end
  end.

(* ops.py:138-142, Write._todo. *)
Definition write_todo (buflen : Z) (size : option Z) (s : wst) : Z :=
  match size with None => buflen | Some n => n - w_done s end.

(* ops.py:157-159. *)
Fixpoint write_loop (fuel : nat) (o : woracle) (buflen : Z) (size : option Z) (s : wst)
  : option (wst * chunk_end) :=
  match fuel with
  | O => None
  | S fuel' =>
      let todo := write_todo buflen size s in
      if todo =? 0 then Some (s, Go)
      else match write_chunk fuel o buflen size (Z.min todo buflen) s with
           | None => None
           | Some (s, Go) => write_loop fuel' o buflen size s
           | Some r => Some r
           end
  end.

(* ops.py:163-165, 236-238: flush at the end when requested. *)
Definition finish (o : woracle) (flush : bool) (s : wst) : wst * outcome :=
  if flush then
    (WSt (w_img s) (w_pos s) (w_body s) (w_done s) (w_log s ++ [EFlush])
         (w_ri s) (w_wi s) (w_ci s), if wo_flush o then Success else Failed)
  else (s, Success).

(* ops.py:144-165, Write._run; seek succeeds. *)
Definition write_run (fuel : nat) (img body : list byte) (bs buflen offset : Z)
  (size : option Z) (flush : bool) (o : woracle) : option (wst * outcome) :=
  let s := WSt img offset body 0 [] 0 0 0 in                          (* 146 *)
  let unaligned := offset mod bs in                                   (* 150 *)
  let r :=
    if unaligned =? 0 then Some (s, Go)
    else write_chunk fuel o buflen size                               (* 151-153 *)
           (Z.min (write_todo buflen size s) (bs - unaligned)) s in
  let r := match r with
           | Some (s, Go) => write_loop fuel o buflen size s
           | _ => r
           end in
  match r with
  | None => None
  | Some (s, Stop e) => Some (s, e)
  | Some (s, _) => Some (finish o flush s)                            (* 160-165 *)
  end.

(* ---- Zero, ops.py:198-238 ---- *)

(* ops.py:217 *)
Definition MAX_STEP : Z := 128 * 1024 * 1024.

(* ops.py:227-234.  The backend contract: zero(n) zeroes the next k bytes,
   1 <= k <= n, and advances the position by k; when it raises, any number of
   leading bytes may have been zeroed. *)
Fixpoint zero_loop (fuel : nat) (o : woracle) (size : Z) (s : wst)
  : option (wst * option outcome) :=
  match fuel with
  | O => None
  | S fuel =>
      let todo := size - w_done s in
      if todo =? 0 then Some (s, None)
      else
        let step := Z.min todo MAX_STEP in
        match wo_write o (w_wi s) with
        | WOk c =>
            let n := clamp 1 step c in
            let s := WSt (splice (w_img s) (w_pos s) (zeros n)) (w_pos s + n) (w_body s)
                         (w_done s + n) (w_log s ++ [EZero (w_pos s) n])
                         (w_ri s) (S (w_wi s)) (S (w_ci s)) in
            if wo_cancel o (pred (w_ci s)) then Some (s, Some Canceled)
            else zero_loop fuel o size s
        | WFail c =>
            let k := clamp 0 step c in
            Some (WSt (splice (w_img s) (w_pos s) (zeros k)) (w_pos s) (w_body s)
                      (w_done s) (w_log s ++ [EZero (w_pos s) k])
                      (w_ri s) (S (w_wi s)) (w_ci s), Some Failed)
        end
  end.

(* ops.py:224-238, Zero._run. *)
Definition zero_run (fuel : nat) (img : list byte) (offset size : Z) (flush : bool)
  (o : woracle) : option (wst * outcome) :=
  match zero_loop fuel o size (WSt img offset [] 0 [] 0 0 0) with
  | None => None
  | Some (s, Some e) => Some (s, e)
  | Some (s, None) => Some (finish o flush s)
  end.

(* ops.py:252-253, Flush._run. *)
Definition flush_run (img : list byte) (o : woracle) : wst * outcome :=
  finish o true (WSt img 0 [] 0 [] 0 0 0).
