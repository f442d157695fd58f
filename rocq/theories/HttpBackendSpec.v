(* What is expected from the HTTP backend. *)
From Coq Require Import ZArith List Bool Ascii String.
From Verif Require Import BytesLib HeaderModel HeaderSpec HttpModel OpsModel OpsTheorems ImagesModel
  ImagesSpec ExtentsModel HttpBackendModel.
Import ListNotations.
Open Scope Z_scope.

(* ---- what a message asks the server to do ---- *)

Inductive action :=
| AskRead (offset size : Z)
| AskWrite (offset size : Z) (body : list byte) (flush : bool)
| AskZero (offset size : Z) (flush : bool)
| AskFlush.

(* As documented in docs/images.md of the project: a PUT request writes
   Content-Length bytes at the first byte of Content-Range and flushes unless
   the query has flush=n; a PATCH request has a JSON object.  The ranges have
   the forms of RFC 7233 and agree with the length. *)
Inductive asks : message -> action -> Prop :=
| asks_read h first last :
    range_form h (FromTo first last) ->
    asks (MGet (Some h)) (AskRead first (last - first + 1))
| asks_write query clen h body first last flush :
    decimal clen (last - first + 1) ->
    content_range_form h first (Some last) None ->
    (flush = false <-> In (lit "flush", lit "n") query) ->
    (forall k v, In (k, v) query -> k = lit "flush" /\ v = lit "n") ->
    asks (MPut query clen h body) (AskWrite first (last - first + 1) body flush)
| asks_zero d offset size flush :
    (forall k v, In (k, v) d <->
       k = lit "op" /\ v = JStr (lit "zero") \/ k = lit "offset" /\ v = JInt offset \/
       k = lit "size" /\ v = JInt size \/ k = lit "flush" /\ v = JBool flush) ->
    asks (MPatch (JObj d)) (AskZero offset size flush)
| asks_flush :
    asks (MPatch (JObj [(lit "op", JStr (lit "flush"))])) AskFlush.

(* Messages sent to find the size of the image. *)
Definition about_size (m : message) : Prop :=
  m = MGet None \/ m = MExtents (lit "zero").

(* [p] is the first part of [l]. *)
Definition prefix (p l : list byte) : Prop := exists r, l = p ++ r.

(* ---- a sequence of calls ---- *)

Inductive call :=
| CReadinto (buf : list byte)
| CWrite (buf : list byte)
| CZero (n : Z)
| CFlush
| CSize
| CTell
| CSeek (n how : Z)
| CReadFrom (src : list byte) (length buflen : Z)
| CWriteTo (length buflen : Z).

(* The value or exception of a call, and bytes: the buffer after readinto, the
   bytes left in the reader of read_from, the bytes written by write_to. *)
Record outcome := Out { o_result : Z + cexc; o_bytes : list byte }.

Definition run_call {W} (serve : W -> message -> option response * W) (o : net) (c : call) (s : hb W)
  : outcome * hb W :=
  match c with
  | CReadinto buf => let '(r, b, s) := readinto serve o buf s in (Out r b, s)
  | CWrite buf => let '(r, s) := write serve o buf s in (Out r [], s)
  | CZero n => let '(r, s) := zero serve o n s in (Out r [], s)
  | CFlush => let '(r, s) := flush serve s in
              (Out (match r with inl _ => inl 0 | inr e => inr e end) [], s)
  | CSize => let '(r, s) := size serve s in (Out r [], s)
  | CTell => (Out (inl (tell s)) [], s)
  | CSeek n how => let '(r, s) := seek serve n how s in (Out r [], s)
  | CReadFrom src length buflen =>
      let '(r, b, s) := read_from serve o src length buflen s in (Out r b, s)
  | CWriteTo length buflen =>
      let '(r, b, s) := write_to serve o length buflen s in (Out r b, s)
  end.

(* Calls in order, whether they fail or not; nets i is what the connection
   does during call number i. *)
Fixpoint run_calls {W} (serve : W -> message -> option response * W) (nets : nat -> net)
  (i : nat) (cs : list call) (s : hb W) : list outcome * hb W :=
  match cs with
  | [] => ([], s)
  | c :: cs =>
      let (r, s) := run_call serve (nets i) c s in
      let (rs, s) := run_calls serve nets (S i) cs s in (r :: rs, s)
  end.

(* What a call does to an array of bytes with a position.  A call that raises
   leaves the position alone and may have changed a part of its range, but
   nothing when the range is not inside of the array.  What write_to writes is known if the writer takes all it is given. *)
Definition array_call (o : net) (c : call) (pos : Z) (img : list byte) (r : outcome)
  (pos' : Z) (img' : list byte) : Prop :=
  let total := zlen img in
  match c, o_result r with
  | CReadinto buf, inl n =>
      n = Z.max 0 (Z.min (zlen buf) (total - pos)) /\ (0 < n -> 0 <= pos) /\ pos' = pos + n /\ img' = img /\
      zlen (o_bytes r) = zlen buf /\
      is_range img pos n (take n (o_bytes r)) /\ drop n (o_bytes r) = drop n buf
  | CWrite buf, inl n =>
      n = zlen buf /\ pos' = pos + n /\ 0 <= pos /\ pos + n <= total /\
      replaced img img' pos n (getb buf)
  | CWrite buf, inr _ =>
      pos' = pos /\ exists k, 0 <= k <= zlen buf /\
        (0 < k -> 0 <= pos /\ pos + zlen buf <= total) /\ replaced img img' pos k (getb buf)
  | CZero size, inl n =>
      n = size /\ pos' = pos + n /\ 0 <= pos /\ pos + n <= total /\
      replaced img img' pos n (fun _ => x00)
  | CZero size, inr _ =>
      pos' = pos /\ exists k, 0 <= k <= Z.max 0 size /\
        (0 < k -> 0 <= pos /\ pos + size <= total) /\ replaced img img' pos k (fun _ => x00)
  | CReadFrom src length _, inl n =>
      n = length /\ pos' = pos + n /\ 0 <= pos /\ pos + n <= total /\ n <= zlen src /\
      o_bytes r = drop n src /\ replaced img img' pos n (getb src)
  | CReadFrom src length _, inr _ =>
      pos' = pos /\
      exists k, 0 <= k <= Z.max 0 length /\ k <= zlen src /\
        (0 < k -> 0 <= pos /\ pos + length <= total) /\ replaced img img' pos k (getb src)
  | CWriteTo length _, inl n =>
      n = length /\ pos' = pos + n /\ img' = img /\
      0 <= pos /\ pos + n <= total /\
      ((forall i, exists c, n_dst o i = Some c /\ n <= c) -> is_range img pos n (o_bytes r))
  | CSize, inl n => n = total /\ pos' = pos /\ img' = img
  | CTell, inl n => n = pos /\ pos' = pos /\ img' = img
  | CSeek n how, inl m =>
      m = pos' /\ img' = img /\
      pos' = (if how =? 0 then n else if how =? 1 then pos + n
              else if how =? 2 then total + n else pos)
  | CFlush, inl _ => pos' = pos /\ img' = img
  | _, inr _ => pos' = pos /\ img' = img
  end.

Fixpoint array_calls (nets : nat -> net) (i : nat) (cs : list call) (pos : Z) (img : list byte) (rs : list outcome)
  (pos' : Z) (img' : list byte) : Prop :=
  match cs, rs with
  | [], [] => pos' = pos /\ img' = img
  | c :: cs, r :: rs =>
      exists pos1 img1, array_call (nets i) c pos img r pos1 img1 /\
        array_calls nets (S i) cs pos1 img1 rs pos' img'
  | _, _ => False
  end.

(* Several backends of one server, the first one and clones of it.  Each step
   is a call of backend number i, or the creation of one more clone of backend
   number i. *)
Inductive step := SCall (i : nat) (c : call) | SClone (i : nat).

Definition put_world {W} (s : hb W) (w : W) : hb W :=
  HB (h_pos s) (h_size s) (h_zero s) (h_dirty s) (h_can_extents s) (h_can_zero s)
     (h_can_flush s) (h_ri s) (h_si s) w (h_sent s).

Fixpoint update {A} (l : list A) (i : nat) (x : A) : list A :=
  match l, i with
  | [], _ => []
  | _ :: l, O => x :: l
  | y :: l, S i => y :: update l i x
  end.

(* The results of the calls, the backends and the server at the end; steps
   with a number out of range do nothing. *)
Fixpoint run_steps {W} (serve : W -> message -> option response * W) (nets : nat -> net)
  (k : nat) (l : list step) (bs : list (hb W)) (w : W) : list outcome * list (hb W) * W :=
  match l with
  | [] => ([], bs, w)
  | SCall i c :: l =>
      match nth_error bs i with
      | None => run_steps serve nets (S k) l bs w
      | Some s =>
          let (r, s) := run_call serve (nets k) c (put_world s w) in
          let '(rs, bs, w) := run_steps serve nets (S k) l (update bs i s) (h_world s) in
          (r :: rs, bs, w)
      end
  | SClone i :: l =>
      match nth_error bs i with
      | None => run_steps serve nets (S k) l bs w
      | Some s => run_steps serve nets (S k) l (bs ++ [clone s]) w
      end
  end.

(* The same on one array with several positions; a clone starts at 0. *)
Fixpoint array_steps (nets : nat -> net) (k : nat) (l : list step) (pos : list Z) (img : list byte)
  (rs : list outcome) (pos' : list Z) (img' : list byte) : Prop :=
  match l with
  | [] => rs = [] /\ pos' = pos /\ img' = img
  | SCall i c :: l =>
      match nth_error pos i with
      | None => array_steps nets (S k) l pos img rs pos' img'
      | Some p =>
          exists r rs' p1 img1, rs = r :: rs' /\ array_call (nets k) c p img r p1 img1 /\
            array_steps nets (S k) l (update pos i p1) img1 rs' pos' img'
      end
  | SClone i :: l =>
      match nth_error pos i with
      | None => array_steps nets (S k) l pos img rs pos' img'
      | Some _ => array_steps nets (S k) l (pos ++ [0]) img rs pos' img'
      end
  end.

(* ---- a usable server ---- *)

(* Where the last extent ends. *)
Definition extents_end (l : list image_extent) : option Z :=
  match rev l with
  | ZeroExtent start length _ _ :: _ | DirtyExtent start length _ _ :: _ => Some (start + length)
  | [] => None
  end.

(* During every request: the configuration is valid, the ticket is for the
   whole image of [total] bytes, and the extents end where the image ends.
   Authorization can fail, the operations can fail or be canceled, and
   responses can be lost. *)
Definition usable (id : str) (total : Z) (e : senv) : Prop :=
  good_backend (se_v e) /\ cancel_consistent (se_v e) /\
  (forall op size, i_auth (se_v e) id op = Some size -> size = total) /\
  (forall img l, zlen img = total -> se_ext e false img = Some l -> extents_end l = Some total).

(* A server that does what it is asked during a request: access to the whole image, an open backend that does not fail, no
   cancellation, no response lost, headers shorter than the digit limit. *)
Definition willing (id : str) (total : Z) (e : senv) : Prop :=
  usable id total e /\
  (exists bs buf, i_open (se_v e) = Backend bs buf) /\
  i_auth (se_v e) id "read" = Some total /\ i_auth (se_v e) id "write" = Some total /\
  i_refused (se_v e) = false /\ i_canceled (se_v e) = false /\ se_lost e = false /\
  (forall m, i_lim (se_v e) = Some m -> 2 * Z.log2 total + 20 <= m) /\
  (forall bs buf, i_open (se_v e) = Backend bs buf ->
     forall i, exists c, ra_count (i_read (se_v e) i) = Some c /\ 0 < c /\ c mod bs = 0 /\
                         ra_send (i_read (se_v e) i) = None) /\
  (forall i, exists c, wo_read (i_write (se_v e)) i = Some c /\ 0 < c) /\
  (forall i, exists c, wo_write (i_write (se_v e)) i = WOk c) /\
  wo_flush (i_write (se_v e)) = true.

(* Enough steps for a request: the loops of the operations make at most one
   step for every byte. *)
Definition patient (total : Z) (e : senv) : Prop :=
  forall bs buf, i_open (se_v e) = Backend bs buf -> total + bs + 2 <= Z.of_nat (i_fuel (se_v e)).

(* Every change of the image was followed by a flush. *)
Definition modifies (f : effect) : Prop := f <> EFlush.
Definition durable (log : list effect) : Prop :=
  forall a f b, log = a ++ f :: b -> modifies f -> In EFlush b.

(* ---- extents ---- *)

(* The extent with the same fields. *)
Definition same_extent (e : image_extent) (x : jext) : Prop :=
  match e with
  | ZeroExtent start length zero hole =>
      x = JExt (JInt start) (JInt length) (JBool zero) (JBool hole)
  | DirtyExtent start length dirty zero =>
      x = JExt (JInt start) (JInt length) (JBool dirty) (JBool zero)
  end.

(* An object with these members, in any order, and maybe others. *)
Definition has_members (j : json) (l : list (string * json)) : Prop :=
  exists d, j = JObj d /\ NoDup (map fst d) /\
  forall k v, In (k, v) l -> In (lit k, v) d.
