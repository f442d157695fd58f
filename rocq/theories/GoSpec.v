(* What is expected from the Go program: lists of extents, their text, and
   reading like io.ReaderAt. *)
From Coq Require Import ZArith List Bool Ascii String.
From Verif Require Import BytesLib HeaderModel HeaderSpec OpsTheorems ImagesModel GoModel.
Import ListNotations.
Open Scope Z_scope.

(* ---- extents ---- *)

(* The extents are next to each other, from a to b. *)
Fixpoint tiles (l : list extent) (a b : Z) : Prop :=
  match l with
  | [] => a = b
  | e :: l => e_start e = a /\ 0 <= e_length e /\ tiles l (a + e_length e) b
  end.

Definition inside (i : Z) (e : extent) : Prop := e_start e <= i < e_start e + e_length e.

(* Pairs of a length and flags as the entries of libnbd. *)
Fixpoint entries_of (ps : list (Z * Z)) : list Z :=
  match ps with [] => [] | (l, f) :: ps => l :: f :: entries_of ps end.

(* The entries libnbd gives for base:allocation are pairs of uint32. *)
Definition is_u32 (n : Z) : Prop := 0 <= n < 4294967296.
Definition pairs_of_u32 (s : status) : Prop :=
  forall e, In (true, e, 0) (s_calls s) ->
  exists ps, e = entries_of ps /\ Forall (fun p => is_u32 (fst p) /\ is_u32 (snd p)) ps.
Definition gives_pairs (libnbd : nat -> Z -> Z -> status) : Prop :=
  forall n offset length, pairs_of_u32 (libnbd n offset length).

(* The pairs from offset o on tell the flags of the bytes of an image; the last
   one may end after the end of the image. *)
Fixpoint says (flags : Z -> Z) (size o : Z) (ps : list (Z * Z)) : Prop :=
  match ps with
  | [] => True
  | (l, f) :: ps =>
      is_u32 l /\ is_u32 f /\ (forall i, o <= i < o + l -> i < size -> flags i = f) /\ says flags size (o + l) ps
  end.
Definition truthful (flags : Z -> Z) (size : Z) (libnbd : nat -> Z -> Z -> status) : Prop :=
  forall n offset length e, In (true, e, 0) (s_calls (libnbd n offset length)) ->
  exists ps, e = entries_of ps /\ says flags size offset ps.

(* No pair is empty. *)
Definition positive (libnbd : nat -> Z -> Z -> status) : Prop :=
  forall n offset length e ps, In (true, e, 0) (s_calls (libnbd n offset length)) -> e = entries_of ps ->
  Forall (fun p => 0 < fst p) ps.

(* A reply that is not an error has a pair, and interruptions end some time. *)
Definition replies (libnbd : nat -> Z -> Z -> status) : Prop :=
  (exists m, forall n offset length, (m <= n)%nat -> s_err (libnbd n offset length) <> Some EINTR) /\
  forall n offset length, s_err (libnbd n offset length) = None ->
  exists e, In (true, e, 0) (s_calls (libnbd n offset length)) /\
    forall e, In (true, e, 0) (s_calls (libnbd n offset length)) -> e <> [].

(* ---- JSON text (RFC 8259), as far as it is used ---- *)

Definition is_space (c : ascii) : Prop :=
  c = " "%char \/ c = ascii_of_N 9 \/ c = ascii_of_N 10 \/ c = ascii_of_N 13.
Definition spaces (s : str) : Prop := forall c, In c s -> is_space c.

(* A string without anything that must be escaped, with spaces around it. *)
Definition plain_char (c : ascii) : Prop :=
  (32 <= N_of_ascii c < 127)%N /\ c <> """"%char /\ c <> "\"%char.
Definition json_string (k s : str) : Prop :=
  exists a b, s = a ++ lit """" ++ k ++ lit """" ++ b /\ spaces a /\ spaces b /\ forall c, In c k -> plain_char c.

Inductive json_text : json -> str -> Prop :=
| text_int n s : decimal s n -> (s = lit "0" \/ exists c r, s = c :: r /\ c <> "0"%char) -> json_text (JInt n) s
| text_true : json_text (JBool true) (lit "true")
| text_false : json_text (JBool false) (lit "false")
| text_list l s : elements l s -> json_text (JList l) (lit "[" ++ s ++ lit "]")
| text_obj d s : members d s -> json_text (JObj d) (lit "{" ++ s ++ lit "}")
| text_spaces j a s b : json_text j s -> spaces a -> spaces b -> json_text j (a ++ s ++ b)
with elements : list json -> str -> Prop :=
| no_elements : elements [] []
| one_element j s : json_text j s -> elements [j] s
| more_elements j s l r : json_text j s -> elements l r -> l <> [] -> elements (j :: l) (s ++ lit "," ++ r)
with members : list (str * json) -> str -> Prop :=
| no_members : members [] []
| one_member k t j s : json_string k t -> json_text j s -> members [(k, j)] (t ++ lit ":" ++ s)
| more_members k t j s l r :
    json_string k t -> json_text j s -> members l r -> l <> [] ->
    members ((k, j) :: l) (t ++ lit ":" ++ s ++ lit "," ++ r).

(* The object for an extent: docs/images.md, without "hole". *)
Definition extent_json (e : extent) : json :=
  JObj [(lit "start", JInt (e_start e)); (lit "length", JInt (e_length e)); (lit "zero", JBool (e_zero e))].

(* ---- io.ReaderAt ---- *)

(* A call of ReadAt with an image, an offset and a buffer, its results and the
   buffer after it, as documented for io.ReaderAt: n bytes were read; if these
   are less than the buffer takes there is an error; EOF at the end of the
   image. *)
Definition reader_at (img : list byte) (off : Z) (buf : list byte) (n : Z) (e : rerr) (buf' : list byte) : Prop :=
  zlen buf' = zlen buf /\ 0 <= n <= zlen buf /\
  (n < zlen buf -> e <> ENil) /\
  (0 < n -> 0 <= off /\ is_range img off n (take n buf')) /\
  (e = EEOF -> (off < 0 \/ zlen img < off + zlen buf) /\ (0 <= off <= zlen img -> n = zlen img - off)) /\
  (forall x, e = EErr x -> n = 0) /\
  (zlen img < off -> n = 0 /\ e <> ENil).

(* libnbd: the bytes of the image, or an error; it refuses requests of no bytes
   (strict mode, LIBNBD_STRICT_ZERO_SIZE, on by default). *)
Definition honest_pread (img : list byte) (pread : Z -> Z -> list byte * option Z) : Prop :=
  (forall o l, snd (pread o l) = None -> 0 < l /\ 0 <= o /\ is_range img o l (fst (pread o l))) /\
  (forall o l, zlen (fst (pread o l)) <= Z.max 0 l).
