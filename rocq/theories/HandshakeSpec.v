(* The handshake of the NBD protocol (fixed newstyle), as relations between
   what is said and its bytes, and what the client must know afterwards.
   Independent of the code of the client. *)
From Coq Require Import ZArith List Bool String.
From Coq.Init Require Import Byte.
From Verif Require Import BytesLib NbdModel NbdSpec HandshakeModel.
Import ListNotations.
Open Scope Z_scope.

(* S: 64 bits 'NBDMAGIC', 64 bits 'IHAVEOPT', 16 bits flags, bit 0 set: fixed
   newstyle *)
Definition hello_bytes (l : list byte) : Prop :=
  exists a b c flags, l = a ++ b ++ c /\ u 8 0x4e42444d41474943 a /\ u 8 0x49484156454F5054 b
  /\ u 2 flags c /\ Z.odd flags = true.

(* C: 64 bits 'IHAVEOPT', 32 bits option, 32 bits length of data, data *)
Definition option_bytes (opt : Z) (data l : list byte) : Prop :=
  exists a b c, l = a ++ b ++ c ++ data /\ u 8 0x49484156454F5054 a /\ u 4 opt b /\ u 4 (zlen data) c.

(* S: 64 bits magic, 32 bits option, 32 bits type of reply, 32 bits length of
   data, data *)
Definition option_reply_bytes (opt type : Z) (data l : list byte) : Prop :=
  exists a b c d, l = a ++ b ++ c ++ d ++ data /\ u 8 0x3e889045565a9 a /\ u 4 opt b /\ u 4 type c
  /\ u 4 (zlen data) d.

(* A string: 32 bits length, bytes *)
Definition string_bytes (s l : list byte) : Prop := exists a, l = a ++ s /\ u 4 (zlen s) a.
Inductive strings_bytes : list (list byte) -> list byte -> Prop :=
| no_strings : strings_bytes [] []
| one_string s r l m : string_bytes s l -> strings_bytes r m -> strings_bytes (s :: r) (l ++ m).

(* The data of LIST_META_CONTEXT and SET_META_CONTEXT: name of the export, 32
   bits number of queries, queries *)
Definition meta_data (name : list byte) (queries : list (list byte)) (l : list byte) : Prop :=
  exists a b c, l = a ++ b ++ c /\ string_bytes name a /\ u 4 (zlen queries) b /\ strings_bytes queries c.
(* The data of GO: name of the export, 16 bits number of requests: none. *)
Definition go_data (name l : list byte) : Prop :=
  exists a b, l = a ++ b /\ string_bytes name a /\ u 2 0 b.

(* Contexts sent by the server: (name, id). *)
Definition ctxs := list (list byte * Z).

(* What the server says in the INFO replies to GO. *)
Inductive info :=
| Export (size flags : Z)
| BlockSize (minimum preferred maximum : Z)
| OtherInfo (type : Z) (data : list byte).
Inductive info_bytes : info -> list byte -> Prop :=
| i_export s f a b c : u 2 0 a -> u 8 s b -> u 2 f c -> info_bytes (Export s f) (a ++ b ++ c)
| i_block x y z a b c d : u 2 3 a -> u 4 x b -> u 4 y c -> u 4 z d ->
    info_bytes (BlockSize x y z) (a ++ b ++ c ++ d)
| i_other t d a : t <> 0 -> t <> 3 -> u 2 t a -> info_bytes (OtherInfo t d) (a ++ d).

(* A server's answers, in the order sent. structured: whether it accepted
   structured replies. *)
Record answers := Answers {
  a_structured : bool;
  a_listed : ctxs;              (* to LIST_META_CONTEXT *)
  a_set : ctxs;                 (* to SET_META_CONTEXT *)
  a_infos : list info           (* to GO *)
}.

Section Server.
Variable utf8 : list byte -> bool.

(* Replies META_CONTEXT, then ACK; or not supported, with any message. *)
Inductive contexts_bytes (opt : Z) : ctxs -> list byte -> Prop :=
| c_ack l : option_reply_bytes opt 1 [] l -> contexts_bytes opt [] l
| c_unsupported msg l : option_reply_bytes opt (2 ^ 31 + 1) msg l -> contexts_bytes opt [] l
| c_context n i a l r m : u 4 i a -> utf8 n = true -> option_reply_bytes opt 4 (a ++ n) l ->
    contexts_bytes opt r m -> contexts_bytes opt ((n, i) :: r) (l ++ m).

(* Replies INFO, then ACK. *)
Inductive infos_bytes : list info -> list byte -> Prop :=
| g_ack l : option_reply_bytes 7 1 [] l -> infos_bytes [] l
| g_info i d l r m : info_bytes i d -> option_reply_bytes 7 3 d l -> infos_bytes r m ->
    infos_bytes (i :: r) (l ++ m).

Inductive structured_bytes : bool -> list byte -> Prop :=
| s_ack l : option_reply_bytes 8 1 [] l -> structured_bytes true l
| s_unsupported msg l : option_reply_bytes 8 (2 ^ 31 + 1) msg l -> structured_bytes false l.

(* The dirty bitmap to use: the one listed, when asked for and when it is the
   only one. *)
Definition bitmap (dirty : bool) (a : answers) : option (list byte) :=
  match dirty, a_listed a with
  | true, [(n, _)] => Some n
  | _, _ => None
  end.
(* The contexts the client asks for. *)
Definition asked (dirty : bool) (a : answers) (n : list byte) : Prop :=
  n = list_byte_of_string "base:allocation" \/ n = list_byte_of_string "qemu:allocation-depth"
  \/ (bitmap dirty a = Some n /\ n <> []).
Definition queries (dirty : bool) (a : answers) : list (list byte) :=
  [list_byte_of_string "base:allocation"; list_byte_of_string "qemu:allocation-depth"]
  ++ match bitmap dirty a with Some n => if list_eq_dec Byte.byte_eq_dec n [] then [] else [n] | None => [] end.

(* Everything a server sends in a handshake that succeeds. *)
Definition server_bytes (dirty : bool) (a : answers) (l : list byte) : Prop :=
  exists h s c g, l = h ++ s ++ c ++ g
  /\ hello_bytes h /\ structured_bytes (a_structured a) s
  /\ (if a_structured a then
        exists x y, c = x ++ y
        /\ (if dirty then contexts_bytes 9 (a_listed a) x else x = [] /\ a_listed a = [])
        /\ contexts_bytes 10 (a_set a) y /\ Forall (fun p => asked dirty a (fst p)) (a_set a)
      else c = [] /\ a_listed a = [] /\ a_set a = [])
  /\ infos_bytes (a_infos a) g /\ exists size flags, In (Export size flags) (a_infos a).

(* Everything the client sends in a handshake that succeeds. *)
Definition client_bytes (name : list byte) (dirty : bool) (a : answers) (l : list byte) : Prop :=
  exists f s c g, l = f ++ s ++ c ++ g
  /\ u 4 1 f /\ option_bytes 8 [] s
  /\ (if a_structured a then
        exists x y, c = x ++ y
        /\ (if dirty
            then exists d, meta_data name [list_byte_of_string "qemu:dirty-bitmap:"] d /\ option_bytes 9 d x
            else x = [])
        /\ exists d, meta_data name (queries dirty a) d /\ option_bytes 10 d y
      else c = [])
  /\ exists d, go_data name d /\ option_bytes 7 d g.
End Server.

(* x is the last element of l satisfying P. *)
Definition last_such {A} (P : A -> Prop) (l : list A) (x : A) : Prop :=
  exists p q, l = p ++ x :: q /\ P x /\ Forall (fun y => ~ P y) q.

(* What the client knows after the handshake: the last thing the server said
   about each thing, and the defaults of the protocol. *)
Definition knows (dirty : bool) (a : answers) (h : handshaken) : Prop :=
  h_structured h = a_structured a
  /\ (forall id n, name_of_id (h_names h) id = Some n <-> last_such (fun p => snd p = id) (a_set a) (n, id))
  /\ (forall id n, id_of_name (h_names h) n = Some id <-> last_such (fun p => fst p = n) (a_set a) (n, id))
  /\ (forall n, h_dirty h = Some n <-> bitmap dirty a = Some n /\ exists id, In (n, id) (a_set a))
  /\ (exists size flags, h_export h = Some (size, flags)
      /\ last_such (fun i => exists s f, i = Export s f) (a_infos a) (Export size flags))
  /\ (let '(x, y, z) := h_blocks h in
      last_such (fun i => exists x y z, i = BlockSize x y z) (a_infos a) (BlockSize x y z)
      \/ ((x, y, z) = (1, 4096, 33554432) /\ forall x y z, ~ In (BlockSize x y z) (a_infos a))).

(* Options small enough to be sent. *)
Definition sendable (name : list byte) (dirty : bool) (a : answers) : Prop :=
  zlen name + fold_right (fun q n => 4 + zlen q + n) 26 (queries dirty a) < 2 ^ 32.

(* Complete options, one after the other. *)
Inductive options_bytes : list byte -> Prop :=
| no_options : options_bytes []
| one_option opt data l m : option_bytes opt data l -> options_bytes m -> options_bytes (l ++ m).
