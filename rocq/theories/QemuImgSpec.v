(* What qemu-img and QEMU understand, and what the callers should ask for. *)
From Coq Require Import ZArith List Bool String.
From Verif Require Import JsonModel JsonSpec QemuImgModel.
Import ListNotations.
Open Scope Z_scope.

(* ---- command lines, getopt_long(3) ---- *)

(* An argument that starts with a dash and is not just a dash is an option. *)
Definition is_option (a : text) : Prop := exists c r, a = 45 :: c :: r.

Inductive arity := Flag | Value.
Definition table := list (string * arity).

(* Reading the arguments: options with their values, and the other arguments. *)
Inductive reads (t : table) : list text -> list (text * option text) -> list text -> Prop :=
| r_end : reads t [] [] []
| r_flag a args o f : In (a, Flag) t -> reads t args o f ->
    reads t (chars_of a :: args) ((chars_of a, None) :: o) f
| r_value a v args o f : In (a, Value) t -> reads t args o f ->
    reads t (chars_of a :: v :: args) ((chars_of a, Some v) :: o) f
| r_file a args o f : ~ is_option a -> reads t args o f -> reads t (a :: args) o (a :: f).

(* qemu-img(1): the options of the commands (those with several names by the
   name used here). *)
Definition CREATE : table :=
  [("-f", Value); ("-b", Value); ("-F", Value); ("-o", Value); ("-u", Flag); ("-q", Flag); ("-h", Flag)]%string.
Definition CONVERT : table :=
  [("-f", Value); ("-O", Value); ("-B", Value); ("-o", Value); ("-l", Value); ("-S", Value); ("-r", Value); ("-m", Value);
   ("-t", Value); ("-T", Value); ("-p", Flag); ("-c", Flag); ("-q", Flag); ("-n", Flag); ("-U", Flag); ("-C", Flag);
   ("-W", Flag)]%string.
Definition REBASE : table :=
  [("-f", Value); ("-b", Value); ("-F", Value); ("-t", Value); ("-T", Value); ("-u", Flag); ("-p", Flag); ("-q", Flag);
   ("-U", Flag)]%string.
Definition INFO : table := [("--output", Value); ("-f", Value); ("--backing-chain", Flag); ("-U", Flag)]%string.
Definition MEASURE : table :=
  [("--output", Value); ("-O", Value); ("-f", Value); ("-o", Value); ("-l", Value); ("--size", Value); ("-U", Flag)]%string.
Definition COMPARE : table :=
  [("-f", Value); ("-F", Value); ("-T", Value); ("-s", Flag); ("-p", Flag); ("-q", Flag); ("-U", Flag)]%string.
Definition BITMAP : table :=
  [("--add", Flag); ("--remove", Flag); ("--clear", Flag); ("--enable", Flag); ("--disable", Flag); ("--merge", Value);
   ("-b", Value); ("-F", Value); ("-g", Value); ("-f", Value)]%string.

(* The command is this one, with these options (each once) and these files,
   and cannot be read in another way. *)
Definition understood (name : string) (t : table) (cmd : list text)
    (options : string -> option text -> Prop) (files : list text) : Prop :=
  exists args o, cmd = chars_of "qemu-img" :: chars_of name :: args /\ reads t args o files /\
    (forall o' f', reads t args o' f' -> o' = o /\ f' = files) /\
    NoDup (map fst o) /\
    (forall a v, In (a, v) o <-> exists s, a = chars_of s /\ options s v).

(* An optional text that is there. *)
Definition given (s : option text) (v : text) : Prop := s = Some v /\ v <> [].

(* ---- the image an argument stands for ---- *)

(* block.c: a colon before any slash ends the name of a protocol. *)
Definition protocol (a : text) : Prop := exists p r, a = p ++ 58 :: r /\ ~ In 47 p.

(* An argument stands for a file, or for a part of a file. *)
Inductive stands_for : text -> text -> option (Z * Z) -> Prop :=
| stands_file f : ~ protocol f -> stands_for f f None
| stands_part f offset size t v :
    json_text v t ->
    at_path v [chars_of "file"; chars_of "driver"] (VStr (chars_of "raw")) ->
    at_path v [chars_of "file"; chars_of "offset"] (VInt offset) ->
    at_path v [chars_of "file"; chars_of "size"] (VInt size) ->
    at_path v [chars_of "file"; chars_of "file"; chars_of "driver"] (VStr (chars_of "file")) ->
    at_path v [chars_of "file"; chars_of "file"; chars_of "filename"] (VStr f) ->
    (forall k x, at_path v [k] x -> k = chars_of "file") ->
    stands_for (chars_of "json:" ++ t) f (Some (offset, size)).

(* The last member with the name. *)
Definition last_member (tar : list member) (name : text) (m : member) : Prop :=
  exists a b, tar = a ++ m :: b /\ m_name m = name /\ forall x, In x b -> m_name x <> name.

(* The part of the file that the caller asks about. *)
Inductive part_of (tars : text -> option (list member)) (filename : text) : option text -> option (Z * Z) -> Prop :=
| whole : part_of tars filename None None
| whole_empty : part_of tars filename (Some []) None
| of_member name tar m : name <> [] -> tars filename = Some tar -> last_member tar name m ->
    part_of tars filename (Some name) (Some (m_offset m, m_size m)).

(* qemu-img that succeeds prints an object of JSON.  Used for the commands with
   --output json. *)
Definition prints_objects (run : list text -> outcome) : Prop :=
  forall cmd, returncode (run cmd) = 0 -> exists d, NoDup (map fst d) /\ json_text (VObj d) (stdout (run cmd)).

(* The result has the place of the part, and else what was printed. *)
Definition with_place (part : option (Z * Z)) (d : list (text * value)) (v : value) : Prop :=
  exists d', v = VObj d' /\ NoDup (map fst d') /\
    match part with
    | None => d' = d
    | Some (offset, size) =>
        forall k x, In (k, x) d' <->
          (k = chars_of "member-offset" /\ x = VInt offset) \/ (k = chars_of "member-size" /\ x = VInt size) \/
          (k <> chars_of "member-offset" /\ k <> chars_of "member-size" /\ In (k, x) d)
    end.
