(* What an NBD server does with what it receives, and a byte array of fixed
   size with a position, both independent of the code of the backend and of the
   client. *)
From Coq Require Import ZArith List Bool String.
From Coq.Init Require Import Byte.
From Verif Require Import BytesLib NbdModel NbdSpec NbdBackendModel.
Import ListNotations.
Open Scope Z_scope.

(** The server *)

Record request := Request {
  r_flags : Z; r_type : Z; r_handle : Z; r_offset : Z; r_length : Z; r_data : list byte }.

(* The bytes received are these requests; only a write (1) carries data. *)
Inductive requests : list request -> list byte -> Prop :=
| no_request : requests [] []
| a_request f t h o n d b l out :
    request_bytes f t h o n b -> (if t =? 1 then zlen d = n else d = []) ->
    requests l out -> requests (Request f t h o n d :: l) (b ++ d ++ out).

(* The same, but maybe in [a, a + n). *)
Definition same_outside (a n : Z) (l l' : list byte) : Prop :=
  zlen l' = zlen l /\ forall i, 0 <= i -> ~ a <= i < a + n -> getb l' i = getb l i.

(* Replies without data: nothing wrong, or an error. *)
Definition done_reply (structured : bool) (h : Z) (l : list byte) : Prop :=
  simple_bytes 0 h [] l \/ (structured = true /\ reply_bytes h [CNone] l).
Definition error_reply (structured : bool) (h : Z) (l : list byte) : Prop :=
  (exists code, 0 < code < 2 ^ 31 /\ simple_bytes code h [] l)
  \/ (structured = true /\ exists cs, reply_bytes h cs l /\ Exists is_error cs
        /\ Forall (fun c => is_error c \/ c = CNone) cs).

(* How a server having structured replies or not may answer a request: the
   content before, the request, success or failure, the content after and the
   bytes sent back. A failing write may have written a part. *)
Inductive answered (structured : bool) : list byte -> request -> bool -> list byte -> list byte -> Prop :=
| read_structured img f h o n cs l :
    structured = true -> 0 <= o -> o + n <= zlen img -> reply_bytes h cs l ->
    Forall (truthful img o n) cs ->
    (forall i, o <= i < o + n -> Exists (fun c => covers c i) cs) ->
    answered structured img (Request f 0 h o n []) true img l
| read_simple img f h o n l :
    structured = false -> 0 <= o -> o + n <= zlen img -> simple_bytes 0 h (sub o n img) l ->
    answered structured img (Request f 0 h o n []) true img l
| write_done img f h o n d l :
    0 <= o -> o + n <= zlen img -> done_reply structured h l ->
    answered structured img (Request f 1 h o n d) true (splice img o d) l
| zero_done img f h o n l :
    0 <= o -> o + n <= zlen img -> done_reply structured h l ->
    answered structured img (Request f 6 h o n []) true (splice img o (zeros n)) l
| flush_done img f h o n l :
    done_reply structured h l -> answered structured img (Request f 3 h o n []) true img l
| disconnected img f h o n :
    answered structured img (Request f 2 h o n []) true img []
| read_failed img f h o n cs l :
    structured = true -> reply_bytes h cs l -> Exists is_error cs ->
    Forall (fun c => is_error c \/ truthful img o n c) cs ->
    answered structured img (Request f 0 h o n []) false img l
| read_failed_simple img f h o n code l :
    structured = false -> 0 < code < 2 ^ 31 -> simple_bytes code h [] l ->
    answered structured img (Request f 0 h o n []) false img l
| change_failed img img' f t h o n d l :
    t = 1 \/ t = 6 -> same_outside o n img img' -> error_reply structured h l ->
    answered structured img (Request f t h o n d) false img' l
| flush_failed img f h o n l :
    error_reply structured h l -> answered structured img (Request f 3 h o n []) false img l.

(* Answering one request after the other. *)
Inductive serves (structured : bool) : list byte -> list request -> list bool -> list byte -> list byte -> Prop :=
| served img : serves structured img [] [] img []
| serves_one img r ok img1 l rs oks img2 l' :
    answered structured img r ok img1 l -> serves structured img1 rs oks img2 l' ->
    serves structured img (r :: rs) (ok :: oks) img2 (l ++ l').

(** The array *)

Record array := Array {
  a_data : list byte;
  a_pos : Z;
  a_dirty : bool;         (* changed since the last flush *)
  a_closed : bool
}.
Definition set_data a l p d := Array l p d (a_closed a).

(* What is fixed: the mode, and what the server can do. *)
Record config := Config { g_read : bool; g_write : bool; g_zeroes : bool; g_flush : bool }.

(* Reading needs "r" or "r+", writing "w" or "r+"; bit 6 of the transmission
   flags of the server is for WRITE_ZEROES, bit 2 for FLUSH. *)
Definition config_of (m : mode) (flags : Z) : config :=
  Config (match m with MODE_W => false | _ => true end) (match m with MODE_R => false | _ => true end)
         (Z.testbit flags 6) (Z.testbit flags 2).

(* The result of a call: the value and the content of the buffer of a read. *)
Inductive result := Done (n : Z) (buf : list byte) | Failed.

(* Offset and length the protocol can express. *)
Definition expressible (pos n : Z) : bool :=
  (0 <=? pos) && (pos <? 2 ^ 64) && (0 <=? n) && (n <? 2 ^ 32).

(* acts g c asked a r a': what call c may do. asked: whether the server was
   asked, and whether it succeeded. *)
Inductive acts (g : config) : call -> option bool -> array -> result -> array -> Prop :=
(* read at most up to the end *)
| act_read buf n a :
    g_read g = true -> a_closed a = false ->
    n = Z.min (zlen buf) (zlen (a_data a) - a_pos a) -> 0 < n -> expressible (a_pos a) n = true ->
    acts g (BReadinto buf) (Some true) a
         (Done n (sub (a_pos a) n (a_data a) ++ drop n buf))
         (set_data a (a_data a) (a_pos a + n) (a_dirty a))
| act_read_end buf a :
    g_read g = true -> a_closed a = false ->
    zlen buf = 0 \/ zlen (a_data a) <= a_pos a ->
    acts g (BReadinto buf) None a (Done 0 buf) a
| act_read_error buf n a :
    g_read g = true -> a_closed a = false ->
    n = Z.min (zlen buf) (zlen (a_data a) - a_pos a) -> 0 < n -> expressible (a_pos a) n = true ->
    acts g (BReadinto buf) (Some false) a Failed a
| act_read_refused buf a :
    g_read g = false \/ a_closed a = true
    \/ 0 < Z.min (zlen buf) (zlen (a_data a) - a_pos a)
       /\ expressible (a_pos a) (Z.min (zlen buf) (zlen (a_data a) - a_pos a)) = false ->
    acts g (BReadinto buf) None a Failed a
(* write within the array, or fail *)
| act_write d a :
    g_write g = true -> a_closed a = false -> expressible (a_pos a) (zlen d) = true ->
    a_pos a + zlen d <= zlen (a_data a) ->
    acts g (BWrite d) (Some true) a (Done (zlen d) [])
         (set_data a (splice (a_data a) (a_pos a) d) (a_pos a + zlen d) true)
| act_write_error d a l :
    g_write g = true -> a_closed a = false -> expressible (a_pos a) (zlen d) = true ->
    same_outside (a_pos a) (zlen d) (a_data a) l ->
    acts g (BWrite d) (Some false) a Failed (set_data a l (a_pos a) (a_dirty a))
| act_write_refused d a :
    g_write g = false \/ a_closed a = true \/ expressible (a_pos a) (zlen d) = false ->
    acts g (BWrite d) None a Failed a
(* the same with zeroes *)
| act_zero n a :
    g_write g = true -> g_zeroes g = true -> a_closed a = false -> expressible (a_pos a) n = true ->
    a_pos a + n <= zlen (a_data a) ->
    acts g (BZero n) (Some true) a (Done n [])
         (set_data a (splice (a_data a) (a_pos a) (zeros n)) (a_pos a + n) true)
| act_zero_error n a l :
    g_write g = true -> g_zeroes g = true -> a_closed a = false -> expressible (a_pos a) n = true ->
    same_outside (a_pos a) n (a_data a) l ->
    acts g (BZero n) (Some false) a Failed (set_data a l (a_pos a) (a_dirty a))
| act_zero_refused n a :
    g_write g = false \/ g_zeroes g = false \/ a_closed a = true \/ expressible (a_pos a) n = false ->
    acts g (BZero n) None a Failed a
| act_flush a :
    g_flush g = true -> a_closed a = false ->
    acts g BFlush (Some true) a (Done 0 []) (set_data a (a_data a) (a_pos a) false)
| act_flush_error a :
    g_flush g = true -> a_closed a = false -> acts g BFlush (Some false) a Failed a
| act_flush_unsupported a :
    g_flush g = false -> a_closed a = false ->
    acts g BFlush None a (Done 0 []) (set_data a (a_data a) (a_pos a) false)
| act_flush_closed a : a_closed a = true -> acts g BFlush None a Failed a
| act_tell a : acts g BTell None a (Done (a_pos a) []) a
| act_seek p n how a :
    match how with
    | SEEK_SET => p = n
    | SEEK_CUR => p = a_pos a + n
    | SEEK_END => a_closed a = false /\ p = zlen (a_data a) + n
    | SEEK_OTHER => p = a_pos a
    end ->
    acts g (BSeek n how) None a (Done p []) (set_data a (a_data a) p (a_dirty a))
| act_seek_closed n a : a_closed a = true -> acts g (BSeek n SEEK_END) None a Failed a
| act_size a : a_closed a = false -> acts g BSize None a (Done (zlen (a_data a)) []) a
| act_size_closed a : a_closed a = true -> acts g BSize None a Failed a
| act_close a : a_closed a = false ->
    acts g BClose (Some true) a (Done 0 []) (Array (a_data a) (a_pos a) (a_dirty a) true)
| act_close_again a : a_closed a = true -> acts g BClose None a (Done 0 []) a.

Definition verdicts (asked : option bool) (l : list bool) : list bool :=
  match asked with None => l | Some ok => ok :: l end.

(* Calls one after the other; oks: the verdicts of the server, in order. *)
Inductive runs (g : config) : list call -> list bool -> array -> list result -> array -> Prop :=
| runs_none a : runs g [] [] a [] a
| runs_one c l asked oks a r a' rs a'' :
    acts g c asked a r a' -> runs g l oks a' rs a'' ->
    runs g (c :: l) (verdicts asked oks) a (r :: rs) a''.

(* Results of the backend as results of the array. *)
Definition result_of (r : (Z * list byte) + bexc) : result :=
  match r with inl (n, b) => Done n b | inr _ => Failed end.
