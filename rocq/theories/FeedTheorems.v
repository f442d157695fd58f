(* Copying for the memory backend, and streams with short reads. *)
From Coq Require Import ZArith List Bool PeanoNat Lia.
From Verif Require Import FeedModel FeedSpec FeedProofs.
Import ListNotations.

(* Full statement: read_from and write_to of a memory backend copy the next
   [length] bytes of any reader that has them, with any buffer.  False for
   readers with short reads, see copy_short_refuted.

   What is true: a memory backend is copied, for every length and every size of
   the buffer, and nothing of the buffer is written. *)
Theorem copy_memory_partial data out n buf : 0 < length buf -> n <= length data ->
  exists fuel got left buf', copy fuel (memory_reader data) out n buf = Some (out ++ got, memory_reader left, buf') /\
    moved n data got left /\ length buf' = length buf.
Proof.
  intros B L. exists (S n). unfold moved.
  assert (G : forall fuel data out buf n, 0 < length buf -> n <= length data -> n < fuel ->
    exists buf', copy fuel (memory_reader data) out n buf =
      Some (out ++ firstn n data, memory_reader (skipn n data), buf') /\ length buf' = length buf).
  { clear. induction fuel as [|fuel IH]; intros data out buf n B L F; [lia|]. cbn [copy].
    destruct (Nat.ltb_spec (length buf) n) as [T|T].
    - rewrite readinto_memory by lia.
      assert (LB : length (firstn (length buf) data) = length buf) by (rewrite firstn_length; lia).
      destruct (IH (skipn (length buf) data) (out ++ firstn (length buf) data) (firstn (length buf) data)
                  (n - length buf)) as (buf' & E & LE).
      + lia.
      + rewrite skipn_length. lia.
      + lia.
      + exists buf'. rewrite E. split; [|lia].
        rewrite (firstn_cut (length buf) n data), (skipn_cut (length buf) n data), app_assoc by lia. reflexivity.
    - assert (LV : length (firstn n buf) = n) by (rewrite firstn_length; lia).
      rewrite readinto_memory by lia. rewrite LV. eexists. split; [reflexivity|].
      rewrite app_length, firstn_length, skipn_length. lia. }
  destruct (G (S n) data out buf n B L) as (buf' & E & LE); [lia|].
  exists (firstn n data), (skipn n data), buf'. split; [exact E|]. split; [|exact LE].
  split; [symmetry; apply firstn_skipn|]. rewrite firstn_length. lia.
Qed.

Example copy_memory_case :
  copy 4 (memory_reader [1; 2; 3; 4; 5; 6; 7; 8]%Z) [9]%Z 7 [0; 0; 0]%Z =
    Some ([9; 1; 2; 3; 4; 5; 6; 7]%Z, memory_reader [8]%Z, [7; 5; 6]%Z).
Proof. vm_compute. reflexivity. Qed.
Print Assumptions copy_memory_partial.

(* Whatever the reader does, the copy ends, and writes as many bytes as asked
   for. *)
Theorem copy_ends s out n buf : 0 < length buf ->
  exists fuel got s' buf', copy fuel s out n buf = Some (out ++ got, s', buf') /\ length got = n.
Proof.
  intros B. exists (S n).
  assert (G : forall fuel s out buf n, 0 < length buf -> n < fuel ->
    exists got s' buf', copy fuel s out n buf = Some (out ++ got, s', buf') /\ length got = n).
  { clear. induction fuel as [|fuel IH]; intros s out buf n B F; [lia|]. cbn [copy].
    destruct (Nat.ltb_spec (length buf) n) as [T|T].
    - pose proof (readinto_length s buf) as RL. destruct (readinto s buf) as [[buf1 k] s1]. cbn [fst] in RL.
      destruct (IH s1 (out ++ buf1) buf1 (n - length buf)) as (got & s' & buf' & E & LE); [lia|lia|].
      exists (buf1 ++ got), s', buf'. rewrite E, app_length, <- app_assoc. split; [reflexivity|lia].
    - pose proof (readinto_length s (firstn n buf)) as RL.
      destruct (readinto s (firstn n buf)) as [[v k] s1]. cbn [fst] in RL. rewrite firstn_length in RL.
      exists v, s1, (v ++ skipn n buf). split; [reflexivity|lia]. }
  apply G; [exact B|lia].
Qed.

Example copy_ends_case :
  copy 3 [[1]; []; [2; 3]]%Z [] 5 [0; 0]%Z = Some ([1; 0; 1; 0; 2]%Z, [[3]]%Z, [2; 0]%Z).
Proof. vm_compute. reflexivity. Qed.
Print Assumptions copy_ends.

(* The result of readinto is not looked at.  After a short read the rest of the
   buffer is written, which may be data of an earlier copy, although the reader
   has all the bytes. *)
Theorem copy_short_refuted :
  exists s all fuel buf got s' buf', joined s all /\ length all = 3 /\ 0 < length buf /\
    copy fuel s [] 3 buf = Some (got, s', buf') /\ (forall left, ~ moved 3 all got left) /\
    exists x, In x got /\ ~ In x all /\ In x buf.
Proof.
  exists [[1]; [2; 3]]%Z, [1; 2; 3]%Z, 4, [7; 8; 9; 10]%Z, [1; 8; 9]%Z, [[2; 3]]%Z, [1; 8; 9; 10]%Z.
  split; [apply joined_concat; reflexivity|]. split; [reflexivity|]. split; [cbn; lia|].
  split; [vm_compute; reflexivity|]. split; [intros left [E _]; discriminate E|].
  exists 8%Z. split; [right; left; reflexivity|]. split; [|right; left; reflexivity].
  intros [E|[E|[E|[]]]]; discriminate E.
Qed.
Print Assumptions copy_short_refuted.

(* Nor is the end of the reader noticed: a copy of more bytes than there are
   succeeds, and writes what was in the buffer. *)
Theorem copy_past_end_refuted :
  exists data fuel buf got s' buf', length data < 3 /\
    copy fuel (memory_reader data) [] 3 buf = Some (got, s', buf') /\
    exists x, In x got /\ ~ In x data /\ In x buf.
Proof.
  exists [1; 2]%Z, 2, [7; 8; 9]%Z, [1; 2; 9]%Z, [], [1; 2; 9]%Z. split; [cbn; lia|].
  split; [vm_compute; reflexivity|]. exists 9%Z. split; [right; right; left; reflexivity|].
  split; [|right; right; left; reflexivity]. intros [E|[E|[]]]; discriminate E.
Qed.
Print Assumptions copy_past_end_refuted.

(* With an empty buffer a copy of something never ends. *)
Theorem copy_empty_buffer_hangs s out n : 0 < n -> forall fuel, copy fuel s out n [] = None.
Proof.
  intros N fuel. revert s out. induction fuel as [|fuel IH]; intros s out; [reflexivity|]. cbn [copy length].
  destruct (Nat.ltb_spec 0 n) as [T|T]; [|lia].
  destruct (readinto s []) as [[buf k] s1] eqn:E.
  assert (buf = []) as ->.
  { pose proof (readinto_length s []) as L. rewrite E in L. cbn [fst length] in L. destruct buf; [reflexivity|discriminate]. }
  rewrite Nat.sub_0_r. apply IH.
Qed.

Example copy_empty_buffer_case : copy 100 [[1]]%Z [] 1 [] = None.
Proof. vm_compute. reflexivity. Qed.
Print Assumptions copy_empty_buffer_hangs.

(* Streams: no byte is lost or moved, however much is read at a time, and a
   read never gives more than asked for. *)
Theorem stream_in_order s sizes all : joined s all ->
  exists l s' got left, reads s sizes = (l, s') /\ joined l got /\ joined s' left /\ all = got ++ left /\
    Forall2 (fun x n => length x <= n) l sizes.
Proof.
  intros J. apply joined_concat in J. subst all. revert s.
  induction sizes as [|n sizes IH]; intros s.
  - exists [], s, [], (concat s). cbn [reads]. repeat split; auto; try constructor; apply joined_concat; reflexivity.
  - cbn [reads]. pose proof (read_parts s n) as P. pose proof (read_length s n) as L.
    destruct (read s n) as [x s1]. cbn [fst snd] in P, L.
    destruct (IH s1) as (l & s' & got & left & E & J1 & J2 & A & F). rewrite E.
    exists (x :: l), s', (x ++ got), left. split; [reflexivity|]. split; [constructor; exact J1|].
    split; [exact J2|]. split; [rewrite P, A, app_assoc; reflexivity|]. constructor; auto.
Qed.

Example stream_in_order_case :
  reads [[1; 2; 3]; [4]]%Z [2; 2; 2; 2] = ([[1; 2]; [3]; [4]; []]%Z, []) /\ joined [[1; 2; 3]; [4]]%Z [1; 2; 3; 4]%Z.
Proof. split; [reflexivity|apply joined_concat; reflexivity]. Qed.
Print Assumptions stream_in_order.

(* Full statement: nothing is read only at the end.  If no chunk is empty, a
   read of something gives nothing only if nothing is left, and no chunk becomes
   empty. *)
Theorem stream_end_partial s n all : Forall (fun c => c <> []) s -> 0 < n -> joined s all ->
  (fst (read s n) = [] <-> all = []) /\ Forall (fun c => c <> []) (snd (read s n)).
Proof.
  intros F N J. apply joined_concat in J. subst all. destruct s as [|c r].
  - split; [split; reflexivity|constructor].
  - inversion F as [|? ? C R]; subst. unfold read. cbn [fst snd]. split.
    + destruct c as [|x c]; [congruence|]. destruct n as [|n]; [lia|]. cbn. split; discriminate.
    + destruct (skipn n c) as [|x l] eqn:E; [exact R|]. constructor; [discriminate|exact R].
Qed.

Example stream_end_case : Forall (fun c => c <> []) [[1; 2]; [3]]%Z /\ read [[1; 2]; [3]]%Z 2 = ([1; 2]%Z, [[3]]%Z).
Proof. split; [repeat constructor; discriminate|reflexivity]. Qed.
Print Assumptions stream_end_partial.

(* An empty chunk looks like the end, with bytes left. *)
Theorem stream_end_refuted :
  exists s n all, 0 < n /\ joined s all /\ fst (read s n) = [] /\ all <> [].
Proof.
  exists [[]; [1]]%Z, 4, [1]%Z. split; [lia|]. split; [apply joined_concat; reflexivity|].
  split; [reflexivity|discriminate].
Qed.
Print Assumptions stream_end_refuted.

(* readinto gives the same bytes as read, at the start of the buffer, and says
   how many; the rest of the buffer is as before. *)
Theorem readinto_keeps_rest s buf :
  exists got n s' rest, readinto s buf = (got ++ rest, n, s') /\ read s (length buf) = (got, s') /\
    length got = n /\ n <= length buf /\ exists old, buf = old ++ rest /\ length old = n.
Proof.
  unfold readinto. pose proof (read_length s (length buf)) as L.
  destruct (read s (length buf)) as [x s'] eqn:E. cbn [fst] in L.
  exists x, (length x), s', (skipn (length x) buf). repeat split; auto.
  exists (firstn (length x) buf). split; [symmetry; apply firstn_skipn|]. rewrite firstn_length. lia.
Qed.

Example readinto_case : readinto [[1; 2]; [3]]%Z [7; 8; 9]%Z = ([1; 2; 9]%Z, 2, [[3]]%Z).
Proof. reflexivity. Qed.
Print Assumptions readinto_keeps_rest.
