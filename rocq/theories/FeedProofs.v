(* Lemmas about copying and reading. *)
From Coq Require Import ZArith List Bool PeanoNat Lia.
From Verif Require Import FeedModel FeedSpec.
Import ListNotations.

Lemma joined_concat l b : joined l b <-> b = concat l.
Proof.
  split.
  - induction 1 as [|a l b J ->]; reflexivity.
  - intros ->. induction l as [|a l IH]; cbn [concat]; constructor. exact IH.
Qed.

Lemma read_parts s n : concat s = fst (read s n) ++ concat (snd (read s n)).
Proof.
  unfold read. destruct s as [|c r]; [reflexivity|]. cbn [fst snd].
  destruct (skipn n c) as [|x l] eqn:E; cbn [concat].
  - rewrite <- (firstn_skipn n c) at 1. rewrite E, app_nil_r. reflexivity.
  - rewrite <- E, app_assoc, firstn_skipn. reflexivity.
Qed.

Lemma read_length s n : length (fst (read s n)) <= n.
Proof.
  unfold read. destruct s as [|c r]; cbn [fst]; [cbn; lia|]. rewrite firstn_length. lia.
Qed.

Lemma readinto_length s buf : length (fst (fst (readinto s buf))) = length buf.
Proof.
  unfold readinto. pose proof (read_length s (length buf)) as L.
  destruct (read s (length buf)) as [x s']. cbn [fst] in L |- *. rewrite app_length, skipn_length. lia.
Qed.

Lemma read_memory data n : read (memory_reader data) n = (firstn n data, memory_reader (skipn n data)).
Proof.
  unfold read, memory_reader. destruct data as [|x data].
  - rewrite firstn_nil, skipn_nil. reflexivity.
  - reflexivity.
Qed.

Lemma readinto_memory data buf : length buf <= length data ->
  readinto (memory_reader data) buf =
    (firstn (length buf) data, length buf, memory_reader (skipn (length buf) data)).
Proof.
  intros L. unfold readinto. rewrite read_memory, firstn_length.
  replace (Nat.min (length buf) (length data)) with (length buf) by lia.
  rewrite skipn_all, app_nil_r. reflexivity.
Qed.

Lemma firstn_cut (k n : nat) (l : list Z) : k <= n -> firstn n l = firstn k l ++ firstn (n - k) (skipn k l).
Proof.
  revert n l. induction k as [|k IH]; intros n l L; [rewrite Nat.sub_0_r; reflexivity|].
  destruct n as [|n]; [lia|]. destruct l as [|x l]; [rewrite skipn_nil, !firstn_nil; reflexivity|].
  cbn [firstn skipn app Nat.sub]. rewrite (IH n l) by lia. reflexivity.
Qed.
Lemma skipn_cut (k n : nat) (l : list Z) : k <= n -> skipn n l = skipn (n - k) (skipn k l).
Proof.
  revert n l. induction k as [|k IH]; intros n l L; [rewrite Nat.sub_0_r; reflexivity|].
  destruct n as [|n]; [lia|]. destruct l as [|x l]; [rewrite !skipn_nil; reflexivity|].
  cbn [skipn Nat.sub]. apply IH. lia.
Qed.
