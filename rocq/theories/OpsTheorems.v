(* C08 - C12, C40: what Read, Write, Zero and Flush operations do, for every
   behaviour of the backend, the client connection and cancellation. *)
From Coq Require Import ZArith List Bool Lia.
From Verif Require Import BytesLib OpsModel OpsProofs.
Import ListNotations.
Open Scope Z_scope.

(* ---- Specification vocabulary ---- *)

(* [data] is the range [offset, offset + n) of [img], all inside of it. *)
Definition is_range (img : list byte) (offset n : Z) (data : list byte) : Prop :=
  zlen data = n /\
  forall i, 0 <= i < n -> offset + i < zlen img /\ getb data i = getb img (offset + i).

(* [img'] is [img] with the range [offset, offset + n) replaced by [f]. *)
Definition replaced (img img' : list byte) (offset n : Z) (f : Z -> byte) : Prop :=
  (forall i, offset <= i < offset + n -> getb img' i = f (i - offset)) /\
  (forall i, i < offset \/ offset + n <= i -> getb img' i = getb img i) /\
  zlen img' = (if n =? 0 then zlen img else Z.max (zlen img) (offset + n)).

Lemma is_range_sub img offset n :
  0 <= offset -> zlen (sub offset n img) = n -> is_range img offset n (sub offset n img).
Proof.
  intros Ho L. split; auto. intros i Hi. rewrite zlen_sub in L. split; [lia|].
  rewrite getb_sub by lia. replace (i <? n) with true by lia. reflexivity.
Qed.

Lemma replaced_splice img offset data :
  0 <= offset -> replaced img (splice img offset data) offset (zlen data) (getb data).
Proof.
  intros Ho. pose proof (zlen_nonneg data). repeat split.
  - intros i Hi. rewrite getb_splice by auto.
    replace (offset <=? i) with true by lia. replace (i <? offset + zlen data) with true by lia. auto.
  - intros i Hi. rewrite getb_splice by auto.
    destruct (offset <=? i) eqn:A, (i <? offset + zlen data) eqn:B; auto; lia.
  - rewrite zlen_splice by auto. destruct data; [reflexivity|].
    assert (0 < zlen (b :: data)) by (apply zlen_pos; discriminate).
    replace (zlen (b :: data) =? 0) with false by lia. reflexivity.
Qed.

Lemma replaced_zeros img offset n :
  0 <= offset -> 0 <= n -> replaced img (splice img offset (zeros n)) offset n (fun _ => x00).
Proof.
  intros Ho Hn. pose proof (replaced_splice img offset (zeros n) Ho) as (A & B & C).
  rewrite zlen_zeros in *. replace (Z.max 0 n) with n in * by lia.
  repeat split; auto. intros i Hi. rewrite A by auto. apply getb_zeros.
Qed.

(* ---- C08 ---- *)

(* A read that succeeds sent exactly the requested bytes. *)
Theorem read_sends_exact_bytes :
  forall img buf bs offset size o fuel s,
    0 < bs -> 0 <= offset -> 0 <= size ->
    read_run fuel img buf bs offset size o = Some (s, Success) ->
    is_range img offset size (r_sent s) /\ r_done s = size.
Proof.
  intros img buf bs offset size o fuel s Hb Ho Hs E.
  apply run_gen in E as [_ E]; auto. destruct (E eq_refl) as (E1 & E2 & E3). split; auto.
  rewrite E1 in *. now apply is_range_sub.
Qed.
Print Assumptions read_sends_exact_bytes.

(* With a backend that reads whole blocks, or up to the end of the image, a
   read inside of the image succeeds. *)
Theorem read_succeeds :
  forall img buf bs offset size o,
    0 < bs -> 0 <= offset -> 0 <= size -> offset + size <= zlen img ->
    (0 < size \/ offset mod bs = 0) ->
    0 < zlen buf -> zlen buf mod bs = 0 ->
    (forall i, exists c, ra_count (o i) = Some c /\ 0 < c /\ c mod bs = 0 /\
                         ra_send (o i) = None /\ ra_cancel (o i) = false) ->
    exists fuel s, read_run fuel img buf bs offset size o = Some (s, Success).
Proof.
  intros img buf bs offset size o Hb Ho Hs Hi Hz Hp Hm G.
  destruct (run_terminates img buf bs offset size o Hb Ho) as (fuel & [s e] & R).
  exists fuel, s. rewrite R. do 2 f_equal. eapply (run_good img buf bs offset size o); eauto; exact G.
Qed.
Print Assumptions read_succeeds.

(* Every read ends, even for a negative size. *)
Theorem read_terminates :
  forall img buf bs offset size o,
    0 < bs -> 0 <= offset ->
    exists fuel r, read_run fuel img buf bs offset size o = Some r.
Proof. exact run_terminates. Qed.
Print Assumptions read_terminates.

(* Every read from the backend is aligned (needed for direct I/O, C14). *)
Theorem read_calls_aligned :
  forall img buf bs offset size o fuel s e,
    0 < bs -> 0 <= offset -> zlen buf mod bs = 0 ->
    read_run fuel img buf bs offset size o = Some (s, e) ->
    forall pos len, In (pos, len) (r_calls s) -> pos mod bs = 0 /\ len mod bs = 0 /\ 0 <= len.
Proof.
  intros img buf bs offset size o fuel s e Hb Ho Hl E pos len I.
  apply run_calls in E; auto. rewrite Forall_forall in E. exact (E _ I).
Qed.
Print Assumptions read_calls_aligned.

Definition img_ex : list byte := [x01; x02; x03; x04; x05; x06; x07; x08; x09; x0a].
Definition buf_ex : list byte := [xff; xff; xff; xff; xff; xff; xff; xff].
Definition full_ex : nat -> rans := fun _ => RAns (Some 8) None false.

(* block size 4, buffer of 2 blocks, [3, 10) *)
Example read_ex :
  exists s, read_run 10 img_ex buf_ex 4 3 7 full_ex = Some (s, Success) /\
            r_sent s = [x04; x05; x06; x07; x08; x09; x0a] /\
            r_calls s = [(0, 8); (8, 4)].
Proof. eexists. vm_compute. auto. Qed.

(* Finding: a read of zero bytes at an offset that is not a multiple of the
   block size always fails, although at any other offset it succeeds. *)
Example empty_unaligned_read_fails :
  exists s s', read_run 10 img_ex buf_ex 4 10 0 full_ex = Some (s, PartialContent) /\
               read_run 10 img_ex buf_ex 4 8 0 full_ex = Some (s', Success).
Proof. eexists _, _. vm_compute. auto. Qed.

(* ---- C09 ---- *)

(* However a read ends, the bytes sent are the first bytes of the requested
   range, at most [size] of them. *)
Theorem read_sends_only_a_prefix :
  forall img buf bs offset size o fuel s e,
    0 < bs -> 0 <= offset -> 0 <= size ->
    read_run fuel img buf bs offset size o = Some (s, e) ->
    exists n, 0 <= n <= size /\ is_range img offset n (r_sent s).
Proof.
  intros img buf bs offset size o fuel s e Hb Ho Hs E.
  apply run_gen in E as [(n & Hn & E1 & E2) _]; auto. exists n. split; auto.
  rewrite E1 in *. now apply is_range_sub.
Qed.
Print Assumptions read_sends_only_a_prefix.

(* Success is not reported with missing bytes: if the image ends before the
   end of the request, the read fails. *)
Theorem short_image_read_fails :
  forall img buf bs offset size o fuel s e,
    0 < bs -> 0 <= offset -> 0 < size -> zlen img < offset + size ->
    read_run fuel img buf bs offset size o = Some (s, e) -> e <> Success.
Proof.
  intros img buf bs offset size o fuel s e Hb Ho Hs Hi E ->.
  apply read_sends_exact_bytes in E as [[_ E] _]; auto; [|lia].
  destruct (E (size - 1)); lia.
Qed.
Print Assumptions short_image_read_fails.

(* A connection that breaks in the middle of the second chunk, and an image
   that is too short. *)
Example read_fails_ex :
  exists s s',
    read_run 10 img_ex buf_ex 4 3 7 (fun i => match i with
       | O => RAns (Some 4) None false | _ => RAns (Some 4) (Some 2) false end)
      = Some (s, Failed) /\ r_sent s = [x04; x05; x06] /\
    read_run 10 img_ex buf_ex 4 3 17 full_ex = Some (s', PartialContent) /\
    r_sent s' = [x04; x05; x06; x07; x08; x09; x0a].
Proof. eexists _, _. vm_compute. auto. Qed.

(* Once the operation was canceled, at most the current chunk is completed:
   if the flag is set when chunk number i ends, no other chunk is read.  The
   same for write and zero, counting the completed chunks. *)
Theorem canceled_operation_stops :
  (forall img buf bs offset size o i fuel s e,
     0 < bs -> 0 <= offset -> ra_cancel (o i) = true ->
     read_run fuel img buf bs offset size o = Some (s, e) -> (r_chunks s <= S i)%nat) /\
  (forall img body bs buflen offset size flush o i fuel s e,
     wo_cancel o i = true ->
     write_run fuel img body bs buflen offset size flush o = Some (s, e) -> (w_ci s <= S i)%nat) /\
  (forall img offset size flush o i fuel s e,
     wo_cancel o i = true ->
     zero_run fuel img offset size flush o = Some (s, e) -> (w_ci s <= S i)%nat).
Proof.
  split; [|split]; intros; [eapply run_cancel|eapply write_run_ci|eapply zero_run_ci]; eauto.
Qed.
Print Assumptions canceled_operation_stops.

(* ---- C10 ---- *)

(* A write that succeeds stored exactly the first [size] bytes of the body,
   consumed exactly these, and changed nothing else. *)
Theorem write_stores_exact_bytes :
  forall img body bs buflen offset size flush o fuel s,
    0 < bs -> 0 < buflen -> 0 <= offset -> 0 <= size ->
    write_run fuel img body bs buflen offset (Some size) flush o = Some (s, Success) ->
    size <= zlen body /\
    replaced img (w_img s) offset size (getb body) /\
    w_body s = drop size body /\ w_done s = size.
Proof.
  intros img body bs buflen offset size flush o fuel s Hs Hb Ho Hz E.
  apply write_run_spec in E as [[N _]|(log & _ & _ & D & B & L & I & S & _)]; auto; [tauto| |].
  2:{ intros n Hn. now injection Hn as <-. }
  rewrite (S size eq_refl) in *.
  assert (Lb : size <= zlen body) by (rewrite zlen_take in L; pose proof (zlen_nonneg body); lia).
  split; auto. split; [|split; auto].
  - rewrite I. destruct (replaced_splice img offset (take size body) Ho) as (A & C & F).
    rewrite L in *. repeat split; auto. intros i Hi. rewrite A by auto.
    rewrite getb_take by lia. replace (i - offset <? size) with true by lia. reflexivity.
  - assert (E : drop (zlen (take size body)) (take size body ++ w_body s) = w_body s) by apply drop_app_exact.
    rewrite L, <- B in E. auto.
Qed.
Print Assumptions write_stores_exact_bytes.

(* Without a size all that was read until the end of the body is stored. *)
Theorem write_without_size :
  forall img body bs buflen offset flush o fuel s,
    0 < bs -> 0 < buflen -> 0 <= offset ->
    write_run fuel img body bs buflen offset None flush o = Some (s, Success) ->
    replaced img (w_img s) offset (w_done s) (getb body) /\
    body = take (w_done s) body ++ w_body s.
Proof.
  intros img body bs buflen offset flush o fuel s Hs Hb Ho E.
  apply write_run_spec in E as [[N _]|(log & _ & _ & D & B & L & I & S & _)]; auto; [tauto| |discriminate].
  split; auto. rewrite I. destruct (replaced_splice img offset (take (w_done s) body) Ho) as (A & C & F).
  rewrite L in *. repeat split; auto. intros i Hi. rewrite A by auto.
  rewrite getb_take by lia. replace (i - offset <? w_done s) with true by lia. reflexivity.
Qed.
Print Assumptions write_without_size.

(* If the body is long enough and nothing fails the write succeeds, whatever
   the number of bytes read and written by each call. *)
Theorem write_succeeds :
  forall img body bs buflen offset size flush o,
    0 < bs <= buflen -> 0 <= offset -> 0 <= size <= zlen body ->
    (forall i, exists c, wo_read o i = Some c /\ 0 < c) ->
    (forall i, exists c, wo_write o i = WOk c) ->
    (forall i, wo_cancel o i = false) -> wo_flush o = true ->
    exists fuel s, write_run fuel img body bs buflen offset (Some size) flush o = Some (s, Success).
Proof.
  intros img body bs buflen offset size flush o Hb Ho Hs R W C F.
  destruct (write_run_terminates img body bs buflen offset (Some size) flush o) as (fuel & [s e] & E);
    auto; try lia. { intros n Hn. injection Hn as <-. lia. }
  exists fuel, s. rewrite E. do 2 f_equal. eapply write_run_good; eauto. repeat split; auto.
Qed.
Print Assumptions write_succeeds.

Theorem write_terminates :
  forall img body bs buflen offset size flush o,
    0 < bs -> 0 < buflen -> 0 <= offset -> (forall n, size = Some n -> 0 <= n) ->
    exists fuel r, write_run fuel img body bs buflen offset size flush o = Some r.
Proof. intros. now apply write_run_terminates. Qed.
Print Assumptions write_terminates.

(* A body that is too short never succeeds. *)
Theorem short_body_write_fails :
  forall img body bs buflen offset size flush o fuel s e,
    0 < bs -> 0 < buflen -> 0 <= offset -> 0 <= size -> zlen body < size ->
    write_run fuel img body bs buflen offset (Some size) flush o = Some (s, e) -> e <> Success.
Proof.
  intros img body bs buflen offset size flush o fuel s e Hs Hb Ho Hz L E ->.
  apply write_stores_exact_bytes in E as [E _]; auto. lia.
Qed.
Print Assumptions short_body_write_fails.

(* With a backend that does not write short, all the writes but the first
   start at a block boundary, and all but the last end at one, so only the
   first and the last block can need read-modify-write. *)
Theorem write_calls_aligned :
  forall img body bs buflen offset size flush o fuel s,
    0 < bs -> 0 < buflen -> buflen mod bs = 0 -> 0 <= offset -> 0 <= size ->
    (forall i, exists c, wo_write o i = WOk c /\ buflen <= c) ->
    write_run fuel img body bs buflen offset (Some size) flush o = Some (s, Success) ->
    forall pos len, In (EWrite pos len) (w_log s) ->
      (pos = offset \/ pos mod bs = 0) /\
      (pos + len = offset + size \/ (pos + len) mod bs = 0).
Proof.
  intros img body bs buflen offset size flush o fuel s Hs Hb Hm Ho Hz W E pos len I.
  apply write_run_cut in E; auto. rewrite Forall_forall in E. exact (E _ I).
Qed.
Print Assumptions write_calls_aligned.

Definition slow_ex : woracle :=
  WOracle (fun i => Some (Z.of_nat (S (i mod 2)))) (fun i => WOk (Z.of_nat (S (i mod 3))))
          (fun _ => false) true.
Definition body_ex : list byte := [xa0; xa1; xa2; xa3; xa4; xa5; xa6; xa7; xa8].

(* block size 4, buffer 8, 7 bytes at offset 2, reads of 1 or 2 bytes,
   writes of 1 to 3 bytes *)
Example write_ex :
  exists s, write_run 20 img_ex body_ex 4 8 2 (Some 7) true slow_ex = Some (s, Success) /\
    w_img s = [x01; x02; xa0; xa1; xa2; xa3; xa4; xa5; xa6; x0a] /\
    w_body s = [xa7; xa8] /\
    w_log s = [EWrite 2 1; EWrite 3 1; EWrite 4 3; EWrite 7 1; EWrite 8 1; EFlush].
Proof. eexists. vm_compute. auto. Qed.

Example write_aligned_ex :
  exists s, write_run 20 img_ex body_ex 2 4 1 (Some 8) false
     (WOracle (fun _ => Some 3) (fun _ => WOk 100) (fun _ => false) true) = Some (s, Success) /\
    w_log s = [EWrite 1 1; EWrite 2 4; EWrite 6 3].
Proof. eexists. vm_compute. auto. Qed.

(* ---- C11 ---- *)

(* However a write ends, the image is changed only in a prefix of the
   requested range, the new bytes there are the bytes of the body, and at
   least the bytes counted as done are stored. *)
Theorem write_changes_only_requested_range :
  forall img body bs buflen offset size flush o fuel s e,
    0 < bs -> 0 < buflen -> 0 <= offset -> 0 <= size ->
    write_run fuel img body bs buflen offset (Some size) flush o = Some (s, e) ->
    exists n, 0 <= w_done s <= n /\ n <= size /\ n <= zlen body /\
              replaced img (w_img s) offset n (getb body).
Proof.
  intros img body bs buflen offset size flush o fuel s e Hs Hb Ho Hz E.
  assert (Main : forall m, 0 <= m -> zlen (take m body) = m ->
    m <= zlen body /\ replaced img (splice img offset (take m body)) offset m (getb body)).
  { intros m Hm L. split; [rewrite zlen_take in L; pose proof (zlen_nonneg body); lia|].
    destruct (replaced_splice img offset (take m body) Ho) as (A & C & F).
    rewrite L in *. repeat split; auto. intros i Hi. rewrite A by auto.
    rewrite getb_take by lia. replace (i - offset <? m) with true by lia. reflexivity. }
  apply write_run_spec in E as
    [[N (m & M1 & M2 & M3 & M4 & _)]|(log & _ & _ & D & B & L & I & S & _)]; auto.
  - exists m. specialize (M3 _ eq_refl). rewrite M4. destruct (Main m ltac:(lia) M2) as [A C].
    repeat (split; [lia|]). exact C.
  - exists (w_done s). rewrite (S _ eq_refl) in *. rewrite I. destruct (Main size ltac:(lia) L) as [A C].
    repeat (split; [lia|]). exact C.
  - intros n Hn. now injection Hn as <-.
Qed.
Print Assumptions write_changes_only_requested_range.

(* The second write fails after storing one byte of the two it was given. *)
Example write_fails_ex :
  exists s, write_run 20 img_ex body_ex 4 8 2 (Some 7) true
     (WOracle (fun _ => Some 10) (fun i => match i with O => WOk 2 | _ => WFail 1 end)
              (fun _ => false) true) = Some (s, Failed) /\
    w_img s = [x01; x02; xa0; xa1; xa2; x06; x07; x08; x09; x0a] /\ w_done s = 2.
Proof. eexists. vm_compute. auto. Qed.

(* ---- C12 ---- *)

Theorem zero_zeroes_exactly :
  forall img offset size flush o fuel s,
    0 <= offset -> 0 <= size ->
    zero_run fuel img offset size flush o = Some (s, Success) ->
    replaced img (w_img s) offset size (fun _ => x00) /\ w_done s = size.
Proof.
  intros img offset size flush o fuel s Ho Hs E.
  apply zero_run_spec in E as [[N _]|(log & _ & _ & D & I & _)]; auto; [tauto|].
  split; auto. rewrite I. now apply replaced_zeros.
Qed.
Print Assumptions zero_zeroes_exactly.

Theorem zero_changes_only_requested_range :
  forall img offset size flush o fuel s e,
    0 <= offset -> 0 <= size ->
    zero_run fuel img offset size flush o = Some (s, e) ->
    exists n, 0 <= w_done s <= n /\ n <= size /\
              replaced img (w_img s) offset n (fun _ => x00).
Proof.
  intros img offset size flush o fuel s e Ho Hs E.
  apply zero_run_spec in E as [[N (m & M1 & M2 & M3 & _)]|(log & _ & _ & D & I & _)]; auto.
  - exists m. rewrite M3. split; auto. split; auto. apply replaced_zeros; lia.
  - exists size. rewrite I, D. split; [lia|]. split; [lia|]. now apply replaced_zeros.
Qed.
Print Assumptions zero_changes_only_requested_range.

Theorem zero_succeeds :
  forall img offset size flush o,
    0 <= size ->
    (forall i, exists c, wo_write o i = WOk c) ->
    (forall i, wo_cancel o i = false) -> wo_flush o = true ->
    exists fuel s, zero_run fuel img offset size flush o = Some (s, Success).
Proof.
  intros img offset size flush o Hs W C F.
  destruct (zero_run_terminates img offset size flush o Hs) as (fuel & [s e] & E).
  exists fuel, s. rewrite E. do 2 f_equal. eapply zero_run_good; eauto.
Qed.
Print Assumptions zero_succeeds.

Theorem zero_terminates :
  forall img offset size flush o,
    0 <= size -> exists fuel r, zero_run fuel img offset size flush o = Some r.
Proof. exact zero_run_terminates. Qed.
Print Assumptions zero_terminates.

Example zero_ex :
  exists s, zero_run 20 img_ex 3 9 true slow_ex = Some (s, Success) /\
    w_img s = [x01; x02; x03; x00; x00; x00; x00; x00; x00; x00; x00; x00] /\
    w_log s = [EZero 3 1; EZero 4 2; EZero 6 3; EZero 9 1; EZero 10 2; EFlush].
Proof. eexists. vm_compute. auto. Qed.

(* ---- C40 ---- *)

(* If a write or a zero with flush succeeds, the last effect on the backend
   is a flush, and there is no other one; without flush there is none. *)
Theorem flush_after_last_modification :
  forall img body bs buflen offset size flush o fuel s,
    0 < bs -> 0 < buflen -> 0 <= offset -> 0 <= size ->
    write_run fuel img body bs buflen offset (Some size) flush o = Some (s, Success) \/
    zero_run fuel img offset size flush o = Some (s, Success) ->
    if flush then exists log, w_log s = log ++ [EFlush] /\ ~ In EFlush log /\ wo_flush o = true
    else ~ In EFlush (w_log s).
Proof.
  intros img body bs buflen offset size flush o fuel s Hs Hb Ho Hz E.
  assert (G : exists log, w_log s = log ++ (if flush then [EFlush] else []) /\ ~ In EFlush log /\
                          (flush = true -> wo_flush o = true)).
  { destruct E as [E|E].
    - apply write_run_spec in E as [[N _]|(log & L & F & _ & _ & _ & _ & _ & X)]; auto; [tauto| |].
      + exists log. split; auto. rewrite Forall_forall in F. split; [intros I; exact (F _ I)|].
        destruct X as [[_ X]|[X _]]; [exact X|discriminate].
      + intros n Hn. now injection Hn as <-.
    - apply zero_run_spec in E as [[N _]|(log & L & F & _ & _ & X)]; auto; [tauto|].
      exists log. split; auto. rewrite Forall_forall in F. split; [intros I; exact (F _ I)|].
      destruct X as [[_ X]|[X _]]; [exact X|discriminate]. }
  destruct G as (log & L & N & Fl). destruct flush.
  - exists log. auto.
  - rewrite app_nil_r in L. now rewrite L.
Qed.
Print Assumptions flush_after_last_modification.

Theorem flush_operation_flushes :
  forall img o s, flush_run img o = (s, Success) ->
    w_log s = [EFlush] /\ w_img s = img /\ wo_flush o = true.
Proof.
  intros img o s. unfold flush_run, finish. destruct (wo_flush o); intros E; inversion E. auto.
Qed.
Print Assumptions flush_operation_flushes.
