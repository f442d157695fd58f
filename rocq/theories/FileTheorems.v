(* Properties C13, C14, C15 and C43 (see properties.jsonl): writing and zeroing
   files and block devices with direct I/O. *)
From Coq Require Import ZArith List Bool Lia.
From Verif Require Import BytesLib FileModel FileSpec FileProofs.
Import ListNotations.
Open Scope Z_scope.

(* ---- C13: write ---- *)

(* A write that returns n stored the first n bytes of the buffer at the
   position and nothing else.  A file grows to the end of the data, or to a
   block boundary less than one block after it; the padding reads as zeros
   (getb is zero after the end of the file).  Short writes of the kernel are
   allowed except for one block requests; without this restriction the statement
   is false, see short_block_write_is_reported_done_refuted. *)
Theorem write_stores_data_partial : forall c buf s s' n,
  pow2 (c_bs c) -> 0 <= f_pos s -> buf <> [] ->
  sized c (f_data s) -> whole_reads c -> whole_writes c ->
  write c buf s = (s', inl n) ->
  0 < n <= zlen buf /\
  f_pos s' = f_pos s + n /\
  (forall i, f_pos s <= i < f_pos s + n -> getb (f_data s') i = getb buf (i - f_pos s)) /\
  (forall i, ~ f_pos s <= i < f_pos s + n -> getb (f_data s') i = getb (f_data s) i) /\
  (zlen (f_data s') = Z.max (zlen (f_data s)) (f_pos s + n) \/
   (f_pos s + n < zlen (f_data s') < f_pos s + n + c_bs c /\
    zlen (f_data s') mod c_bs c = 0)) /\
  (c_block c = true -> zlen (f_data s') = zlen (f_data s)).
Proof.
  intros c buf s s' n P2 P NE SZ WR WW H.
  apply write_gen in H; auto. destruct H as (_ & F & R). specialize (R WW).
  destruct R as (N & PP & G & L1 & L2 & L3).
  assert (TL : zlen (take n buf) = n) by (rewrite zlen_take; lia).
  rewrite TL in *. split; [auto|]. split; [auto|]. split; [|split; [|split]].
  - intros i I. rewrite G. unfold put. rewrite TL.
    replace ((f_pos s <=? i) && (i <? f_pos s + n)) with true by lia.
    rewrite getb_take by lia. replace (i - f_pos s <? n) with true by lia. reflexivity.
  - intros i I. rewrite G. unfold put. rewrite TL.
    replace ((f_pos s <=? i) && (i <? f_pos s + n)) with false by lia. reflexivity.
  - destruct L3 as [L3|L3]; [auto|].
    destruct (Z.eq_dec (zlen (f_data s')) (Z.max (zlen (f_data s)) (f_pos s + n))); [auto|].
    right. split; [lia|auto].
  - apply F.
Qed.
Print Assumptions write_stores_data_partial.

(* A write that fails changed nothing outside of the range of the buffer. *)
Theorem failed_write_changes_only_its_range : forall c buf s s' x,
  pow2 (c_bs c) -> 0 <= f_pos s -> buf <> [] ->
  sized c (f_data s) -> whole_reads c ->
  write c buf s = (s', inr x) ->
  (forall i, ~ f_pos s <= i < f_pos s + zlen buf -> getb (f_data s') i = getb (f_data s) i) /\
  zlen (f_data s) <= zlen (f_data s') /\
  (c_block c = true -> zlen (f_data s') = zlen (f_data s)).
Proof.
  intros c buf s s' x P2 P NE SZ WR H.
  apply write_gen in H; auto. destruct H as (_ & F & _). exact F.
Qed.
Print Assumptions failed_write_changes_only_its_range.

(* If no system call fails a write returns. *)
Theorem file_write_succeeds : forall c buf s,
  works c -> pow2 (c_bs c) -> 0 <= f_pos s ->
  (c_block c = true -> f_pos s < zlen (f_data s)) ->
  exists s' n, write c buf s = (s', inl n).
Proof. exact write_ok. Qed.
Print Assumptions file_write_succeeds.

(* A kernel doing everything, one doing at most [m] bytes per call. *)
Definition perfect : nat -> call -> sans := fun _ _ => Done 100000.
Definition upto (m : Z) : nat -> call -> sans := fun _ _ => Done m.

Definition cfg4 (k : nat -> call -> sans) : fcfg := FCfg false 4 false k.
Definition file10 : list byte := [x31; x32; x33; x34; x35; x36; x37; x38; x39; x40].
Definition start_at (p : Z) : fst_ := FSt file10 p 0 [] true true true.

Lemma pow2_4 : pow2 4.
Proof. exists 2. split; [lia|reflexivity]. Qed.

(* Two bytes written at offset 9 of a file of ten bytes, block size 4. *)
Example file_write_ex :
  write (cfg4 perfect) [xaa; xbb] (start_at 9) =
  (FSt [x31; x32; x33; x34; x35; x36; x37; x38; x39; xaa; xbb; x00] 11 2
       [CRead 8 4; CWrite 8 4] true true true, inl 2) /\
  pow2 (c_bs (cfg4 perfect)) /\ whole_reads (cfg4 perfect) /\ whole_writes (cfg4 perfect) /\
  sized (cfg4 perfect) file10 /\ works (cfg4 perfect).
Proof.
  split; [vm_compute; reflexivity|]. split; [exact pow2_4|].
  split; [intros n p k E; injection E as <-; cbn; lia|].
  split; [intros n p k E; injection E as <-; cbn; lia|].
  split; [intros E; discriminate E|].
  intros n []; cbn; eexists; (reflexivity || (left; reflexivity)).
Qed.

(* Eleven bytes at offset 4: the part of whole blocks is written directly; the
   kernel writes only five of them. *)
Example file_write_short_ex :
  let s := write (cfg4 (upto 5)) (repeat xcc 11) (start_at 4) in
  snd s = inl 5 /\
  f_data (fst s) = [x31; x32; x33; x34; xcc; xcc; xcc; xcc; xcc; x40] /\
  f_log (fst s) = [CWrite 4 8] /\ whole_writes (cfg4 (upto 5)).
Proof.
  split; [|split; [|split]]; try (vm_compute; reflexivity).
  intros n p k E; injection E as <-; cbn; lia.
Qed.

(* The hypothesis on one block requests is needed: _write_unaligned ignores
   the results of the read and of the write.  If the kernel writes less than
   the block, bytes reported as written are not in the file. *)
Theorem short_block_write_is_reported_done_refuted :
  exists c buf s s' n i,
    pow2 (c_bs c) /\ 0 <= f_pos s /\ buf <> [] /\ sized c (f_data s) /\ whole_reads c /\
    write c buf s = (s', inl n) /\
    f_pos s <= i < f_pos s + n /\ getb (f_data s') i <> getb buf (i - f_pos s).
Proof.
  exists (cfg4 (fun _ k => match k with CWrite _ _ => Done 2 | _ => Done 4 end)).
  exists [xaa; xbb], (start_at 5). eexists. exists 2, 6.
  split; [exact pow2_4|]. split; [cbn; lia|]. split; [discriminate|].
  split; [intros E; discriminate E|]. split; [intros n p k E; injection E as <-; cbn; lia|].
  split; [vm_compute; reflexivity|]. split; [cbn; lia|]. vm_compute. discriminate.
Qed.
Print Assumptions short_block_write_is_reported_done_refuted.

(* If the kernel reads less than what is available in the block, bytes next to
   the written range are replaced by zeros. *)
Theorem short_block_read_destroys_data_refuted :
  exists c buf s s' n i,
    pow2 (c_bs c) /\ 0 <= f_pos s /\ buf <> [] /\ sized c (f_data s) /\ whole_writes c /\
    write c buf s = (s', inl n) /\
    ~ f_pos s <= i < f_pos s + n /\ getb (f_data s') i <> getb (f_data s) i.
Proof.
  exists (cfg4 (fun _ k => match k with CRead _ _ => Done 1 | _ => Done 4 end)).
  exists [xaa; xbb], (start_at 5). eexists. exists 2, 7.
  split; [exact pow2_4|]. split; [cbn; lia|]. split; [discriminate|].
  split; [intros E; discriminate E|]. split; [intros n p k E; injection E as <-; cbn; lia|].
  split; [vm_compute; reflexivity|]. split; [cbn; lia|]. vm_compute. discriminate.
Qed.
Print Assumptions short_block_read_destroys_data_refuted.

(* Writing nothing is not nothing: at the end of a file it adds a block. *)
Theorem empty_write_grows_file_refuted :
  exists c s s', pow2 (c_bs c) /\ 0 <= f_pos s /\ sized c (f_data s) /\
    whole_reads c /\ whole_writes c /\
    write c [] s = (s', inl 0) /\ zlen (f_data s) < zlen (f_data s').
Proof.
  exists (cfg4 perfect), (start_at 10). eexists.
  split; [exact pow2_4|]. split; [cbn; lia|]. split; [intros E; discriminate E|].
  split; [intros n p k E; injection E as <-; cbn; lia|].
  split; [intros n p k E; injection E as <-; cbn; lia|].
  split; [vm_compute; reflexivity|]. vm_compute. reflexivity.
Qed.
Print Assumptions empty_write_grows_file_refuted.

(* ---- C14: alignment ---- *)

(* Every system call made by write has a range that starts and ends at block
   boundaries, whatever happens. *)
Theorem write_system_calls_aligned : forall c buf s s' r,
  pow2 (c_bs c) -> 0 <= f_pos s -> buf <> [] -> sized c (f_data s) -> whole_reads c ->
  write c buf s = (s', r) ->
  exists calls, f_log s' = f_log s ++ calls /\ Forall (call_aligned (c_bs c)) calls.
Proof.
  intros c buf s s' r P2 P NE SZ WR H. apply write_gen in H; auto. apply H.
Qed.
Print Assumptions write_system_calls_aligned.

(* The same for zero. *)
Theorem zero_system_calls_aligned : forall fuel c count s s' r,
  pow2 (c_bs c) -> 0 <= f_pos s -> 0 < count -> sized c (f_data s) ->
  whole_reads c -> whole_writes c ->
  zero fuel c count s = (s', r) ->
  exists calls, f_log s' = f_log s ++ calls /\ Forall (call_aligned (c_bs c)) calls.
Proof.
  intros fuel c count s s' r P2 P C SZ WR WW H. apply zero_gen in H; auto. apply H.
Qed.
Print Assumptions zero_system_calls_aligned.

Example calls_aligned_ex :
  f_log (fst (write (cfg4 (upto 5)) (repeat xcc 11) (start_at 4))) = [CWrite 4 8] /\
  f_log (fst (zero 20 (cfg4 (fun _ k => match k with
                                       | CRead _ _ | CWrite _ _ => Done 6
                                       | _ => Err EOPNOTSUPP 0
                                       end)) 9 (start_at 4))) =
  [CZeroRange 4 8; CPunchHole 4 8; CWrite 4 8; CRead 8 4; CWrite 8 4].
Proof. split; vm_compute; reflexivity. Qed.

(* ---- C15: zero ---- *)

(* A call of zero that returns n made the n bytes at the position zero and
   changed nothing else, whatever the kernel supports.  n and the visible
   content depend only on the request. *)
Theorem zero_clears : forall fuel c count s s' n,
  pow2 (c_bs c) -> 0 <= f_pos s -> 0 < count ->
  sized c (f_data s) -> whole_reads c -> whole_writes c ->
  zero fuel c count s = (s', inl n) ->
  0 < n <= count /\
  f_pos s' = f_pos s + n /\
  (forall i, f_pos s <= i < f_pos s + n -> getb (f_data s') i = x00) /\
  (forall i, ~ f_pos s <= i < f_pos s + n -> getb (f_data s') i = getb (f_data s) i) /\
  (zlen (f_data s') = Z.max (zlen (f_data s)) (f_pos s + n) \/
   (f_pos s + n < zlen (f_data s') < f_pos s + n + c_bs c /\
    zlen (f_data s') mod c_bs c = 0)) /\
  (c_block c = true -> zlen (f_data s') = zlen (f_data s)).
Proof.
  intros fuel c count s s' n P2 P C SZ WR WW H.
  apply zero_gen in H; auto. destruct H as (_ & F & N & PP & (G & L1 & L2 & L3) & _).
  rewrite zlen_zeros in *. replace (Z.max 0 n) with n in * by lia.
  split; [auto|]. split; [auto|]. split; [|split; [|split]].
  - intros i I. rewrite G, put_zeros by lia.
    replace ((f_pos s <=? i) && (i <? f_pos s + n)) with true by lia. reflexivity.
  - intros i I. rewrite G, put_zeros by lia.
    replace ((f_pos s <=? i) && (i <? f_pos s + n)) with false by lia. reflexivity.
  - destruct L3 as [L3|L3]; [auto|].
    destruct (Z.eq_dec (zlen (f_data s')) (Z.max (zlen (f_data s)) (f_pos s + n))); [auto|].
    right. split; [lia|auto].
  - apply F.
Qed.
Print Assumptions zero_clears.

(* Zeroing up to a block boundary gives exactly the file that writing zeros
   would give (see splice: the content after a write). *)
Theorem zero_to_boundary_is_exact : forall fuel c count s s' n,
  pow2 (c_bs c) -> 0 <= f_pos s -> 0 < count ->
  sized c (f_data s) -> whole_reads c -> whole_writes c ->
  zero fuel c count s = (s', inl n) -> (f_pos s + n) mod c_bs c = 0 ->
  f_data s' = splice (f_data s) (f_pos s) (zeros n).
Proof.
  intros fuel c count s s' n P2 P C SZ WR WW H A. pose proof (pow2_pos _ P2).
  apply zero_gen in H; auto. destruct H as (_ & F & N & PP & S & _).
  eapply stored_exact; eauto. lia.
Qed.
Print Assumptions zero_to_boundary_is_exact.

(* Two backends of the same kind and block size zero the same bytes and give
   the same content, whatever their kernels support, sparse or not, and
   whatever was found unsupported before. *)
Theorem zero_independent_of_features : forall f1 f2 c1 c2 count s1 s2 s1' s2' n1 n2,
  pow2 (c_bs c1) -> c_bs c1 = c_bs c2 -> c_block c1 = c_block c2 ->
  f_pos s1 = f_pos s2 -> f_data s1 = f_data s2 ->
  0 <= f_pos s1 -> 0 < count -> sized c1 (f_data s1) ->
  whole_reads c1 -> whole_writes c1 -> whole_reads c2 -> whole_writes c2 ->
  zero f1 c1 count s1 = (s1', inl n1) ->
  zero f2 c2 count s2 = (s2', inl n2) ->
  n1 = n2 /\ f_pos s1' = f_pos s2' /\
  (forall i, getb (f_data s1') i = getb (f_data s2') i).
Proof.
  intros f1 f2 c1 c2 count s1 s2 s1' s2' n1 n2 P2 EB EK EP ED P C SZ R1 W1 R2 W2 H1 H2.
  apply zero_gen in H1; auto. apply zero_gen in H2; auto; try congruence.
  2:{ intros X. rewrite <- EB, <- ED. apply SZ. congruence. }
  destruct H1 as (_ & _ & _ & PP1 & (G1 & _) & N1).
  destruct H2 as (_ & _ & _ & PP2 & (G2 & _) & N2).
  assert (n1 = n2) by congruence. split; [auto|]. split; [congruence|].
  intros i. rewrite G1, G2. congruence.
Qed.
Print Assumptions zero_independent_of_features.

(* A call that fails changed nothing outside of the requested range. *)
Theorem failed_zero_changes_only_its_range : forall fuel c count s s' x,
  pow2 (c_bs c) -> 0 <= f_pos s -> 0 < count ->
  sized c (f_data s) -> whole_reads c -> whole_writes c ->
  zero fuel c count s = (s', inr x) ->
  (forall i, ~ f_pos s <= i < f_pos s + count -> getb (f_data s') i = getb (f_data s) i) /\
  zlen (f_data s) <= zlen (f_data s') /\
  (c_block c = true -> zlen (f_data s') = zlen (f_data s)).
Proof.
  intros fuel c count s s' x P2 P C SZ WR WW H.
  apply zero_gen in H; auto. destruct H as (_ & F & _). exact F.
Qed.
Print Assumptions failed_zero_changes_only_its_range.

(* zero returns if system calls work, also if no kind of fallocate is
   supported; and its loop always ends. *)
Theorem file_zero_succeeds : forall fuel c count s,
  works c -> whole_reads c -> whole_writes c ->
  pow2 (c_bs c) -> 0 <= f_pos s -> 0 < count ->
  (c_block c = true -> f_pos s + count <= zlen (f_data s)) ->
  (Z.to_nat count < fuel)%nat ->
  exists s' n, zero fuel c count s = (s', inl n).
Proof. exact zero_ok. Qed.
Print Assumptions file_zero_succeeds.

Theorem file_zero_terminates : forall fuel c count s s' x,
  pow2 (c_bs c) -> 0 <= f_pos s -> 0 < count ->
  sized c (f_data s) -> whole_reads c -> whole_writes c ->
  (Z.to_nat count < fuel)%nat ->
  zero fuel c count s = (s', inr x) -> x <> NoFuel.
Proof.
  intros fuel c count s s' x P2 P C SZ WR WW F H.
  apply zero_gen in H; auto. destruct H as (_ & _ & R). auto.
Qed.
Print Assumptions file_zero_terminates.

(* A kernel without any kind of fallocate doing at most six bytes per write,
   and a kernel supporting everything: zero the last six bytes of the file and
   two more. *)
Definition old_kernel : nat -> call -> sans := fun _ k =>
  match k with
  | CZeroRange _ _ | CPunchHole _ _ | CAllocate _ _ => Err EOPNOTSUPP 0
  | _ => Done 6
  end.

Example file_zero_ex :
  let a := zero 20 (cfg4 old_kernel) 9 (start_at 4) in
  let b := zero 20 (FCfg false 4 true perfect) 9 (start_at 4) in
  f_data (fst a) = [x31; x32; x33; x34; x00; x00; x00; x00; x00; x00; x00; x00] /\
  f_data (fst b) = f_data (fst a) /\ snd a = inl 8 /\ snd b = inl 8 /\
  f_log (fst a) = [CZeroRange 4 8; CPunchHole 4 8; CWrite 4 8; CRead 8 4; CWrite 8 4] /\
  f_log (fst b) = [CTruncate 12; CPunchHole 4 8] /\
  works (cfg4 old_kernel) /\ whole_reads (cfg4 old_kernel) /\ whole_writes (cfg4 old_kernel).
Proof.
  repeat (split; [vm_compute; reflexivity|]).
  split; [intros n []; cbn; eexists; (reflexivity || (right; reflexivity))|].
  split; intros n p k E; injection E as <-; cbn; lia.
Qed.

(* ---- size, used by every request ---- *)

Theorem file_size_is_length : forall s, 
  size s = (s, inl (zlen (f_data s))).
Proof. intros []. reflexivity. Qed.
Print Assumptions file_size_is_length.

(* ---- C43: block size ---- *)

(* Storage that rejects direct reads not aligned to [req] bytes. *)
Definition storage (req : Z) (c : fcfg) : Prop :=
  forall n p l,
    if (p mod req =? 0) && (l mod req =? 0)
    then exists v, c_kernel c n (CRead p l) = Done v
    else exists v, c_kernel c n (CRead p l) = Err EINVAL v.

(* The detected block size is 512 or 4096, and a multiple of what the storage
   requires; so all aligned calls are accepted (C14).  512 is used only if it
   is what the storage requires. *)
Theorem detected_block_size_works : forall c req s s' b,
  0 < req -> storage req c -> detect_block_size c s = (s', inl b) ->
  (b = 512 \/ b = 4096) /\ b mod req = 0 /\
  (b = 4096 -> req <> 1 -> 512 mod req <> 0) /\
  f_data s' = f_data s /\ f_pos s' = 0.
Proof.
  intros c req s s' b RQ ST H. pose proof (detect_state _ _ _ _ H) as (D1 & D2 & _).
  apply detect_cases in H.
  assert (OK : forall n l k, c_kernel c n (CRead 0 l) = Done k -> l mod req = 0).
  { intros n l k E. specialize (ST n 0 l). rewrite Z.mod_0_l in ST by lia. cbn [Z.eqb andb] in ST.
    destruct (l mod req =? 0) eqn:X; [lia|]. destruct ST as (v & E2). congruence. }
  assert (KO : forall n l k, c_kernel c n (CRead 0 l) = Err EINVAL k -> l mod req <> 0).
  { intros n l k E. specialize (ST n 0 l). rewrite Z.mod_0_l in ST by lia. cbn [Z.eqb andb] in ST.
    destruct (l mod req =? 0) eqn:X; [|lia]. destruct ST as (v & E2). congruence. }
  destruct H as [(-> & n & k & E)|(B & (n & k & E) & (n1 & k1 & E1) & X)].
  - apply OK in E. assert (req = 1).
    { destruct (Z.eq_dec req 1); auto. rewrite Z.mod_1_l in E by lia. lia. }
    subst req. rewrite Z.mod_1_r. repeat split; eauto; congruence.
  - split; [auto|]. split; [eapply OK; eauto|]. split; [|eauto].
    intros B4 _. destruct (X B4) as (n2 & k2 & E2). eapply KO; eauto.
Qed.
Print Assumptions detected_block_size_works.

(* Any storage requiring 1, 512 or 4096 is detected. *)
Theorem known_storage_is_detected : forall c req s,
  req = 1 \/ req = 512 \/ req = 4096 -> storage req c ->
  exists s', detect_block_size c s = (s', inl (if req =? 1 then 4096 else req)).
Proof.
  intros c req s RQ ST.
  unfold detect_block_size. cbn [detect]. unfold bind, seek, ret, sys_read, called.
  cbn [f_pos f_data f_calls set_pos].
  change (zlen (zeros 1)) with 1.
  replace (zlen (zeros 512)) with 512 by (rewrite zlen_zeros; lia).
  replace (zlen (zeros 4096)) with 4096 by (rewrite zlen_zeros; lia).
  pose proof (fun n => ST n 0 1) as S1. pose proof (fun n => ST n 0 512) as S2.
  pose proof (fun n => ST n 0 4096) as S3.
  destruct RQ as [-> | [-> | ->]]; cbn in S1, S2, S3.
  - destruct (S1 (f_calls s)) as (v & ->). cbn. eauto.
  - destruct (S1 (f_calls s)) as (v & ->). cbn.
    destruct (S2 (S (f_calls s))) as (v2 & ->). cbn. eauto.
  - destruct (S1 (f_calls s)) as (v & ->). cbn.
    destruct (S2 (S (f_calls s))) as (v2 & ->). cbn.
    destruct (S3 (S (S (f_calls s)))) as (v3 & ->). cbn. eauto.
Qed.
Print Assumptions known_storage_is_detected.

(* A storage that accepts none of the sizes is reported by an AttributeError,
   not by the intended RuntimeError. *)
Theorem unsupported_storage_error_refuted :
  exists c s s', storage 65536 c /\ detect_block_size c s = (s', inr AttrError).
Proof.
  exists (FCfg false 0 false (fun _ k => match k with
    | CRead p l => if (p mod 65536 =? 0) && (l mod 65536 =? 0) then Done l else Err EINVAL 0
    | _ => Done 0 end)), (start_at 3). eexists. split.
  - intros n p l. cbn [c_kernel]. destruct (_ && _); eauto.
  - vm_compute. reflexivity.
Qed.
Print Assumptions unsupported_storage_error_refuted.

Example detect_ex :
  let c := FCfg false 0 false (fun _ k => match k with
    | CRead p l => if (p mod 512 =? 0) && (l mod 512 =? 0) then Done l else Err EINVAL 0
    | _ => Done 0 end) in
  storage 512 c /\ snd (detect_block_size c (start_at 3)) = inl 512.
Proof.
  split; [|vm_compute; reflexivity].
  intros n p l. cbn [c_kernel]. destruct (_ && _); eauto.
Qed.
