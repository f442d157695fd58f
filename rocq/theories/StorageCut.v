(* Lemmas about StorageModel: requests that did not end yet. *)
From Coq Require Import ZArith List Bool Lia.
From Verif Require Import BytesLib FileModel FileSpec FileProofs OpsModel OpsProofs StorageModel
  StorageSpec StorageProofs StorageSolo.
Import ListNotations.
Open Scope Z_scope.

(* ---- the programs use the kind of storage only, not the kernel ---- *)

Definition peq {A} (p q : prog A) : Prop := forall x s, run x p s = run x q s.

Lemma peq_bind {A B} (m m' : prog A) (f f' : A -> prog B) :
  peq m m' -> (forall a, peq (f a) (f' a)) -> peq (bind_p m f) (bind_p m' f').
Proof. intros H1 H2 x s. rewrite !run_bind. apply bind_ext; auto. intros. apply H2. Qed.

Lemma peq_refl {A} (p : prog A) : peq p p.
Proof. intros x s. reflexivity. Qed.

Section Same.
Variables (blk : bool) (bs : Z) (sp : bool) (K1 K2 : nat -> call -> sans).
Let c1 := FCfg blk bs sp K1.
Let c2 := FCfg blk bs sp K2.

Lemma peq_write_unaligned buf : peq (write_unaligned_p c1 buf) (write_unaligned_p c2 buf).
Proof. apply peq_refl. Qed.

Lemma peq_write buf : peq (write_p c1 buf) (write_p c2 buf).
Proof. apply peq_refl. Qed.

Lemma peq_write_zeros buf fuel : forall count,
  peq (write_zeros_loop_p fuel c1 buf count) (write_zeros_loop_p fuel c2 buf count).
Proof.
  induction fuel as [|fuel IH]; intros count; cbn [write_zeros_loop_p]; [apply peq_refl|].
  destruct (count =? 0); [apply peq_refl|]. apply peq_bind; [apply peq_write|auto].
Qed.

Lemma peq_or {A} m (ok : Z -> prog A) next next' : peq next next' -> peq (or_else_p m ok next) (or_else_p m ok next').
Proof. intros H. apply peq_bind; [apply peq_refl|]. intros [n|]; [apply peq_refl|auto]. Qed.

Lemma peq_zero fuel count : peq (zero_p fuel c1 count) (zero_p fuel c2 count).
Proof.
  assert (W : forall n, peq (let_ _ <- write_zeros_p fuel c1 n ; Ret n) (let_ _ <- write_zeros_p fuel c2 n ; Ret n)).
  { intros n. apply peq_bind; [apply peq_write_zeros|]. intros. apply peq_refl. }
  unfold zero_p. apply peq_bind; [apply peq_refl|]. intros start.
  change (aligned c2 start) with (aligned c1 start).
  destruct (_ || _); [apply peq_refl|]. cbn [c1 c2 c_block c_sparse c_bs]. cbv zeta.
  destruct blk; [apply peq_refl|]. destruct sp.
  - apply peq_or. apply W.
  - apply peq_bind; [apply peq_refl|]. intros a. repeat apply peq_or. apply W.
Qed.

Lemma peq_read_loop size o fuel : forall s, peq (read_loop_p fuel c1 size o s) (read_loop_p fuel c2 size o s).
Proof.
  induction fuel as [|fuel IH]; intros s; cbn [read_loop_p]; [apply peq_refl|].
  destruct (_ =? 0); [apply peq_refl|]. apply peq_bind; [apply peq_refl|].
  intros [s1 [e|]]; [apply peq_refl|auto].
Qed.

Lemma peq_drain fuel : forall data, peq (drain_p fuel c1 data) (drain_p fuel c2 data).
Proof.
  induction fuel as [|fuel IH]; intros data; cbn [drain_p]; [apply peq_refl|].
  destruct data; [apply peq_refl|]. apply peq_bind; [apply peq_refl|auto].
Qed.

Lemma peq_write_chunk fuel o buflen size count s :
  peq (write_chunk_p fuel c1 o buflen size count s) (write_chunk_p fuel c2 o buflen size count s).
Proof.
  unfold write_chunk_p. destruct (fill _ _ _ _ _ _) as [[[s1 got] [e|]]|]; try apply peq_refl.
  apply peq_bind; [apply peq_drain|]. intros; apply peq_refl.
Qed.

Lemma peq_write_loop o buflen size fuel : forall s,
  peq (write_loop_p fuel c1 o buflen size s) (write_loop_p fuel c2 o buflen size s).
Proof.
  induction fuel as [|fuel IH]; intros s; cbn [write_loop_p]; [apply peq_refl|].
  destruct (_ =? 0); [apply peq_refl|]. apply peq_bind; [apply peq_write_chunk|].
  intros [s1 [| |e]]; try apply peq_refl. apply IH.
Qed.

Lemma peq_zero_loop o size fuel : forall done i,
  peq (zero_loop_p fuel c1 o size done i) (zero_loop_p fuel c2 o size done i).
Proof.
  induction fuel as [|fuel IH]; intros done i; cbn [zero_loop_p]; [apply peq_refl|].
  destruct (_ =? 0); [apply peq_refl|]. apply peq_bind; [apply peq_zero|].
  intros n. destruct (wo_cancel o i); [apply peq_refl|auto].
Qed.

Lemma peq_handle fuel r : peq (handle fuel c1 r) (handle fuel c2 r).
Proof.
  destruct r as [buf offset size o|body buflen offset size flush o|offset size flush o]; cbn [handle].
  - unfold get_p. cbv zeta. apply peq_bind; [apply peq_refl|]. intros _.
    apply peq_bind; [|intros; apply peq_refl]. cbn [c1 c2 c_bs]. fold c1 c2.
    destruct (_ =? 0); [apply peq_read_loop|]. apply peq_bind; [apply peq_refl|].
    intros [s1 [e|]]; [apply peq_refl|apply peq_read_loop].
  - unfold put_p. cbv zeta. apply peq_bind; [apply peq_refl|]. intros _.
    cbn [c1 c2 c_bs]. fold c1 c2.
    apply peq_bind; [destruct (_ =? 0); [apply peq_refl|apply peq_write_chunk]|].
    intros [s1 e1]. apply peq_bind; [destruct e1; try apply peq_refl; apply peq_write_loop|].
    intros; apply peq_refl.
  - unfold zero_op_p. apply peq_bind; [apply peq_refl|]. intros _.
    apply peq_bind; [apply peq_zero_loop|]. intros; apply peq_refl.
Qed.
End Same.

(* ---- a kernel that fails from the n-th call on ---- *)

Definition cut (n : nat) (c : fcfg) : fcfg :=
  FCfg (c_block c) (c_bs c) (c_sparse c)
       (fun i k => if (i <? n)%nat then c_kernel c i k else Err EOTHER 0).

Lemma perform_calls c B (o : sys B) s s1 r : perform c o s = (s1, r) ->
  (f_calls s1 = S (f_calls s) \/
   (f_calls s1 = f_calls s /\ f_data s1 = f_data s /\ forall c', perform c' o s = (s1, r))).
Proof.
  destruct o; cbn [perform]; intros E.
  - injection E as <- <-. right. auto.
  - injection E as <- <-. right. auto.
  - injection E as <- <-. right. auto.
  - apply sys_read_shape in E as (n & _ & -> & _). left. reflexivity.
  - apply sys_write_shape in E as (d & p & ->). left. reflexivity.
  - apply sys_zero_shape in E as (d & ->). left. reflexivity.
  - apply sys_zero_shape in E as (d & ->). left. reflexivity.
  - apply sys_punch_shape in E as (d & ->). left. reflexivity.
  - apply sys_allocate_shape in E as (d & ->). left. reflexivity.
  - unfold sys_truncate in E. destruct (c_kernel _ _ _); injection E as <- <-; left; reflexivity.
  - injection E as <- <-. right. auto.
  - injection E as <- <-. right. destruct f; auto.
Qed.

Lemma perform_before n c B (o : sys B) s : (f_calls s < n)%nat ->
  perform (cut n c) o s = perform c o s.
Proof.
  intros H. apply Nat.ltb_lt in H.
  destruct o; cbn [perform]; try reflexivity.
  - unfold sys_read. cbn [cut c_kernel]. rewrite H. reflexivity.
  - unfold sys_write, room. cbn [cut c_kernel c_block]. rewrite H. reflexivity.
  - unfold sys_zero_range, zero_range. cbn [cut c_kernel c_block]. rewrite H. reflexivity.
  - unfold sys_zero_range, zero_range. cbn [cut c_kernel c_block]. rewrite H. reflexivity.
  - unfold sys_punch_hole. cbn [cut c_kernel]. rewrite H. reflexivity.
  - unfold sys_allocate. cbn [cut c_kernel]. rewrite H. reflexivity.
  - unfold sys_truncate. cbn [cut c_kernel]. rewrite H. reflexivity.
Qed.

Lemma punch_0 d pos : punch d pos 0 = d.
Proof. unfold punch. change (splice d pos (zeros 0)) with d. apply take_all. lia. Qed.

Lemma zero_range_0 c d pos : zero_range c d pos 0 = d.
Proof. unfold zero_range. destruct (c_block c); [apply punch_0|reflexivity]. Qed.

Lemma perform_after n c B (o : sys B) s s1 r : (n <= f_calls s)%nat ->
  perform (cut n c) o s = (s1, r) -> f_data s1 = f_data s /\ (n <= f_calls s1)%nat.
Proof.
  intros H E. split.
  2:{ apply perform_calls in E as [E|(E & _)]; lia. }
  assert (H' : (f_calls s <? n)%nat = false) by (apply Nat.ltb_ge; lia). revert E.
  destruct o; cbn [perform]; try (intros E; injection E as <- <-; reflexivity).
  - unfold sys_read. cbn [cut c_kernel]. rewrite H'. intros E; injection E as <- <-; reflexivity.
  - unfold sys_write. cbn [cut c_kernel]. rewrite H'. intros E; injection E as <- <-. cbn [called f_data].
    rewrite take_nonpos by lia. reflexivity.
  - unfold sys_zero_range. cbn [cut c_kernel]. rewrite H'. replace (Z.max 0 (Z.min 0 _)) with 0 by lia.
    rewrite zero_range_0. destruct (_ && _); intros E; injection E as <- <-; reflexivity.
  - unfold sys_zero_range. cbn [cut c_kernel]. rewrite H'. replace (Z.max 0 (Z.min 0 _)) with 0 by lia.
    rewrite zero_range_0. destruct (_ && _); intros E; injection E as <- <-; reflexivity.
  - unfold sys_punch_hole. cbn [cut c_kernel]. rewrite H'. replace (Z.max 0 (Z.min 0 _)) with 0 by lia.
    rewrite punch_0. intros E; injection E as <- <-; reflexivity.
  - unfold sys_allocate. cbn [cut c_kernel]. rewrite H'. intros E; injection E as <- <-; reflexivity.
  - unfold sys_truncate. cbn [cut c_kernel]. rewrite H'. intros E; injection E as <- <-; reflexivity.
  - intros E; injection E as <- <-. destruct f; reflexivity.
Qed.

Lemma run_after {A} n c (p : prog A) : forall s s' r, (n <= f_calls s)%nat ->
  run (cut n c) p s = (s', r) -> f_data s' = f_data s.
Proof.
  induction p as [a|x|B o k IH]; cbn [run]; intros s s' r H E.
  - injection E as <- <-. reflexivity.
  - injection E as <- <-. reflexivity.
  - destruct (perform (cut n c) o s) as [s1 r1] eqn:P. apply perform_after in P as [D N]; auto.
    apply IH in E; congruence.
Qed.

Lemma reach_calls {A} c (p : prog A) s q t : reach c p s q t -> (f_calls s <= f_calls t)%nat.
Proof.
  induction 1; auto. apply perform_calls in H as [H|(H & _)]; lia.
Qed.

(* The content in the middle of a run is the content at the end of a run in
   which the kernel fails. *)
Lemma reach_cut {A} c (p : prog A) s q t : reach c p s q t ->
  forall s' r, run (cut (f_calls t) c) p s = (s', r) -> f_data s' = f_data t.
Proof.
  induction 1 as [p s|B o k s s1 r q t P R IH]; intros s' r' E.
  - eapply run_after; [|exact E]. lia.
  - cbn [run] in E.
    pose proof (reach_calls _ _ _ _ _ R) as LE.
    destruct (perform (cut (f_calls t) c) o s) as [s2 r2] eqn:P2.
    assert (X : (s2, r2) = (s1, r)).
    { rewrite <- P2. destruct (perform_calls _ _ _ _ _ _ P) as [N|(_ & _ & N)]; [|apply N].
      rewrite perform_before by lia. exact P. }
    injection X as -> ->. apply IH in E. exact E.
Qed.

(* ---- requests ---- *)

Definition job_lo (k : connection) : Z := lo_block (c_bs (k_cfg k)) (k_request k).
Definition job_hi (k : connection) : Z := hi_block (c_bs (k_cfg k)) (k_request k).
Definition job_ro (k : connection) : bool := match k_request k with Get _ _ _ _ => true | _ => false end.

Lemma mul_mod a b : 0 < a -> (a * b) mod a = 0.
Proof. intros. rewrite Z.mul_comm. apply Z.mod_mul. lia. Qed.

Lemma range_in_blocks bs r i : 0 < bs -> in_range r i -> lo_block bs r <= i < hi_block bs r.
Proof.
  unfold in_range, lo_block, hi_block. intros B H.
  pose proof (Z.mul_div_le (first_of r) bs B).
  pose proof (Z.mul_succ_div_gt (first_of r + size_of r + bs - 1) bs B). nia.
Qed.

Lemma lo_first bs r : 0 < bs -> lo_block bs r <= first_of r.
Proof. intros B. unfold lo_block. apply Z.mul_div_le. auto. Qed.

Lemma hi_last bs r : 0 < bs -> first_of r + size_of r <= hi_block bs r.
Proof.
  intros B. unfold hi_block.
  pose proof (Z.mul_succ_div_gt (first_of r + size_of r + bs - 1) bs B). nia.
Qed.

Lemma handle_solo size k d fs fs' r : valid size k -> zlen d = size -> f_data fs = d ->
  run (k_cfg k) (handle (k_fuel k) (k_cfg k) (k_request k)) fs = (fs', r) ->
  logs (call_in (job_lo k) (job_hi k) size (job_ro k)) fs fs' /\
  (forall i, reads_only (k_request k) \/ ~ in_range (k_request k) i -> getb (f_data fs') i = getb d i) /\
  match r with
  | inl rep => p_outcome rep = Success -> served (k_request k) d (f_data fs') (p_sent rep)
  | inr x => size_of (k_request k) < Z.of_nat (k_fuel k) -> x <> NoFuel
  end /\
  (calm size k -> exists rep, r = inl rep /\ p_outcome rep = Success).
Proof.
  intros V ZD ED E. pose proof (pow2_pos _ (v_bs _ _ V)) as BS.
  assert (LO : 0 <= job_lo k).
  { unfold job_lo, lo_block. pose proof (v_first _ _ V).
    assert (0 <= first_of (k_request k) / c_bs (k_cfg k)) by (apply Z.div_pos; lia). nia. }
  assert (LM : job_lo k mod c_bs (k_cfg k) = 0) by (apply mul_mod; auto).
  assert (HM : job_hi k mod c_bs (k_cfg k) = 0) by (apply mul_mod; auto).
  pose proof (lo_first (c_bs (k_cfg k)) (k_request k) BS) as LF. fold (job_lo k) in LF.
  pose proof (hi_last (c_bs (k_cfg k)) (k_request k) BS) as HL. fold (job_hi k) in HL.
  assert (HS : reads_only (k_request k) \/ job_hi k <= size) by apply V.
  destruct V as [V1 V2 V3 V4 V5 V6 V7 V8]. unfold calm. destruct k as [c st fuel req].
  unfold job_lo, job_hi, job_ro in *.
  cbn [k_cfg k_fuel k_request] in *.
  destruct req as [buf offset n o|body buflen offset n flush o|offset n flush o];
    cbn [first_of size_of reads_only in_range served handle] in *.
  - pose proof E as E'. eapply get_solo in E; eauto. destruct E as (A1 & A2 & A3). rewrite ZD in A2.
    split; auto. split; [intros; congruence|]. split.
    + destruct r as [rep|x]; auto. intros S. destruct A3 as (_ & A3). destruct (A3 S) as (B1 & B2).
      split; auto. intros i I. rewrite B1, getb_sub by lia. replace (i <? n) with true by lia. reflexivity.
    + intros (W & F & C). decompose [and] C. clear C. eapply get_fine in E'; eauto; lia.
  - destruct HS as [[]|HS]. 
    pose proof E as E'. eapply put_solo in E; eauto. destruct E as (A1 & (A2 & A3) & A4 & A5).
    split; auto. split; [intros i [[]|I]; apply A3; auto|]. split.
    + destruct r as [rep|x]; auto.
    + intros (W & F & C). decompose [and] C. clear C. apply A5; auto. split; auto.
  - destruct HS as [[]|HS].
    pose proof E as E'. eapply zero_solo in E; eauto. destruct E as (A1 & (A2 & A3) & A4 & A5).
    split; auto. split; [intros i [[]|I]; apply A3; auto|]. split.
    + destruct r as [rep|x]; auto.
    + intros (W & F & C). decompose [and] C. clear C. apply A5; auto.
Qed.

Lemma valid_cut size n k : valid size k ->
  valid size (Connection (cut n (k_cfg k)) (k_state k) (k_fuel k) (k_request k)).
Proof.
  intros [V1 V2 V3 V4 V5 V6 V7 V8]. constructor; cbn [k_cfg k_request k_state k_fuel]; auto.
  - intros i p v H. cbn [cut c_kernel c_bs] in *. destruct (i <? n)%nat; [eapply V6; eauto|discriminate].
  - intros i p v H. cbn [cut c_kernel c_bs] in *. destruct (i <? n)%nat; [eapply V7; eauto|discriminate].
Qed.

Lemma reach_frame size k d fs q t : valid size k -> zlen d = size -> f_data fs = d ->
  reach (k_cfg k) (handle (k_fuel k) (k_cfg k) (k_request k)) fs q t ->
  forall i, reads_only (k_request k) \/ ~ in_range (k_request k) i -> getb (f_data t) i = getb d i.
Proof.
  intros V ZD ED R i I. pose proof (reach_cut _ _ _ _ _ R) as C.
  set (n := f_calls t) in *.
  destruct (run (cut n (k_cfg k)) (handle (k_fuel k) (k_cfg k) (k_request k)) fs) as [s' r] eqn:E.
  rewrite <- (C _ _ eq_refl). clear C R.
  assert (PE : peq (handle (k_fuel k) (k_cfg k) (k_request k)) (handle (k_fuel k) (cut n (k_cfg k)) (k_request k))).
  { unfold cut. destruct (k_cfg k) as [b s sp K]. apply peq_handle. }
  rewrite PE in E. pose proof (valid_cut size n k V) as V'.
  eapply (handle_solo size (Connection (cut n (k_cfg k)) (k_state k) (k_fuel k) (k_request k))) in E; eauto.
  destruct E as (_ & F & _). apply F. exact I.
Qed.

(* ---- several requests ---- *)

Definition job_of (d : list byte) (k : connection) : job :=
  let e := run (k_cfg k) (handle (k_fuel k) (k_cfg k) (k_request k)) (with_data d (k_state k)) in
  Job (job_lo k) (job_hi k) (job_ro k) (k_cfg k) (handle (k_fuel k) (k_cfg k) (k_request k)) (k_state k)
      (fst e) (snd e).

Lemma job_ro_reads k : job_ro k = true <-> reads_only (k_request k).
Proof. unfold job_ro. destruct (k_request k); cbn; split; auto; try discriminate; contradiction. Qed.

Section Jobs.
Variables (d : list byte) (ks : list connection).
Hypothesis V : forall k, In k ks -> valid (zlen d) k.
Hypothesis AP : all_apart ks.

Lemma jobs_nth i J : nth_error (map (job_of d) ks) i = Some J ->
  exists k, nth_error ks i = Some k /\ J = job_of d k.
Proof.
  rewrite nth_error_map. destruct (nth_error ks i) as [k|]; cbn; intros E; [|discriminate].
  injection E as <-. eauto.
Qed.

Lemma jobs_apart i j a b : i <> j -> nth_error (map (job_of d) ks) i = Some a ->
  nth_error (map (job_of d) ks) j = Some b -> japart a b.
Proof.
  intros N E1 E2. apply jobs_nth in E1 as (k1 & E1 & ->). apply jobs_nth in E2 as (k2 & E2 & ->).
  pose proof (AP _ _ _ _ N E1 E2) as A. unfold apart in A. unfold japart, job_of. cbn [j_lo j_hi j_ro].
  rewrite !job_ro_reads. exact A.
Qed.

Lemma jobs_lo a : In a (map (job_of d) ks) -> 0 <= j_lo a.
Proof.
  intros I. apply in_map_iff in I as (k & <- & I). specialize (V k I). cbn [job_of j_lo].
  pose proof (pow2_pos _ (v_bs _ _ V)) as BS. pose proof (v_first _ _ V).
  unfold job_lo, lo_block.
  assert (0 <= first_of (k_request k) / c_bs (k_cfg k)) by (apply Z.div_pos; lia). nia.
Qed.

Lemma jobs_init : ginv (map (job_of d) ks) d d (map start ks).
Proof.
  split; [now rewrite !map_length|]. split; auto. split; auto.
  intros i J t NJ N. apply jobs_nth in NJ as (k & NK & ->).
  rewrite nth_error_map, NK in N. injection N as <-. unfold tinv, start, job_of.
  cbn [th_cfg th_own th_prog j_lo j_hi j_ro j_cfg j_prog j_own j_end j_res].
  destruct (run (k_cfg k) (handle (k_fuel k) (k_cfg k) (k_request k)) (with_data d (k_state k))) as [e r] eqn:E.
  exists d. split; [exact E|]. split; [split; [auto|apply reach_refl]|]. split; auto.
  split; [apply agree_refl|]. cbn [fst snd].
  apply (handle_solo (zlen d)) with (d := d) in E; auto; [|apply V; eapply nth_error_In; eauto].
  destruct E as ((l & E & F) & _). exists l. split; auto.
Qed.

Lemma jobs_inv sched d' ts : execute sched d (map start ks) = Some (d', ts) ->
  ginv (map (job_of d) ks) d d' ts.
Proof.
  intros E. eapply execute_inv; [exact jobs_apart|exact jobs_lo|exact jobs_init|exact E].
Qed.

Lemma jobs_frame d' ts : ginv (map (job_of d) ks) d d' ts ->
  forall x, (forall k, In k ks -> reads_only (k_request k) \/ ~ in_range (k_request k) x) ->
  getb d' x = getb d x.
Proof.
  intros (G1 & G2 & G3 & G4) x H.
  destruct (Exists_dec (fun k => job_ro k = false /\ job_lo k <= x < job_hi k) ks) as [X|X].
  { intros k. destruct (job_ro k); [right; intuition discriminate|].
    destruct (Z_le_dec (job_lo k) x), (Z_lt_dec x (job_hi k)); [left; auto|right; lia..]. }
  - apply Exists_exists in X as (k & I & R & X). apply In_nth_error in I as (i & N).
    assert (NJ : nth_error (map (job_of d) ks) i = Some (job_of d k)) by (now apply map_nth_error).
    destruct (nth_error ts i) as [t|] eqn:NT.
    2:{ apply nth_error_None in NT. rewrite map_length in G1.
        assert (i < length ks)%nat by (apply nth_error_Some; congruence). lia. }
    destruct (G3 _ _ _ NJ NT) as (ds & _ & (_ & RE) & _ & (_ & A) & _).
    cbn [job_of j_lo j_hi j_cfg j_prog j_own] in *. rewrite <- A by auto.
    apply (reach_frame (zlen d) k d) with (i := x) in RE; auto.
    + apply V. eapply nth_error_In; eauto.
    + apply H. eapply nth_error_In; eauto.
  - apply G4. intros J IJ. apply in_map_iff in IJ as (k & <- & I). cbn [job_of j_lo j_hi j_ro].
    destruct (job_ro k) eqn:R; auto. right. intros Y. apply X. apply Exists_exists. eauto.
Qed.

Lemma jobs_result d' ts i k t r : ginv (map (job_of d) ks) d d' ts ->
  nth_error ks i = Some k -> nth_error ts i = Some t -> result t = Some r ->
  exists fs, run (k_cfg k) (handle (k_fuel k) (k_cfg k) (k_request k)) (with_data d (k_state k)) = (fs, r) /\
    forall x, job_lo k <= x < job_hi k -> getb d' x = getb (f_data fs) x.
Proof.
  intros G N NT R.
  assert (NJ : nth_error (map (job_of d) ks) i = Some (job_of d k)) by (now apply map_nth_error).
  destruct (ginv_end _ _ _ _ _ _ _ _ G NJ NT R) as (E1 & E2).
  cbn [job_of j_res j_end j_lo j_hi] in *.
  destruct (run _ _ _) as [fs r'] eqn:E. cbn [fst snd] in *. subst r'. eauto.
Qed.

Lemma served_local r d1 d2 x : (forall i, in_range r i -> getb d1 i = getb d2 i) ->
  served r d d1 x -> served r d d2 x.
Proof.
  intros H. destruct r; cbn [served in_range first_of size_of] in *; auto.
  - intros (A & B). split; auto. intros i I. rewrite <- H by (unfold in_range; cbn; lia). auto.
  - intros A i I. rewrite <- H by (unfold in_range; cbn; lia). auto.
Qed.

Lemma jobs_served d' ts i k t rep : ginv (map (job_of d) ks) d d' ts ->
  nth_error ks i = Some k -> nth_error ts i = Some t -> result t = Some (inl rep) ->
  p_outcome rep = Success -> served (k_request k) d d' (p_sent rep).
Proof.
  intros G N NT R S. destruct (jobs_result _ _ _ _ _ _ G N NT R) as (fs & E & A).
  assert (VK : valid (zlen d) k) by (apply V; eapply nth_error_In; eauto).
  apply (handle_solo (zlen d) k d) in E; auto. destruct E as (_ & _ & SV & _).
  eapply served_local; [|apply SV; auto]. intros x X. symmetry. apply A.
  apply range_in_blocks; auto. apply pow2_pos. apply VK.
Qed.
End Jobs.

(* any program can be run to its end *)
Lemma finish_one : forall (p : prog reply) c own d (pre post : list thread) (K : list byte -> list thread -> Prop),
  (forall d' t, result t <> None -> exists sched d2 ts2,
     execute sched d' (pre ++ t :: post) = Some (d2, ts2) /\ K d2 ts2) ->
  exists sched d2 ts2, execute sched d (pre ++ Thread c own p :: post) = Some (d2, ts2) /\ K d2 ts2.
Proof.
  induction p as [a|x|B o k IH]; intros c own d pre post K H.
  - apply H. cbn. discriminate.
  - apply H. cbn. discriminate.
  - destruct (perform c o (with_data d own)) as [s r] eqn:P.
    destruct (IH r c s (f_data s) pre post K H) as (sched & d2 & ts2 & E & KK).
    exists (length pre :: sched), d2, ts2. split; auto. cbn [execute].
    rewrite nth_error_app2, Nat.sub_diag by lia. cbn [nth_error tstep th_prog th_cfg th_own].
    unfold tstep. cbn [th_prog th_cfg th_own]. rewrite P.
    replace (set_at (length pre) (Thread c s (k r)) (pre ++ Thread c own (Sys o k) :: post))
      with (pre ++ Thread c s (k r) :: post); auto.
    clear. induction pre; cbn; auto. now rewrite <- IHpre.
Qed.

Lemma finish_all : forall post pre d, all_done pre ->
  exists sched d2 ts2, execute sched d (pre ++ post) = Some (d2, ts2) /\ all_done ts2.
Proof.
  induction post as [|[c own p] post IH]; intros pre d D.
  - exists [], d, pre. rewrite app_nil_r. split; auto.
  - apply finish_one. intros d' t R.
    replace (pre ++ t :: post) with ((pre ++ [t]) ++ post) by (rewrite <- app_assoc; reflexivity).
    apply IH. apply Forall_app. auto.
Qed.
