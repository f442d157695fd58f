(* Lemmas about StorageModel: one request running alone. *)
From Coq Require Import ZArith List Bool Lia.
From Verif Require Import BytesLib FileModel FileSpec FileProofs OpsModel OpsProofs StorageModel
  StorageSpec StorageProofs.
Import ListNotations.
Open Scope Z_scope.

Lemma run_bind' {A B} c (m : prog A) (f : A -> prog B) s s' r :
  run c (bind_p m f) s = (s', r) ->
  exists s1 r1, run c m s = (s1, r1) /\
    match r1 with inl a => run c (f a) s1 = (s', r) | inr x => s' = s1 /\ r = inr x end.
Proof.
  rewrite run_bind. unfold bind. destruct (run c m s) as [s1 [a|x]]; intros E.
  - exists s1, (inl a). auto.
  - injection E as <- <-. exists s1, (inr x). auto.
Qed.

(* A run inside of [lo,hi) keeps the size and the other bytes. *)
Lemma run_keeps {A} c (p : prog A) lo hi ro size : 0 <= lo -> forall s s' r,
  run c p s = (s', r) -> zlen (f_data s) = size -> logs (call_in lo hi size ro) s s' ->
  zlen (f_data s') = size /\
  (forall i, ~ lo <= i < hi -> getb (f_data s') i = getb (f_data s) i) /\
  (ro = true -> f_data s' = f_data s).
Proof.
  intros LO. induction p as [a|x|B o k IH]; cbn [run]; intros s s' r E Z0 (l & EL & FL).
  - injection E as <- <-. auto.
  - injection E as <- <-. auto.
  - destruct (perform c o s) as [s1 r1] eqn:P.
    pose proof (perform_log _ _ _ _ _ _ P) as (l1 & L1).
    pose proof (run_log _ _ _ _ _ E) as (l2 & L2).
    assert (X : l = l1 ++ l2).
    { rewrite L2, L1, <- app_assoc in EL. apply app_inv_head in EL. auto. }
    subst l. apply Forall_app in FL as [F1 F2].
    destruct (perform_local c B o _ _ _ lo hi ro LO P) as (f & FLoc & FId & FE & _).
    { exists l1. split; auto. rewrite Z0. exact F1. }
    rewrite Z0 in *. destruct (FLoc _ Z0) as (G1 & G2 & _). rewrite FE in G1, G2.
    apply IH in E as (H1 & H2 & H3); [|auto|exists l2; auto].
    split; auto. split.
    + intros i I. rewrite H2, G2; auto.
    + intros R. rewrite H3, <- FE by auto. auto.
Qed.

(* ---- GET ---- *)

Lemma read_chunk_solo c size skip s a fs fs' r : 0 <= r_pos s -> r_pos s = f_pos fs ->
  run c (read_chunk_p c size skip s a) fs = (fs', r) ->
  f_data fs' = f_data fs /\
  (f_log fs' = f_log fs \/
   (r_pos s mod c_bs c = 0 /\
    f_log fs' = f_log fs ++ [CRead (r_pos s) (py_stop (round_up (size - r_done s) (c_bs c)) (zlen (r_buf s)))])) /\
  match r with
  | inl (s', e) => f_pos fs' = r_pos s' /\
      exists k, read_chunk (f_data fs) (c_bs c) size skip s (RAns (Some (Z.max 1 k)) (ra_send a) (ra_cancel a)) = (s', e) /\
        (r_pos s mod c_bs c = 0 -> exists n p l, c_kernel c n (CRead p l) = Done k)
  | inr x => (exists e n p l v, x = Raised e /\ c_kernel c n (CRead p l) = Err e v)
  end.
Proof.
  intros P0 EP. unfold read_chunk_p. intros E.
  apply run_bind' in E as (s1 & r1 & E1 & E). rewrite run_call in E1. cbn [perform] in E1.
  unfold tell in E1. injection E1 as <- <-. rewrite <- EP in E. cbv zeta in E.
  unfold read_chunk. cbn [r_pos r_buf r_done r_sent r_calls r_chunks ra_count ra_send ra_cancel] in *.
  rewrite run_if in E.
  destruct (negb (r_pos s mod c_bs c =? 0)) eqn:AL.
  { cbn [run] in E. unfold ret in E. injection E as <- <-. split; auto. split; auto.
    cbn [r_pos]. split; auto. exists 0. split; [reflexivity|]. intros; lia. }
  assert (A0 : r_pos s mod c_bs c = 0) by lia.
  set (n := py_stop (round_up (size - r_done s) (c_bs c)) (zlen (r_buf s))) in *.
  pose proof (py_stop_bounds (round_up (size - r_done s) (c_bs c)) (zlen (r_buf s)) (zlen_nonneg _)) as B.
  fold n in B. clearbody n.
  apply run_bind' in E as (s2 & r2 & E2 & E). rewrite run_call in E2. cbn [perform] in E2.
  assert (LT : zlen (take n (r_buf s)) = n) by (rewrite zlen_take; lia).
  unfold sys_read in E2. rewrite LT, <- EP in E2.
  destruct (c_kernel c (f_calls fs) (CRead (r_pos s) n)) as [k|x] eqn:K.
  2:{ injection E2 as <- <-. destruct E as [-> ->]. cbn [called f_data f_log].
      split; auto. split; [right; auto|]. eauto 10. }
  set (m := Z.max _ _) in E2.
  assert (M : clamp 0 (Z.min n (Z.max 0 (zlen (f_data fs) - r_pos s))) (Z.max 1 k) = m).
  { unfold m, clamp. lia. }
  assert (MB : 0 <= m <= n) by (unfold m; lia).
  clearbody m. injection E2 as <- <-. cbn [fst snd] in E.
  replace ((sub (r_pos s) m (f_data fs) ++ drop m (take n (r_buf s))) ++ drop n (r_buf s))
    with (sub (r_pos s) m (f_data fs) ++ drop m (r_buf s)) in E.
  2:{ rewrite <- app_assoc. f_equal. rewrite <- (take_drop n (r_buf s)) at 1.
      rewrite drop_app, LT. rewrite (drop_nonpos (m - n)) by lia. reflexivity. }
  rewrite run_if in E. destruct (m =? 0) eqn:M0.
  { cbn [run] in E. unfold ret in E. injection E as <- <-. cbn [called f_data f_log f_pos r_pos].
    split; auto. split; auto. split; auto. exists k. rewrite M, M0. split; eauto. }
  cbv zeta in E. destruct (ra_send a) as [j|]; cbn [run] in E; unfold ret in E; injection E as <- <-;
    cbn [called f_data f_log f_pos r_pos]; (split; [auto|]; split; [auto|]; split; [auto|]);
    exists k; rewrite M, M0; eauto.
Qed.

Section Get.
Variables (c : fcfg) (d : list byte) (offset size : Z) (o : nat -> rans).
Hypothesis BS : 0 < c_bs c.
Hypothesis OFF : 0 <= offset.
Hypothesis SIZE : 0 <= size.
Let bs := c_bs c.
Let lo := bs * (offset / bs).
Let hi := bs * ((offset + size + bs - 1) / bs).

Lemma hi_round q : round_up (offset + size - bs * q) bs = hi - bs * q.
Proof.
  unfold round_up, hi. rewrite Z.mod_eq by (unfold bs; lia).
  replace (offset + size - bs * q + bs - 1) with (offset + size + bs - 1 + (- q) * bs) by lia.
  rewrite Z.div_add by (unfold bs; lia). lia.
Qed.

Lemma read_in pos done n : pos mod bs = 0 -> 0 <= done -> done <= size ->
  (pos = offset + done \/ (done = 0 /\ pos = offset - offset mod bs)) ->
  call_in lo hi (zlen d) true (CRead pos (py_stop (round_up (size - done) bs) n)).
Proof.
  intros A D S H. fold bs in BS. cbn. unfold py_stop.
  pose proof (round_up_ge (size - done) bs BS) as R.
  pose proof (Z.mul_div_le offset bs BS) as ML.
  pose proof (Z.mul_succ_div_gt offset bs BS) as MG.
  destruct (_ <? 0) eqn:X; [lia|].
  destruct H as [H|[H1 H2]].
  - apply mod0_mult in A as (q & EQ); auto. split.
    + unfold lo. rewrite H. lia.
    + pose proof (hi_round q) as HR. replace (offset + size - bs * q) with (size - done) in HR by lia. lia.
  - assert (EL : pos = lo) by (unfold lo; rewrite H2, Z.mod_eq by lia; lia).
    rewrite H1, EL. split; [lia|]. rewrite Z.sub_0_r.
    pose proof (hi_round (offset / bs)) as HR. fold lo in HR.
    assert (round_up size bs <= round_up (offset + size - lo) bs).
    { assert (0 <= offset - lo) by (unfold lo; lia).
      unfold round_up. rewrite !Z.mod_eq by lia.
      assert ((size + bs - 1) / bs <= (offset + size - lo + bs - 1) / bs) by (apply Z.div_le_mono; lia).
      nia. }
    lia.
Qed.

Lemma log_reads fs fs' pos n :
  (f_log fs' = f_log fs \/ (pos mod bs = 0 /\ f_log fs' = f_log fs ++ [CRead pos n])) ->
  (pos mod bs = 0 -> call_in lo hi (zlen d) true (CRead pos n)) ->
  logs (call_in lo hi (zlen d) true) fs fs'.
Proof.
  intros [E|[A E]] H; [now apply logs_same|]. eapply logs_one; [exact E|auto].
Qed.

Lemma chunk_pos img b sz skip s a s' e : read_chunk img b sz skip s a = (s', e) ->
  0 <= r_pos s -> 0 <= r_pos s' /\ (e <> Some Success).
Proof.
  unfold read_chunk. cbn [r_pos r_buf r_done r_sent r_calls r_chunks].
  pose proof (py_stop_bounds (round_up (sz - r_done s) b) (zlen (r_buf s)) (zlen_nonneg _)) as B.
  destruct (negb _).
  { intros E; injection E as <- <-. cbn. split; auto. discriminate. }
  destruct (ra_count a) as [k|].
  2:{ intros E; injection E as <- <-. cbn. split; auto. discriminate. }
  match goal with |- context [clamp ?a ?b ?c] => set (count := clamp a b c) end.
  assert (0 <= count) by (apply clamp_bounds; lia). clearbody count.
  destruct (count =? 0).
  { intros E; injection E as <- <-. cbn. split; [lia|discriminate]. }
  destruct (ra_send a).
  { intros E; injection E as <- <-. cbn. split; [lia|discriminate]. }
  destruct (ra_cancel a); intros E; injection E as <- <-; cbn; (split; [lia|discriminate]).
Qed.

Lemma read_loop_solo : forall fuel s fs fs' r, f_data fs = d ->
  rinv d bs offset size s -> 0 <= r_pos s -> r_pos s = f_pos fs ->
  run c (read_loop_p fuel c size o s) fs = (fs', r) ->
  f_data fs' = d /\ logs (call_in lo hi (zlen d) true) fs fs' /\
  match r with
  | inl (s', e) => rprefix d offset size s' /\ (e = Success -> r_sent s' = sub offset size d /\ zlen (r_sent s') = size)
  | inr x => (size - r_done s < Z.of_nat fuel -> 0 <= r_done s -> x <> NoFuel) /\
             (r_done s < 0 -> (0 < fuel)%nat -> x <> NoFuel)
  end.
Proof.
  fold bs in BS.
  induction fuel as [|fuel IH]; cbn [read_loop_p]; intros s fs fs' r ED I P0 EP E.
  { cbn [run] in E. unfold raise in E. injection E as <- <-. split; auto. split; [apply logs_refl|].
    split; [|lia]. intros H H1. pose proof (ri_le _ _ _ _ _ I). lia. }
  rewrite run_if in E. destruct (size - r_done s =? 0) eqn:T.
  { cbn [run] in E. unfold ret in E. injection E as <- <-. split; auto. split; [apply logs_refl|].
    split; [eapply rinv_prefix; eauto|]. intros _. destruct I as [I1 I2 I3 I4 I5].
    assert (X : r_done s = size) by lia. rewrite X in *. split; auto. lia. }
  apply run_bind' in E as (fs1 & r1 & E1 & E).
  pose proof E1 as E1'. apply read_chunk_solo in E1; auto. destruct E1 as (D1 & L1 & R1).
  assert (LG : logs (call_in lo hi (zlen d) true) fs fs1).
  { eapply log_reads; [exact L1|]. intros A. destruct I as [I1 I2 I3 I4 I5].
    assert (0 <= r_done s).
    { destruct (Z.lt_ge_cases (r_done s) 0) as [N|N]; auto. exfalso. apply (I5 N). exact A. }
    apply read_in; auto. left. apply I4. lia. }
  destruct (Z.lt_ge_cases (r_done s) 0) as [N|N].
  { pose proof (ri_neg _ _ _ _ _ I N) as M.
    destruct r1 as [[s1 e1]|x].
    2:{ destruct E as [-> ->]. split; [congruence|]. split; auto. destruct R1 as (e & n & p & l & v & -> & _).
        split; intros; discriminate. }
    destruct R1 as (Q1 & k & C1 & _). unfold read_chunk in C1.
    cbn [r_pos r_buf r_done r_sent r_calls r_chunks] in C1. apply Z.eqb_neq in M. fold bs in C1. rewrite M in C1.
    cbn [negb] in C1. injection C1 as <- <-. cbn [run] in E. unfold ret in E. injection E as <- <-.
    split; [congruence|]. split; auto. split; [|discriminate].
    exact (rinv_prefix d bs offset size SIZE s I). }
  destruct r1 as [[s1 e1]|x].
  2:{ destruct E as [-> ->]. split; [congruence|]. split; auto. destruct R1 as (e & n & p & l & v & -> & _).
      split; intros; discriminate. }
  destruct R1 as (Q1 & k & C1 & _). rewrite ED in C1. fold bs in C1.
  pose proof (chunk_pos _ _ _ _ _ _ _ _ C1 P0) as [P1 NS].
  assert (G : rprefix d offset size s1 /\ (e1 = None -> rinv d bs offset size s1)).
  { destruct I as [I1 I2 I3 I4 I5]. eapply (chunk_gen d bs offset size BS OFF SIZE 0 s); eauto; try lia;
      (rewrite I4 by lia; lia) || (rewrite I2; lia). }
  destruct G as [G1 G2]. destruct e1 as [e1|].
  { cbn [run] in E. unfold ret in E. injection E as <- <-. split; [congruence|]. split; auto. split; auto.
    intros ->. congruence. }
  specialize (G2 eq_refl).
  apply IH in E; auto; try congruence. destruct E as (E2 & E3 & E4). split; auto.
  split; [eapply logs_trans; eauto|]. destruct r as [[s2 e2]|x]; auto.
  split; [|intros; lia]. intros H1 H2.
  assert (H : r_done s < r_done s1 <= size).
  { pose proof (chunk_shape _ _ _ _ _ _ _ _ BS (Z.le_refl 0) P0 C1) as (_ & _ & _ & CS).
    destruct (CS eq_refl) as (_ & _ & cnt & HC & ->).
    pose proof (ri_le _ _ _ _ _ I). lia. }
  apply (proj1 E4); lia.
Qed.

Lemma get_solo fuel buf fs fs' r : f_data fs = d ->
  run c (get_p fuel c buf offset size o) fs = (fs', r) ->
  f_data fs' = d /\ logs (call_in lo hi (zlen d) true) fs fs' /\
  match r with
  | inl rep => rprefix d offset size (RSt 0 [] 0 (p_sent rep) [] 0) /\
      (p_outcome rep = Success -> p_sent rep = sub offset size d /\ zlen (p_sent rep) = size)
  | inr x => size < Z.of_nat fuel -> x <> NoFuel
  end.
Proof.
  intros ED E. unfold get_p in E. cbv zeta in E. fold bs in E, BS.
  pose proof (Z.mod_pos_bound offset bs BS) as M.
  pose proof (Z.mod_le offset bs OFF BS) as ML.
  apply run_bind' in E as (fs1 & r1 & E1 & E). rewrite run_call in E1. cbn [perform] in E1.
  unfold seek in E1. injection E1 as <- <-.
  set (fs1 := set_pos _ _) in E.
  assert (D1 : f_data fs1 = d) by exact ED.
  assert (L1 : logs (call_in lo hi (zlen d) true) fs fs1) by (apply logs_same; reflexivity).
  assert (P1 : f_pos fs1 = offset - offset mod bs) by reflexivity. clearbody fs1.
  apply run_bind' in E as (fs2 & r2 & E2 & E).
  set (s0 := RSt (offset - offset mod bs) buf 0 [] [] 0) in *.
  assert (K : f_data fs2 = d /\ logs (call_in lo hi (zlen d) true) fs1 fs2 /\
    match r2 with
    | inl (s', e) => rprefix d offset size s' /\ (e = Success -> r_sent s' = sub offset size d /\ zlen (r_sent s') = size)
    | inr x => size < Z.of_nat fuel -> x <> NoFuel
    end).
  { clear E. rewrite run_if in E2. destruct (offset mod bs =? 0) eqn:S0.
    - apply read_loop_solo in E2; auto.
      + destruct E2 as (A & B & C). split; auto. split; auto. destruct r2 as [[s' e]|x]; auto.
        cbn [s0 r_done] in C. intros. apply (proj1 C); lia.
      + constructor; cbn; try reflexivity; try lia.
      + cbn. lia.
    - apply run_bind' in E2 as (fs3 & r3 & E3 & E2).
      apply read_chunk_solo in E3; [|cbn; lia|cbn; auto]. destruct E3 as (D3 & L3 & R3).
      assert (LG : logs (call_in lo hi (zlen d) true) fs1 fs3).
      { eapply log_reads; [exact L3|]. intros A. apply read_in; auto; cbn [s0 r_done]; try lia. }
      destruct r3 as [[s1 e1]|x].
      2:{ destruct E2 as [-> ->]. split; [congruence|]. split; auto.
          destruct R3 as (e & n & p & l & v & -> & _). intros; discriminate. }
      destruct R3 as (Q1 & k & C1 & _). rewrite D1 in C1.
      pose proof (chunk_pos _ _ _ _ _ _ _ _ C1 ltac:(cbn; lia)) as [PP NS].
      assert (G : rprefix d offset size s1 /\ (e1 = None -> rinv d bs offset size s1)).
      { eapply (chunk_gen d bs offset size BS OFF SIZE (offset mod bs)); try exact C1; cbn; auto; try lia. }
      destruct G as [G1 G2]. destruct e1 as [e1|].
      { cbn [run] in E2. unfold ret in E2. injection E2 as <- <-. split; [congruence|]. split; auto. split; auto.
        intros ->. congruence. }
      specialize (G2 eq_refl). apply read_loop_solo in E2; auto; try congruence.
      destruct E2 as (A & B & C). split; auto. split; [eapply logs_trans; eauto|].
      destruct r2 as [[s' e]|x]; auto. intros F.
      destruct (Z.lt_ge_cases (r_done s1) 0) as [N|N]; [apply (proj2 C); lia|].
      destruct (Z.eq_dec (r_done s1) 0); [|apply (proj1 C); lia]. apply (proj1 C); lia. }
  destruct K as (K1 & K2 & K3). destruct r2 as [[s' e]|x].
  - cbn [run] in E. unfold ret in E. injection E as <- <-. split; auto.
    split; [eapply logs_trans; eauto|]. cbn [fst snd p_sent p_outcome].
    destruct K3 as (K3 & K4). split; auto.
  - destruct E as [-> ->]. split; auto. split; [eapply logs_trans; eauto|auto].
Qed.
End Get.

(* ---- PUT ---- *)

(* no padding: blocks are inside of the image *)
Lemma stored_in bs d pos x d' hi : 0 < bs -> hi mod bs = 0 -> pos + zlen x <= hi -> hi <= zlen d ->
  stored bs d pos x d' -> zlen d' = zlen d.
Proof.
  intros B HM P H (_ & L & U & E).
  destruct E as [E|E]; [lia|]. destruct (Z.eq_dec (zlen d') (zlen d)); auto. exfalso.
  apply mod0_mult in HM as (a & ->); auto. apply mod0_mult in E as (b & EB); auto. rewrite EB in *.
  assert (a < b) by nia. assert (b < a + 1) by nia. lia.
Qed.

Section Put.
Variables (c : fcfg) (lo hi size : Z).
Hypothesis P2 : pow2 (c_bs c).
Hypothesis LO : 0 <= lo.
Hypothesis LM : lo mod c_bs c = 0.
Hypothesis HM : hi mod c_bs c = 0.
Hypothesis HS : hi <= size.
Hypothesis WR : whole_reads c.
Hypothesis WW : whole_writes c.
Hypothesis DEV : c_block c = true -> size mod c_bs c = 0.
Let P := call_in lo hi size false.

Lemma drain_solo : forall fuel data s s' r, zlen (f_data s) = size ->
  lo <= f_pos s -> f_pos s + zlen data <= hi ->
  run c (drain_p fuel c data) s = (s', r) ->
  logs P s s' /\ zlen (f_data s') = size /\
  (forall i, ~ f_pos s <= i < f_pos s + zlen data -> getb (f_data s') i = getb (f_data s) i) /\
  match r with
  | inl _ => f_pos s' = f_pos s + zlen data /\
      forall i, getb (f_data s') i = put (f_data s) (f_pos s) data i
  | inr x => (zlen data < Z.of_nat fuel -> x <> NoFuel)
  end /\
  (works c -> zlen data < Z.of_nat fuel -> r = inl tt).
Proof.
  pose proof (pow2_pos _ P2) as B.
  induction fuel as [|fuel IH]; intros data s s' r ZS L H E.
  { cbn in E. injection E as <- <-. pose proof (zlen_nonneg data).
    split; [apply logs_refl|]. split; auto. split; auto. split; intros; lia. }
  cbn [drain_p] in E. destruct data as [|b data].
  { cbn in E. injection E as <- <-. split; [apply logs_refl|]. split; auto. split; auto.
    rewrite zlen_nil. split; auto. split; [lia|]. intros i. unfold put. rewrite zlen_nil.
    destruct (f_pos s <=? i) eqn:X, (i <? f_pos s + 0) eqn:Y; cbn [andb]; auto; lia. }
  remember (b :: data) as x eqn:EX. assert (NE : x <> []) by (rewrite EX; discriminate).
  clear EX b data. pose proof (zlen_pos _ NE) as LX.
  apply run_bind' in E as (s1 & r1 & E1 & E). rewrite run_write in E1.
  assert (SZ : sized c (f_data s)) by (intros X; rewrite ZS; auto).
  pose proof (write_foot c lo hi size P2 LO LM HM HS x s s1 r1 L NE H E1) as LG.
  pose proof E1 as G. apply write_gen in G; auto; [|lia]. destruct G as (_ & F & R).
  destruct F as (F & _ & _).
  assert (WK : works c -> exists n, r1 = inl n).
  { intros W. destruct (write_ok c x s) as (s9 & n & E9); auto; try lia. rewrite E1 in E9.
    injection E9 as _ E9. eauto. }
  destruct r1 as [n|y].
  2:{ destruct E as [-> ->]. split; auto. split.
      { eapply (run_keeps c (write_p c x)); [exact LO|rewrite run_write; exact E1|auto|exact LG]. }
      split; auto. split; auto. intros W _. destruct (WK W). discriminate. }
  specialize (R WW). destruct R as (N & PP & ST).
  assert (TL : zlen (take n x) = n) by (rewrite zlen_take; lia).
  assert (Z1 : zlen (f_data s1) = size).
  { rewrite <- ZS. eapply (stored_in _ _ _ _ _ hi); [exact B|auto| | |exact ST]; lia. }
  assert (DL : zlen (drop n x) = zlen x - n) by (rewrite zlen_drop; lia).
  apply IH in E; auto; try lia. destruct E as (E2 & E3 & E4 & E5 & E6).
  split; [eapply logs_trans; eauto|]. split; auto. rewrite PP, DL in E4.
  destruct ST as (ST & _).
  split.
  { intros i I. rewrite E4 by lia. apply F. lia. }
  split.
  - destruct r as [u|y].
    + destruct E5 as (E5 & E7). rewrite DL in E5. split; [lia|]. intros i. rewrite E7, PP.
      unfold put. rewrite DL. destruct (f_pos s + n <=? i) eqn:X1, (i <? f_pos s + n + (zlen x - n)) eqn:X2;
        cbn [andb].
      * replace ((f_pos s <=? i) && (i <? f_pos s + zlen x)) with true by lia.
        rewrite getb_drop by lia. f_equal. lia.
      * replace ((f_pos s <=? i) && (i <? f_pos s + zlen x)) with false by lia.
        rewrite ST. unfold put. rewrite TL.
        replace ((f_pos s <=? i) && (i <? f_pos s + n)) with false by lia. reflexivity.
      * rewrite ST. unfold put. rewrite TL. destruct (f_pos s <=? i) eqn:X3.
        -- replace (i <? f_pos s + n) with true by lia. replace (i <? f_pos s + zlen x) with true by lia.
           cbn [andb]. rewrite getb_take by lia. replace (i - f_pos s <? n) with true by lia. reflexivity.
        -- reflexivity.
      * lia.
    + intros X. apply E5. lia.
  - intros W X. apply E6; auto. lia.
Qed.

Variables (d0 body : list byte) (offset n buflen : Z) (o : woracle) (flush : bool).
Hypothesis BL : 0 < buflen.
Hypothesis N0 : 0 <= n.
Hypothesis OFF : lo <= offset.
Hypothesis END : offset + n <= hi.
Hypothesis D0 : zlen d0 = size.

Record pinv (ws : wst) (fs : fst_) : Prop := {
  pi_done : 0 <= w_done ws <= n;
  pi_body : body = take (w_done ws) body ++ w_body ws;
  pi_len : zlen (take (w_done ws) body) = w_done ws;
  pi_pos : f_pos fs = offset + w_done ws;
  pi_size : zlen (f_data fs) = size;
  pi_data : forall i, getb (f_data fs) i = put d0 offset (take (w_done ws) body) i
}.

Definition pframe (fs : fst_) : Prop :=
  zlen (f_data fs) = size /\
  forall i, ~ offset <= i < offset + n -> getb (f_data fs) i = getb d0 i.

Lemma pinv_frame ws fs : pinv ws fs -> pframe fs.
Proof.
  intros []. split; auto. intros i I. rewrite pi_data0. unfold put. rewrite pi_len0.
  destruct (offset <=? i) eqn:X, (i <? offset + w_done ws) eqn:Y; cbn [andb]; auto; lia.
Qed.

(* the client sends, nothing is cancelled *)
Definition calm_put : Prop :=
  (forall i, exists k, wo_read o i = Some k /\ 0 < k) /\ (forall i, wo_cancel o i = false).

Lemma fill_fine count : calm_put -> count <= buflen -> forall fuel s got s' got' r,
  count - zlen got <= zlen (w_body s) -> zlen got <= count ->
  fill fuel o buflen count s got = Some (s', got', r) -> r = None /\ zlen got' = count.
Proof.
  intros (R & _) Hc. induction fuel as [|fuel IH]; cbn [fill]; intros s got s' got' r B L E; [discriminate|].
  destruct (zlen got <? count) eqn:C.
  2:{ injection E as <- <- <-. split; auto. lia. }
  destruct (R (w_ri s)) as (k & -> & Pc) in E.
  set (m := clamp 0 (Z.min (Z.max 0 (Z.min count buflen - zlen got)) (zlen (w_body s))) k) in *.
  assert (Hn : 1 <= m <= Z.min (count - zlen got) (zlen (w_body s))) by (unfold m, clamp; lia).
  clearbody m. replace (m =? 0) with false in E by lia.
  apply IH in E; auto; cbn; rewrite zlen_app, zlen_take, ?zlen_drop; lia.
Qed.

Lemma fill_ends count : forall fuel s got, zlen got <= count -> count - zlen got < Z.of_nat fuel ->
  exists r, fill fuel o buflen count s got = Some r.
Proof.
  induction fuel as [|fuel IH]; cbn [fill]; intros s got C H.
  - (* no fuel *) exfalso. lia.
  - destruct (_ <? _) eqn:G; [|eauto]. destruct (wo_read _ _) as [k|]; [|eauto].
    set (m := clamp _ _ _). destruct (m =? 0) eqn:M; [eauto|].
    assert (0 < m <= Z.min (zlen (w_body s)) (count - zlen got)).
    { pose proof (zlen_nonneg (w_body s)).
      pose proof (clamp_bounds 0 (Z.min (Z.max 0 (Z.min count buflen - zlen got)) (zlen (w_body s))) k ltac:(lia)) as X.
      fold m in X. lia. }
    clearbody m. apply IH; rewrite zlen_app, zlen_take; lia.
Qed.

Lemma put_app d pos x y i : put d pos (x ++ y) i =
  if (pos + zlen x <=? i) && (i <? pos + zlen x + zlen y) then getb y (i - (pos + zlen x)) else put d pos x i.
Proof.
  pose proof (zlen_nonneg x). pose proof (zlen_nonneg y).
  unfold put. rewrite zlen_app.
  destruct (pos + zlen x <=? i) eqn:X1, (i <? pos + zlen x + zlen y) eqn:X2, (pos <=? i) eqn:X3,
    (i <? pos + (zlen x + zlen y)) eqn:X4, (i <? pos + zlen x) eqn:X5; cbn [andb]; auto; try lia.
  - rewrite getb_app by lia. replace (i - pos <? zlen x) with false by lia. f_equal. lia.
  - rewrite getb_app by lia. replace (i - pos <? zlen x) with true by lia. reflexivity.
Qed.

Lemma write_chunk_solo fuel count ws fs fs' r : pinv ws fs -> 0 <= count -> w_done ws + count <= n ->
  run c (write_chunk_p fuel c o buflen (Some n) count ws) fs = (fs', r) ->
  logs P fs fs' /\ pframe fs' /\
  match r with
  | inl (ws', Go) => pinv ws' fs' /\ w_done ws' = w_done ws + count
  | inl (_, Eof) => False
  | inl (_, Stop e) => e <> Success
  | inr x => count < Z.of_nat fuel -> x <> NoFuel
  end /\
  (works c -> calm_put -> count <= buflen -> n <= zlen body -> count < Z.of_nat fuel ->
    exists ws', r = inl (ws', Go)).
Proof.
  intros I C0 CN E. unfold write_chunk_p in E.
  pose proof (pinv_frame _ _ I) as FR.
  destruct (fill fuel o buflen count ws []) as [[[s1 got] r1]|] eqn:FL.
  2:{ cbn in E. injection E as <- <-. split; [apply logs_refl|]. split; auto.
      assert (FT : ~ count < Z.of_nat fuel).
      { intros X. destruct (fill_ends count fuel ws []) as (q & Q).
        - rewrite zlen_nil. lia.
        - rewrite zlen_nil. lia.
        - congruence. }
      split; intros; lia. }
  assert (FG : calm_put -> count <= buflen -> n <= zlen body -> r1 = None /\ zlen got = count).
  { intros CP CB NB. eapply fill_fine; try exact FL; auto; rewrite zlen_nil; try lia.
    destruct I. pose proof (f_equal zlen pi_body0) as X. rewrite zlen_app, pi_len0 in X. lia. }
  apply fill_spec in FL as (d & -> & B & _ & _ & Dn & _ & _ & Ci & Z1 & R1). cbn [app] in *.
  rewrite zlen_nil in Z1. pose proof (zlen_nonneg d) as LD.
  destruct r1 as [e|].
  { cbn in E. injection E as <- <-. split; [apply logs_refl|]. split; auto. split.
    - destruct R1 as [R1|R1]; [discriminate|]. injection R1 as ->. discriminate.
    - intros W CP CB NB _. destruct (FG CP CB NB). discriminate. }
  apply run_bind' in E as (fs1 & r1 & E1 & E).
  destruct I as [I1 I2 I3 I4 I5 I6].
  apply drain_solo in E1; auto; try lia. destruct E1 as (L1 & Z2 & F1 & R2 & W2).
  assert (FR1 : pframe fs1).
  { split; auto. intros i X. rewrite F1 by lia. apply FR. auto. }
  destruct r1 as [u|x].
  2:{ destruct E as [-> ->]. split; auto. split; auto. split.
      - intros X. apply R2. lia.
      - intros W CP CB NB X. specialize (W2 W ltac:(lia)). discriminate. }
  destruct R2 as (R2 & R3).
  assert (TB : take (w_done ws + zlen d) body = take (w_done ws) body ++ d).
  { eapply (take_done_app body d (w_body s1)); auto; [|lia]. rewrite <- B. exact I2. }
  assert (PI : forall ci, pinv (WSt (w_img s1) (w_pos s1) (w_body s1) (w_done s1 + zlen d) (w_log s1)
                                 (w_ri s1) (w_wi s1) ci) fs1).
  { intros ci. constructor; cbn; rewrite ?Dn; try lia; auto.
    - rewrite TB, <- app_assoc, <- B. exact I2.
    - rewrite TB, zlen_app, I3. reflexivity.
    - intros i. rewrite R3, TB, put_app, I3. unfold put at 1. rewrite I4, I6. reflexivity. }
  destruct (zlen d <? count) eqn:SH.
  - cbn in E. injection E as <- <-. split; auto. split; auto. split; [discriminate|].
    intros W CP CB NB _. destruct (FG CP CB NB). lia.
  - cbn [run] in E. unfold ret in E. injection E as <- <-. split; auto. split; auto.
    destruct (wo_cancel o (w_ci s1)) eqn:CA.
    + split; [discriminate|]. intros W (_ & CP) CB NB _. rewrite CP in CA. discriminate.
    + split; [|eauto]. split; [apply PI|]. cbn. lia.
Qed.

Lemma write_loop_solo : forall fuel ws fs fs' r, pinv ws fs ->
  run c (write_loop_p fuel c o buflen (Some n) ws) fs = (fs', r) ->
  logs P fs fs' /\ pframe fs' /\
  match r with
  | inl (ws', Go) => pinv ws' fs' /\ w_done ws' = n
  | inl (_, Eof) => False
  | inl (_, Stop e) => e <> Success
  | inr x => n - w_done ws < Z.of_nat fuel -> x <> NoFuel
  end /\
  (works c -> calm_put -> n <= zlen body -> n - w_done ws < Z.of_nat fuel ->
    exists ws', r = inl (ws', Go)).
Proof.
  induction fuel as [|fuel IH]; intros ws fs fs' r I E.
  { cbn in E. injection E as <- <-. split; [apply logs_refl|]. split; [eapply pinv_frame; eauto|].
    destruct I. split; intros; lia. }
  cbn [write_loop_p write_todo] in E. rewrite run_if in E. destruct (n - w_done ws =? 0) eqn:T.
  { cbn in E. injection E as <- <-. split; [apply logs_refl|]. split; [eapply pinv_frame; eauto|].
    split; [split; [auto|lia]|eauto]. }
  apply run_bind' in E as (fs1 & r1 & E1 & E).
  assert (PD := pi_done _ _ I).
  apply write_chunk_solo in E1; auto; try lia. destruct E1 as (L1 & F1 & R1 & W1).
  destruct r1 as [[ws1 [| |e]]|x].
  - cbn [run] in E. destruct R1 as (R1 & R2). apply IH in E; auto. destruct E as (L2 & F2 & R3 & W3).
    split; [eapply logs_trans; eauto|]. split; auto. split.
    + destruct r as [[ws2 [| |e]]|x]; auto. intros. apply R3. lia.
    + intros. apply W3; auto. lia.
  - contradiction.
  - cbn in E. injection E as <- <-. split; auto. split; auto. split; auto.
    intros W CP NB X. destruct (W1 W CP) as (q & Q); auto; try lia. discriminate.
  - destruct E as [-> ->]. split; auto. split; auto. split.
    + intros. apply R1. lia.
    + intros W CP NB X. destruct (W1 W CP) as (q & Q); auto; try lia. discriminate.
Qed.

Lemma put_solo fuel fs fs' r : f_data fs = d0 ->
  run c (put_p fuel c body buflen offset (Some n) flush o) fs = (fs', r) ->
  logs P fs fs' /\ pframe fs' /\
  match r with
  | inl rep => p_outcome rep = Success -> n <= zlen body /\
      forall i, 0 <= i < n -> getb (f_data fs') (offset + i) = getb body i
  | inr x => n < Z.of_nat fuel -> x <> NoFuel
  end /\
  (works c -> calm_put -> n <= zlen body -> n < Z.of_nat fuel ->
    (offset mod c_bs c = 0 \/ c_bs c <= buflen) -> wo_flush o = true ->
    exists rep, r = inl rep /\ p_outcome rep = Success).
Proof.
  intros ED E. unfold put_p in E. cbv zeta in E.
  pose proof (pow2_pos _ P2) as BS. pose proof (Z.mod_pos_bound offset (c_bs c) BS) as MB.
  apply run_bind' in E as (fs1 & r1 & E1 & E). rewrite run_call in E1. cbn [perform] in E1.
  unfold seek in E1. injection E1 as <- <-.
  set (fs1 := set_pos _ _) in E.
  assert (L1 : logs P fs fs1) by (apply logs_same; reflexivity).
  set (ws := WSt [] offset body 0 [] 0 0 0) in *.
  assert (I1 : pinv ws fs1).
  { constructor; cbn; try lia; auto.
    - rewrite ED; auto.
    - intros i. rewrite ED. unfold put. cbn. change (zlen []) with 0.
      destruct (offset <=? i) eqn:X, (i <? offset + 0) eqn:Y; cbn [andb]; auto; lia. }
  assert (WD : w_done ws = 0) by reflexivity.
  clearbody fs1 ws.
  apply run_bind' in E as (fs2 & r2 & E2 & E).
  assert (K : logs P fs1 fs2 /\ pframe fs2 /\
    match r2 with
    | inl (ws', Go) => pinv ws' fs2 /\ 0 <= w_done ws'
    | inl (_, Eof) => False
    | inl (_, Stop e) => e <> Success
    | inr x => n < Z.of_nat fuel -> x <> NoFuel
    end /\
    (works c -> calm_put -> n <= zlen body -> n < Z.of_nat fuel ->
     (offset mod c_bs c = 0 \/ c_bs c <= buflen) -> exists ws', r2 = inl (ws', Go))).
  { rewrite run_if in E2. destruct (offset mod c_bs c =? 0) eqn:A.
    - cbn in E2. injection E2 as <- <-. split; [apply logs_refl|]. split; [eapply pinv_frame; eauto|].
      split; [split; [auto|lia]|eauto].
    - cbn [write_todo] in E2. apply write_chunk_solo in E2; auto; try lia. destruct E2 as (A1 & A2 & A3 & A4).
      split; auto. split; auto. split.
      + destruct r2 as [[w [| |]]|]; auto.
        * split; [apply A3|]. lia.
        * intros. apply A3. lia.
      + intros W CP NB X [Y|Y]; [lia|]. apply A4; auto; lia. }
  clear E2. destruct K as (L2 & F2 & R2 & W2).
  assert (LL : logs P fs fs2) by (eapply logs_trans; eauto).
  destruct r2 as [r2|x].
  2:{ destruct E as [-> ->]. split; auto. split; auto. split; auto.
      intros W CP NB X Y _. destruct (W2 W CP NB X Y). discriminate. }
  apply run_bind' in E as (fs3 & r3 & E3 & E).
  assert (K : logs P fs2 fs3 /\ pframe fs3 /\
    match r3 with
    | inl (ws', Go) => pinv ws' fs3 /\ w_done ws' = n
    | inl (_, Eof) => False
    | inl (_, Stop e) => e <> Success
    | inr x => n < Z.of_nat fuel -> x <> NoFuel
    end /\
    (works c -> calm_put -> n <= zlen body -> n < Z.of_nat fuel ->
     (offset mod c_bs c = 0 \/ c_bs c <= buflen) -> exists ws', r3 = inl (ws', Go))).
  { destruct r2 as [ws2 [| |e]]; [|contradiction|].
    - destruct R2 as (R2 & R4). apply write_loop_solo in E3; auto. destruct E3 as (A1 & A2 & A3 & A4).
      split; auto. split; auto. split.
      + destruct r3 as [[w [| |]]|]; auto. intros. apply A3. lia.
      + intros. apply A4; auto. lia.
    - cbn in E3. injection E3 as <- <-. split; [apply logs_refl|]. split; auto. }
  clear E3 R2 W2. destruct K as (L3 & F3 & R3 & W3).
  assert (L4 : logs P fs fs3) by (eapply logs_trans; eauto).
  destruct r3 as [[ws3 [| |e]]|x].
  - cbn in E. injection E as <- <-. split; auto. split; auto. cbn [p_outcome]. destruct R3 as (R3 & R4).
    split.
    + intros _. destruct R3. rewrite R4 in *. rewrite zlen_take in pi_len0. pose proof (zlen_nonneg body). split; [lia|].
      intros i X. rewrite pi_data0. unfold put. rewrite zlen_take.
      replace ((offset <=? offset + i) && _) with true by lia.
      replace (offset + i - offset) with i by lia. rewrite getb_take by lia.
      replace (i <? n) with true by lia. reflexivity.
    + intros. eexists. split; [reflexivity|]. cbn. rewrite H4. destruct flush; auto.
  - contradiction.
  - cbn in E. injection E as <- <-. split; auto. split; auto. cbn [p_outcome]. split; [congruence|].
    intros W CP NB X Y _. destruct (W3 W CP NB X Y). discriminate.
  - destruct E as [-> ->]. split; auto. split; auto. split; auto.
    intros W CP NB X Y _. destruct (W3 W CP NB X Y). discriminate.
Qed.

(* ---- zero ---- *)

Lemma zero_loop_solo : forall fuel done i fs fs' r, 0 <= done <= n -> f_pos fs = offset + done ->
  zlen (f_data fs) = size -> (forall j, getb (f_data fs) j = put d0 offset (zeros done) j) ->
  run c (zero_loop_p fuel c o n done i) fs = (fs', r) ->
  logs P fs fs' /\ pframe fs' /\
  match r with
  | inl None => forall j, getb (f_data fs') j = put d0 offset (zeros n) j
  | inl (Some e) => e = Canceled
  | inr x => n - done < Z.of_nat fuel -> x <> NoFuel
  end /\
  (works c -> (forall i, wo_cancel o i = false) -> n - done < Z.of_nat fuel -> r = inl None).
Proof.
  pose proof (pow2_pos _ P2) as BS.
  induction fuel as [|fuel IH]; intros done i fs fs' r D0' PP ZS DD E.
  { assert (pframe fs).
    { split; auto. intros j J. rewrite DD, put_zeros by lia.
      destruct (offset <=? j) eqn:X, (j <? offset + done) eqn:Y; cbn [andb]; auto; lia. }
    cbn in E. injection E as <- <-. split; [apply logs_refl|]. split; auto. split; intros; lia. }
  assert (FR : pframe fs).
  { split; auto. intros j J. rewrite DD, put_zeros by lia.
    destruct (offset <=? j) eqn:X, (j <? offset + done) eqn:Y; cbn [andb]; auto; lia. }
  cbn [zero_loop_p] in E. rewrite run_if in E. destruct (n - done =? 0) eqn:T.
  { cbn in E. injection E as <- <-. split; [apply logs_refl|]. split; auto.
    assert (EN : done = n) by lia. rewrite EN in DD. split; auto. }
  set (step := Z.min (n - done) MAX_STEP) in E.
  assert (ST : 0 < step <= n - done) by (unfold step, MAX_STEP; lia). clearbody step.
  apply run_bind' in E as (fs1 & r1 & E1 & E). rewrite run_zero in E1.
  assert (SZ : sized c (f_data fs)) by (intros X; rewrite ZS; auto).
  pose proof E1 as LG. apply (zero_foot c lo hi size) in LG; auto; try lia.
  pose proof E1 as G. apply zero_gen in G; auto; try lia. destruct G as (_ & (F & _ & _) & R).
  assert (Z1 : zlen (f_data fs1) = size).
  { eapply (run_keeps c (zero_p (S fuel) c step)); [exact LO|rewrite run_zero; exact E1|auto|exact LG]. }
  assert (FR1 : pframe fs1).
  { split; auto. intros j J. rewrite F by lia. apply FR; auto. }
  assert (WK : works c -> n - done < Z.of_nat (S fuel) -> exists m, r1 = inl m).
  { intros W X. destruct (zero_ok (S fuel) c step fs) as (s9 & m & E9); auto; try lia.
    rewrite E1 in E9. injection E9 as _ E9. eauto. }
  destruct r1 as [m|x].
  2:{ destruct E as [-> ->]. split; auto. split; auto. split.
      - intros. apply R. lia.
      - intros W _ X. destruct (WK W X). discriminate. }
  destruct R as (N & PP1 & (GS & _) & _).
  rewrite run_if in E. destruct (wo_cancel o i) eqn:CA.
  { cbn in E. injection E as <- <-. split; auto. split; auto. split; auto.
    intros _ C _. rewrite C in CA. discriminate. }
  apply IH in E; auto; try lia.
  2:{ intros j. rewrite GS, !put_zeros, DD, put_zeros, PP by lia.
      destruct (offset + done <=? j) eqn:X1, (j <? offset + done + m) eqn:X2, (offset <=? j) eqn:X3,
        (j <? offset + done) eqn:X4, (j <? offset + (done + m)) eqn:X5; cbn [andb]; auto; lia. }
  destruct E as (L2 & F2 & R2 & W2). split; [eapply logs_trans; eauto|]. split; auto. split.
  - destruct r as [[e|]|x]; auto. intros. apply R2. lia.
  - intros. apply W2; auto. lia.
Qed.

Lemma zero_solo fuel fs fs' r : f_data fs = d0 ->
  run c (zero_op_p fuel c offset n flush o) fs = (fs', r) ->
  logs P fs fs' /\ pframe fs' /\
  match r with
  | inl rep => p_outcome rep = Success ->
      forall i, 0 <= i < n -> getb (f_data fs') (offset + i) = x00
  | inr x => n < Z.of_nat fuel -> x <> NoFuel
  end /\
  (works c -> (forall i, wo_cancel o i = false) -> n < Z.of_nat fuel -> wo_flush o = true ->
    exists rep, r = inl rep /\ p_outcome rep = Success).
Proof.
  intros ED E. unfold zero_op_p in E.
  apply run_bind' in E as (fs1 & r1 & E1 & E). rewrite run_call in E1. cbn [perform] in E1.
  unfold seek in E1. injection E1 as <- <-.
  set (fs1 := set_pos _ _) in E.
  assert (L1 : logs P fs fs1) by (apply logs_same; reflexivity).
  assert (Q1 : f_pos fs1 = offset) by reflexivity.
  assert (Q2 : f_data fs1 = d0) by exact ED.
  clearbody fs1.
  apply run_bind' in E as (fs2 & r2 & E2 & E).
  apply zero_loop_solo in E2; auto; try lia; try congruence.
  2:{ intros j. rewrite Q2, put_zeros by lia.
      destruct (offset <=? j) eqn:X, (j <? offset + 0) eqn:Y; cbn [andb]; auto; lia. }
  destruct E2 as (L2 & F2 & R2 & W2).
  assert (LL : logs P fs fs2) by (eapply logs_trans; eauto).
  destruct r2 as [[e|]|x].
  - cbn in E. injection E as <- <-. split; auto. split; auto. cbn. split; [congruence|].
    intros W C X _. assert (inl (Some e) = inl (@None outcome)) by (apply W2; auto; lia). discriminate.
  - cbn in E. injection E as <- <-. split; auto. split; auto. cbn. split.
    + intros _ i I. rewrite R2, put_zeros by lia.
      replace ((offset <=? offset + i) && (offset + i <? offset + n)) with true by lia. reflexivity.
    + intros W C X Y. eexists. split; [reflexivity|]. cbn. rewrite Y. destruct flush; reflexivity.
  - destruct E as [-> ->]. split; auto. split; auto. split.
    + intros. apply R2. lia.
    + intros W C X _. assert (inr x = inl (@None outcome)) by (apply W2; auto; lia). discriminate.
Qed.
End Put.

(* ---- GET succeeds ---- *)

Section GetFine.
Variables (c : fcfg) (d : list byte) (offset size : Z) (o : nat -> rans).
Hypothesis BS : 0 < c_bs c.
Hypothesis OFF : 0 <= offset.
Hypothesis SIZE : 0 <= size.
Hypothesis END : offset + size <= zlen d.
Hypothesis WK : works c.
Hypothesis BLK : forall n p l k, c_kernel c n (CRead p l) = Done k -> 0 < k /\ k mod c_bs c = 0.
Hypothesis SEND : forall i, ra_send (o i) = None /\ ra_cancel (o i) = false.

Lemma chunk_fine skip s fs fs' r j : 0 <= skip < c_bs c -> f_data fs = d ->
  rgood d (c_bs c) offset size s -> offset + r_done s = r_pos s + skip -> 0 <= r_done s ->
  0 < size - r_done s -> r_pos s = f_pos fs ->
  run c (read_chunk_p c size skip s (o j)) fs = (fs', r) ->
  exists s', r = inl (s', None) /\ f_data fs' = d /\ f_pos fs' = r_pos s' /\
    r_done s < r_done s' <= size /\
    (r_done s' <> size -> rgood d (c_bs c) offset size s' /\ r_pos s' = offset + r_done s').
Proof.
  intros SK ED G EO D T EP E. assert (P0 : 0 <= r_pos s) by apply G.
  apply read_chunk_solo in E; auto. destruct E as (D1 & _ & R).
  destruct (SEND j) as [S1 S2].
  destruct r as [[s1 e1]|x].
  2:{ destruct R as (e & n & p & l & v & _ & K). destruct (WK n (CRead p l)) as (v' & K'). congruence. }
  destruct R as (Q1 & k & C & K). destruct G as (G1 & G2 & G3).
  destruct (K G2) as (n & p & l & K'). destruct (BLK _ _ _ _ K') as [K1 K2].
  rewrite ED in C.
  destruct (chunk_good d (c_bs c) offset size skip s (RAns (Some (Z.max 1 k)) (ra_send (o j)) (ra_cancel (o j))))
    as (s2 & C2 & D2 & N2); auto.
  { split; auto. }
  { exists (Z.max 1 k). cbn. replace (Z.max 1 k) with k by lia. auto 10. }
  rewrite C in C2. injection C2 as <- ->. exists s1. split; auto. split; [congruence|]. split; auto.
  split; auto. split; [|lia].
  pose proof (chunk_shape _ _ _ _ _ _ _ _ BS (proj1 SK) P0 C) as (_ & _ & _ & CS).
  destruct (CS eq_refl) as (_ & _ & cnt & HC & EQ). destruct (Z.eq_dec (r_done s1) size); [lia|].
  destruct (N2 n0) as (GG & EQ2).
  assert (r_pos s1 mod c_bs c = 0) by apply GG.
  assert (r_pos s < r_pos s1).
  { (* the position moved by the count *)
    revert C. unfold read_chunk. cbn [r_pos r_buf r_done r_sent r_calls r_chunks ra_count ra_send ra_cancel].
    destruct (negb _); [discriminate|].
    match goal with |- context [clamp ?a ?b ?c] => set (count := clamp a b c) end.
    assert (0 <= count).
    { apply clamp_bounds. pose proof (py_stop_bounds (round_up (size - r_done s) (c_bs c)) (zlen (r_buf s)) (zlen_nonneg _)). lia. }
    clearbody count. destruct (count =? 0) eqn:CZ; [discriminate|].
    rewrite S1, S2. intros X. injection X as <-. cbn. lia. }
  apply mod0_mult in G2 as (a & EA); auto. apply mod0_mult in H as (b & EB); auto.
  rewrite EA, EB in *. assert (a < b) by nia. nia.
Qed.

Lemma loop_fine : forall fuel s fs fs' r, f_data fs = d -> 0 <= r_done s <= size ->
  (r_done s <> size -> rgood d (c_bs c) offset size s /\ r_pos s = offset + r_done s) ->
  r_pos s = f_pos fs -> size - r_done s < Z.of_nat fuel ->
  run c (read_loop_p fuel c size o s) fs = (fs', r) -> exists s', r = inl (s', Success).
Proof.
  induction fuel as [|fuel IH]; intros s fs fs' r ED D G EP F E; [lia|].
  cbn [read_loop_p] in E. rewrite run_if in E. destruct (size - r_done s =? 0) eqn:T.
  { cbn in E. injection E as <- <-. eauto. }
  destruct (G ltac:(lia)) as (G1 & G2).
  apply run_bind' in E as (fs1 & r1 & E1 & E).
  apply chunk_fine in E1; auto; try lia. destruct E1 as (s1 & -> & D1 & P1 & X1 & X2).
  apply IH in E; auto; lia.
Qed.

Lemma get_fine fuel buf fs fs' r : f_data fs = d -> 0 < zlen buf -> zlen buf mod c_bs c = 0 ->
  (0 < size \/ offset mod c_bs c = 0) -> size < Z.of_nat fuel ->
  run c (get_p fuel c buf offset size o) fs = (fs', r) -> exists rep, r = inl rep /\ p_outcome rep = Success.
Proof.
  intros ED B1 B2 NZ F E. unfold get_p in E. cbv zeta in E.
  pose proof (Z.mod_pos_bound offset (c_bs c) BS) as M.
  pose proof (Z.mod_le offset (c_bs c) OFF BS) as ML.
  assert (Am : (offset - offset mod c_bs c) mod c_bs c = 0).
  { rewrite Zminus_mod, Zmod_mod, Z.sub_diag. apply Z.mod_0_l; lia. }
  apply run_bind' in E as (fs1 & r1 & E1 & E). rewrite run_call in E1. cbn [perform] in E1.
  unfold seek in E1. injection E1 as <- <-. set (fs1 := set_pos _ _) in E.
  assert (D1 : f_data fs1 = d) by exact ED.
  assert (P1 : f_pos fs1 = offset - offset mod c_bs c) by reflexivity. clearbody fs1.
  apply run_bind' in E as (fs2 & r2 & E2 & E). rewrite run_if in E2.
  assert (K : exists s', r2 = inl (s', Success)).
  { destruct (offset mod c_bs c =? 0) eqn:S0.
    - eapply loop_fine in E2; auto; cbn; try lia. intros _. split; [|lia].
      unfold rgood; cbn. repeat split; auto; lia.
    - apply run_bind' in E2 as (fs3 & r3 & E3 & E2).
      apply chunk_fine in E3; auto; cbn; try lia.
      2:{ unfold rgood; cbn. repeat split; auto; lia. }
      destruct E3 as (s1 & -> & D3 & P3 & X1 & X2). cbn [r_done] in X1.
      apply loop_fine in E2; auto; lia. }
  destruct K as (s' & ->). cbn in E. injection E as <- <-. eexists. split; reflexivity.
Qed.
End GetFine.
