(* Proofs about nbdutil.copy. *)
From Coq Require Import ZArith List Bool Lia Permutation.
From Coq.Strings Require Import Byte.
From Verif Require Import BytesLib OpsModel NbdModel NbdProofs ExtentsModel ExtentsSpec NbdCopyModel NbdCopySpec.
Import ListNotations.
Open Scope Z_scope.

Lemma MAX_ZERO_pos : 0 < MAX_ZERO.
Proof. reflexivity. Qed.
Global Opaque MAX_ZERO.

Lemma ext_zero_bit e : ext_zero e = Z.testbit (e_flags e) 1.
Proof.
  unfold ext_zero. change STATE_ZERO with (2 ^ 1).
  destruct (Z.testbit (e_flags e) 1) eqn:T.
  - destruct (Z.land (e_flags e) (2 ^ 1) =? 0) eqn:Z0; [|reflexivity]. apply Z.eqb_eq in Z0.
    assert (X : Z.testbit (Z.land (e_flags e) (2 ^ 1)) 1 = true)
      by (rewrite Z.land_spec, T; reflexivity).
    rewrite Z0 in X. discriminate X.
  - replace (Z.land (e_flags e) (2 ^ 1)) with 0; [reflexivity|]. symmetry. apply Z.bits_inj'. intros n N.
    rewrite Z.land_spec, Z.bits_0. destruct (Z.eq_dec n 1) as [->|D]; [rewrite T; reflexivity|].
    rewrite Z.pow2_bits_false by lia. apply andb_false_r.
Qed.

(* ---- lists ---- *)

Lemma set_nth_length {A} i (x : A) l : length (set_nth i x l) = length l.
Proof. revert i. induction l; intros [|i]; cbn; auto. Qed.

Lemma nth_error_set_same {A} i (x : A) l : (i < length l)%nat -> nth_error (set_nth i x l) i = Some x.
Proof. revert i. induction l; intros [|i] L; cbn in *; try lia; [reflexivity|]. apply IHl. lia. Qed.

Lemma nth_error_set_other {A} i j (x : A) l : i <> j -> nth_error (set_nth i x l) j = nth_error l j.
Proof. revert i j. induction l; intros [|i] [|j] L; cbn; try reflexivity; try congruence. apply IHl. congruence. Qed.

Lemma nth_error_repeat {A} (x : A) n i : (i < n)%nat -> nth_error (repeat x n) i = Some x.
Proof. revert i. induction n; intros [|i] L; cbn; try lia; [reflexivity|]. apply IHn. lia. Qed.

Section Copy.
Context (c : config) (E : list extent) (d0 : list byte).
Let src := f_src c.
Let size := zlen src.
Context (HE : f_exts c = map Some E) (TR : truthful src E) (HB : 0 < f_buf c)
        (HD : (0 < f_depth c)%nat) (HS : zlen d0 = size).

(* ---- the sequence of requests ---- *)

Definition len_of (x : option request) : Z := match x with Some r => r_length r | None => 0 end.
Fixpoint pos (l : list (option request)) : Z :=
  match l with [] => 0 | x :: l => len_of x + pos l end.

Lemma pos_app l m : pos (l ++ m) = pos l + pos m.
Proof. induction l; cbn [app pos]; lia. Qed.

Definition FL := Request FLUSH 0 0 0.

Definition good_req (r : request) : Prop :=
  0 < r_length r /\ 0 <= r_offset r /\ r_offset r + r_length r <= size /\
  match r_op r with
  | WRITE => r_length r <= f_buf c
  | ZERO => r_length r <= MAX_ZERO /\ forall i, r_offset r <= i < r_offset r + r_length r -> getb src i = x00
  | FLUSH => False
  end.

Inductive shape : list (option request) -> Z -> nat -> Prop :=
| sh_nil : shape [] 0 0
| sh_data l p r : shape l p 0 -> r_offset r = p -> good_req r ->
    shape (l ++ [Some r]) (p + r_length r) 0
| sh_flush l : shape l size 0 -> shape (l ++ [Some FL]) size 1
| sh_end l : shape l size 1 -> shape (l ++ [None]) size 2.

Lemma shape_pos l p k : shape l p k -> p = pos l.
Proof.
  induction 1; cbn [pos]; rewrite ?pos_app; cbn [pos len_of FL r_length]; lia.
Qed.

Lemma shape_snoc l x p k : shape (l ++ [x]) p k ->
  (exists r q, x = Some r /\ r_offset r = q /\ good_req r /\ shape l q 0 /\ k = 0%nat /\ p = q + r_length r)
  \/ (x = Some FL /\ shape l size 0 /\ k = 1%nat /\ p = size)
  \/ (x = None /\ shape l size 1 /\ k = 2%nat /\ p = size).
Proof.
  intro H. remember (l ++ [x]) as m eqn:M. destruct H as [|l' q r H O G|l' H|l' H].
  - destruct l; discriminate.
  - apply app_inj_tail in M. destruct M as [<- <-]. left. exists r, q. auto 10.
  - apply app_inj_tail in M. destruct M as [<- <-]. right; left. auto.
  - apply app_inj_tail in M. destruct M as [<- <-]. right; right. auto.
Qed.

Lemma shape_prefix l m p k : shape (l ++ m) p k -> exists q j, shape l q j /\ (j <= k)%nat /\ (k = 0%nat -> q <= p).
Proof.
  revert p k. induction m as [|x m IH] using rev_ind; intros p k H.
  - rewrite app_nil_r in H. exists p, k. split; [assumption|]. lia.
  - rewrite app_assoc in H. apply shape_snoc in H.
    destruct H as [(r & q & -> & O & G & H & -> & ->)|[(-> & H & -> & ->)|(-> & H & -> & ->)]];
      apply IH in H; destruct H as (q' & j & H & J & Q); exists q', j; split; auto; split; try lia.
    intros _. destruct G as [G _]. specialize (Q eq_refl). lia.
Qed.

Lemma shape_next l x m p k : shape (l ++ x :: m) p k -> exists q j, shape (l ++ [x]) q j /\ (m = [] -> q = p /\ j = k).
Proof.
  intro H. replace (l ++ x :: m) with ((l ++ [x]) ++ m) in H by (rewrite <- app_assoc; reflexivity).
  destruct m as [|y m].
  - rewrite app_nil_r in H. eauto.
  - apply shape_prefix in H. destruct H as (q & j & H & _). exists q, j. split; [assumption|discriminate].
Qed.

Lemma shape_bounds l p k : shape l p k -> 0 <= p <= size.
Proof.
  assert (Z0 : 0 <= size) by apply zlen_nonneg. clearbody size.
  intro H. destruct H as [|l p r H O G|l H|l H]; try lia. destruct G as (G1 & G2 & G3 & _). lia.
Qed.

(* ---- the reader ---- *)

Definition rest_ok (a : Z) (L : list (option extent)) : Prop :=
  exists l, L = map Some l /\ Forall (fun e => 0 <= e_length e) l /\ a + total l = size /\
  forall i f, at_byte l i f -> Z.testbit f 1 = true -> getb src (a + i) = x00.

Definition zero_range (a n : Z) := forall i, a <= i < a + n -> getb src i = x00.

Lemma rest_ok_le a L : rest_ok a L -> a <= size.
Proof.
  intros (l & _ & F & T & _). assert (0 <= total l); [|lia]. clear T.
  induction F; cbn [total]; lia.
Qed.

Definition reader_ok (r : rstate) (err : bool) (w : wstate) (put : list (option request)) : Prop :=
  match r with
  | RNext off l => 0 <= off /\ rest_ok off l /\ shape put off 0
  | RZero off todo l =>
      0 <= off /\ 0 <= todo /\ zero_range off todo /\ rest_ok (off + todo) l /\ shape put off 0
  | RZeroPut off todo l =>
      0 <= off /\ 0 < todo /\ zero_range off todo /\ rest_ok (off + todo) l /\ shape put off 0
  | RData off todo l => 0 <= off /\ 0 <= todo /\ rest_ok (off + todo) l /\ shape put off 0
  | RGot off todo l b =>
      0 <= off /\ 0 < todo /\ rest_ok (off + todo) l /\ shape put off 0 /\ (b = None -> err = true)
  | RRead off todo l b => 0 <= off /\ 0 < todo /\ rest_ok (off + todo) l /\ shape put off 0
  | RPut off todo l b => 0 <= off /\ 0 < todo /\ rest_ok (off + todo) l /\ shape put off 0
  | RFlush => shape put size 0
  | REnd => shape put size 1
  | RJoin => shape put size 2 \/ (err = true /\ exists p k, shape put p k)
  | RDone true => shape put size 2 /\ err = false /\ w = WDone
  | RDone false => exists p k, shape put p k
  end.

Definition writer_ok (w : wstate) (err : bool) (got : list (option request)) : Prop :=
  match w with
  | WGet => err = false /\ forall l x, got = l ++ [x] -> x <> None
  | WDo r => err = false /\ exists l, got = l ++ [Some r]
  | WBack r => err = false /\ r_op r = WRITE /\ exists l, got = l ++ [Some r]
  | WError => err = false
  | WSignal => err = true
  | WDone => err = false -> exists l, got = l ++ [None]
  end.

Definition inv_a (s : st) : Prop :=
  s_put s = s_got s ++ s_reqs s /\
  reader_ok (s_r s) (s_err s) (s_w s) (s_put s) /\
  writer_ok (s_w s) (s_err s) (s_got s) /\
  (In None (s_bufs s) -> s_err s = true) /\ (In None (s_bufs s) -> s_w s = WDone).

Lemma inv_a_init : inv_a (init c d0).
Proof.
  repeat split; cbn; try lia.
  - rewrite HE. destruct TR as (T1 & T2 & T3). exists E. repeat split; auto; try (unfold size; lia).
  - constructor.
  - intros [|] x X; discriminate X.
  - intro X. apply in_map_iff in X. destruct X as (? & X & _). discriminate X.
  - intro X. apply in_map_iff in X. destruct X as (? & X & _). discriminate X.
Qed.

Lemma zero_range_tail a n m : 0 <= m -> zero_range a n -> zero_range (a + m) (n - m).
Proof. intros M X i I. apply X. lia. Qed.

Lemma rest_ok_cons a e L : rest_ok a (Some e :: L) ->
  0 <= e_length e /\ rest_ok (a + e_length e) L /\ (ext_zero e = true -> zero_range a (e_length e)).
Proof.
  intros (l & EL & F & T & Z0). destruct l as [|e' l]; [discriminate|]. injection EL as -> ->.
  inversion F as [|? ? F1 F2]; subst. cbn [total] in T. split; [assumption|]. split.
  - exists l. repeat split; auto; [lia|]. intros i f A B. rewrite <- Z.add_assoc. apply (Z0 _ f); [|assumption].
    constructor. assumption.
  - intros X i I. replace i with (a + (i - a)) by lia. apply (Z0 _ (e_flags e')); [constructor; lia|].
    rewrite <- ext_zero_bit. assumption.
Qed.

Lemma rest_ok_nil a : rest_ok a [] -> a = size.
Proof. intros (l & EL & F & T & Z0). destruct l; [|discriminate]. cbn in T. lia. Qed.

(* writer_ok and the facts about bufs do not depend on the reader *)
Lemma reader_a ok s s' : inv_a s -> reader_step c ok s = Some s' -> inv_a s'.
Proof.
  intros (P & R & W & N & N2) X. unfold reader_step in X. pose proof MAX_ZERO_pos as MZ.
  destruct (s_r s) as [off l|off todo l|off todo l|off todo l|off todo l b|off todo l b|off todo l b| | | |b] eqn:RS;
    cbn [reader_ok] in R; unfold put_req in X.
  - destruct ok; cbn [negb] in X; injection X as <-.
    + destruct R as (R1 & R2 & R3). destruct l as [|[e|] l].
      * repeat split; cbn; auto. rewrite (rest_ok_nil _ R2) in R3. assumption.
      * destruct (rest_ok_cons _ _ _ R2) as (L & R2' & Zr).
        destruct (ext_zero e); repeat split; cbn; auto; try apply R2'.
      * exfalso. destruct R2 as (l' & R2 & _). destruct l'; discriminate.
    + repeat split; cbn; auto. destruct R as (R1 & R2 & R3). eauto.
  - destruct R as (R1 & R2 & R3 & R4 & R5). destruct (todo =? 0) eqn:T.
    + injection X as <-. apply Z.eqb_eq in T. subst todo. rewrite Z.add_0_r in R4. repeat split; cbn; auto.
    + apply Z.eqb_neq in T. destruct (s_err s) eqn:Er; injection X as <-; repeat split; cbn; rewrite ?Er; auto.
      * right. eauto.
      * lia.
  - destruct R as (R1 & R2 & R3 & R4 & R5). destruct (full _ _); [discriminate|]. injection X as <-.
    remember (Z.min todo MAX_ZERO) as n eqn:Nn.
    repeat split; cbn; auto; try lia.
    + rewrite P, app_assoc. reflexivity.
    + apply zero_range_tail; [lia|assumption].
    + replace (off + n + (todo - n)) with (off + todo) by lia. assumption.
    + apply (sh_data _ off (Request ZERO off n 0)); auto. unfold good_req; cbn. pose proof (rest_ok_le _ _ R4).
      repeat split; try lia. intros i I. apply R3. lia.
  - destruct R as (R1 & R2 & R4 & R5). destruct (todo =? 0) eqn:T.
    + injection X as <-. apply Z.eqb_eq in T. subst todo. rewrite Z.add_0_r in R4. repeat split; cbn; auto.
    + apply Z.eqb_neq in T. destruct (s_bufs s) as [|b bufs] eqn:B; [discriminate|]. injection X as <-.
      repeat split; cbn; auto; try lia.
      * intros ->. apply N. left. reflexivity.
      * intro I. apply N. right. assumption.
      * intro I. apply N2. right. assumption.
  - destruct R as (R1 & R2 & R4 & R5 & R6). destruct (s_err s) eqn:Er.
    + injection X as <-. repeat split; cbn; rewrite ?Er; auto. right. eauto.
    + destruct b as [b|]; [|discriminate (R6 eq_refl)]. injection X as <-. repeat split; cbn; rewrite ?Er; auto.
  - destruct R as (R1 & R2 & R4 & R5). destruct ok; cbn [negb] in X.
    + destruct (nth_error (s_heap s) b); [|discriminate]. injection X as <-. repeat split; cbn; auto.
    + injection X as <-. repeat split; cbn; eauto.
  - destruct R as (R1 & R2 & R4 & R5). destruct (full _ _); [discriminate|]. injection X as <-.
    remember (Z.min todo (f_buf c)) as n eqn:Nn.
    repeat split; cbn; auto; try lia.
    + rewrite P, app_assoc. reflexivity.
    + replace (off + n + (todo - n)) with (off + todo) by lia. assumption.
    + apply (sh_data _ off (Request WRITE off n b)); auto. unfold good_req; cbn. pose proof (rest_ok_le _ _ R4).
      repeat split; lia.
  - destruct (full _ _); [discriminate|]. injection X as <-. repeat split; cbn; auto.
    + rewrite P, app_assoc. reflexivity.
    + apply sh_flush. assumption.
  - destruct (full _ _); [discriminate|]. injection X as <-. repeat split; cbn; auto.
    + rewrite P, app_assoc. reflexivity.
    + left. apply sh_end. assumption.
  - destruct (s_w s) eqn:WS; try discriminate. injection X as <-. unfold inv_a. cbn. rewrite WS.
    split; [assumption|]. split; [|auto].
    destruct (s_err s); cbn.
    + destruct R as [R|[_ R]]; eauto.
    + destruct R as [R|[R _]]; [auto|discriminate].
  - discriminate.
Qed.

Lemma reader_ok_w r err w w' put : (w = WDone -> w' = WDone) -> reader_ok r err w put -> reader_ok r err w' put.
Proof. intros H. destruct r as [| | | | | | | | | |[|]]; cbn; try tauto. Qed.

Lemma reader_ok_err r w put : w <> WDone -> reader_ok r false w put -> reader_ok r true w put.
Proof.
  intros H. destruct r as [| | | | | | | | | |[|]]; cbn; try tauto.
Qed.

Lemma writer_a ok n s s' : inv_a s -> writer_step c ok n s = Some s' -> inv_a s'.
Proof.
  intros (P & R & W & N & N2) X. unfold writer_step in X.
  assert (NN : s_w s <> WDone -> ~ In None (s_bufs s)) by auto. clear N N2.
  destruct (s_w s) as [|r|r| | |] eqn:WS; cbn [writer_ok] in W; try (specialize (NN ltac:(discriminate)));
    try discriminate.
  - destruct (s_reqs s) as [|x reqs] eqn:Q; [discriminate|]. injection X as <-. destruct W as [W1 W2].
    repeat split; cbn; try contradiction.
    + rewrite P, <- app_assoc. reflexivity.
    + apply (reader_ok_w _ _ WGet); [discriminate|assumption].
    + destruct x; cbn; [split; eauto|eauto].
  - destruct W as [W1 [l W2]]. destruct ok.
    + destruct (r_op r) eqn:O; injection X as <-; repeat split; cbn; try contradiction; eauto;
        try (apply (reader_ok_w _ _ (WDo r)); [discriminate|assumption]);
        try (intros l' x L; rewrite W2 in L; apply app_inj_tail in L; destruct L as [_ <-]; discriminate).
    + injection X as <-. repeat split; cbn; try contradiction; auto. apply (reader_ok_w _ _ (WDo r)); [discriminate|assumption].
  - destruct W as (W1 & W2 & l & W3). destruct (full _ _); [discriminate|]. injection X as <-.
    repeat split; cbn; auto.
    + apply (reader_ok_w _ _ (WBack r)); [discriminate|assumption].
    + intros l' x L. rewrite W3 in L. apply app_inj_tail in L. destruct L as [_ <-]. discriminate.
    + intro I. apply in_app_or in I. destruct I as [I|[I|[]]]; [contradiction|discriminate].
    + intro I. apply in_app_or in I. destruct I as [I|[I|[]]]; [contradiction|discriminate].
  - injection X as <-. repeat split; cbn; try contradiction; auto. apply reader_ok_err; [discriminate|].
    apply (reader_ok_w _ _ WError); [discriminate|]. cbn in W. rewrite W in R. assumption.
  - destruct (full _ _); [discriminate|]. injection X as <-. repeat split; cbn; auto.
    + apply (reader_ok_w _ _ WSignal); [discriminate|assumption].
    + rewrite W. discriminate.
Qed.

Lemma step_a l s s' : inv_a s -> step c l s = Some s' -> inv_a s'.
Proof. destruct l; cbn; [apply reader_a|apply writer_a]. Qed.

(* ---- the buffers ---- *)

Definition held_r (r : rstate) : list nat :=
  match r with
  | RGot _ _ _ (Some b) | RRead _ _ _ b | RPut _ _ _ b => [b]
  | _ => []
  end.
Definition held_q (x : option request) : list nat :=
  match x with Some r => match r_op r with WRITE => [r_buf r] | _ => [] end | None => [] end.
Definition held_w (w : wstate) : list nat :=
  match w with WDo r | WBack r => held_q (Some r) | _ => [] end.
Definition free_one (o : option nat) : list nat := match o with Some b => [b] | None => [] end.
Definition owners (s : st) : list nat :=
  flat_map free_one (s_bufs s) ++ held_r (s_r s) ++ flat_map held_q (s_reqs s) ++ held_w (s_w s).

(* what a request writes is what the source contains *)
Definition req_data (heap : list (list byte)) (r : request) : Prop :=
  r_op r = WRITE -> exists buf, nth_error heap (r_buf r) = Some buf /\
    take (r_length r) buf = sub (r_offset r) (r_length r) src.

Definition inv_b (s : st) : Prop :=
  length (s_heap s) = f_depth c /\
  Forall (fun b => zlen b = f_buf c) (s_heap s) /\
  NoDup (owners s) /\ Forall (fun b => (b < f_depth c)%nat) (owners s) /\
  (forall r, In (Some r) (s_reqs s) -> req_data (s_heap s) r) /\
  match s_w s with WDo r => req_data (s_heap s) r | _ => True end /\
  match s_r s with
  | RPut off todo l b => exists buf, nth_error (s_heap s) b = Some buf /\
      take (Z.min todo (f_buf c)) buf = sub off (Z.min todo (f_buf c)) src
  | _ => True
  end /\
  (s_err s = false -> s_w s <> WError ->
   match s_r s with RJoin | RDone _ => True | _ => length (owners s) = f_depth c end).

Lemma flat_map_some l : flat_map free_one (map Some l) = l.
Proof. induction l; cbn; [reflexivity|]. rewrite IHl. reflexivity. Qed.

Lemma inv_b_init : inv_b (init c d0).
Proof.
  assert (O : owners (init c d0) = seq 0 (f_depth c)).
  { unfold owners, init; cbn [s_bufs s_r s_reqs s_w held_r held_w flat_map app]. rewrite flat_map_some, app_nil_r. reflexivity. }
  unfold inv_b. rewrite O. cbn [s_heap s_r s_w s_reqs s_err init]. split; [apply repeat_length|]. split.
  { apply Forall_forall. intros b I. apply repeat_spec in I. subst b. rewrite zlen_zeros. lia. }
  split; [apply seq_NoDup|]. split.
  { apply Forall_forall. intros b I. apply in_seq in I. lia. }
  split; [intros r []|]. split; [exact I|]. split; [exact I|]. intros _ _. apply seq_length.
Qed.

Lemma perm_facts (l l' : list nat) : Permutation l l' ->
  NoDup l /\ Forall (fun b => (b < f_depth c)%nat) l ->
  NoDup l' /\ Forall (fun b => (b < f_depth c)%nat) l' /\ length l' = length l.
Proof.
  intros P [A B]. split; [eapply Permutation_NoDup; eauto|]. split.
  - rewrite Forall_forall in *. intros x I. apply B. eapply Permutation_in; [apply Permutation_sym; eauto|assumption].
  - symmetry. apply Permutation_length. assumption.
Qed.

(* losing buffers *)
Lemma drop_mid (l m k : list nat) (P : nat -> Prop) :
  NoDup (l ++ m ++ k) /\ Forall P (l ++ m ++ k) -> NoDup (l ++ k) /\ Forall P (l ++ k).
Proof.
  intros [A B]. split.
  - assert (X : Permutation (l ++ m ++ k) (m ++ l ++ k)) by (apply Permutation_app_swap_app).
    apply (Permutation_NoDup X) in A. clear - A. induction m; [assumption|]. inversion A; auto.
  - apply Forall_app in B. destruct B as [B1 B2]. apply Forall_app in B2. apply Forall_app. tauto.
Qed.

Lemma sub_take_eq (buf : list byte) off n : 0 <= off -> 0 <= n -> off + n <= size -> n <= zlen buf ->
  take n (splice buf 0 (sub off n src)) = sub off n src.
Proof.
  intros A B C D. assert (L : zlen (sub off n src) = n) by (rewrite zlen_sub by lia; fold size; lia).
  apply bytes_ext.
  - rewrite zlen_take, L. rewrite zlen_splice_in by lia. lia.
  - intros i I. rewrite zlen_take, zlen_splice_in in I by lia.
    rewrite getb_take by lia. destruct (Z.ltb_spec i n); [|lia].
    rewrite getb_splice by lia. rewrite L.
    destruct (Z.leb_spec 0 i); destruct (Z.ltb_spec i (0 + n)); cbn [andb]; try lia.
    rewrite Z.sub_0_r. reflexivity.
Qed.

Lemma owners_other b s r : NoDup (owners s) -> held_r (s_r s) = [b] -> r_op r = WRITE ->
  In (Some r) (s_reqs s) \/ s_w s = WDo r -> r_buf r <> b.
Proof.
  unfold owners. intros N H O I <-. rewrite H in N. cbn [app] in N. apply NoDup_remove_2 in N. apply N.
  apply in_or_app. right. apply in_or_app. destruct I as [I|I].
  - left. apply in_flat_map. exists (Some r). split; [assumption|]. cbn. rewrite O. left. reflexivity.
  - right. rewrite I. cbn. rewrite O. left. reflexivity.
Qed.

Lemma req_data_set heap b buf r : (r_op r = WRITE -> r_buf r <> b) -> req_data heap r ->
  req_data (set_nth b buf heap) r.
Proof.
  intros D H O. destruct (H O) as (x & X & Y). exists x. split; [|assumption].
  rewrite nth_error_set_other; [assumption|]. intro Q. apply (D O). auto.
Qed.

Lemma reader_b ok s s' : inv_a s -> inv_b s -> reader_step c ok s = Some s' -> inv_b s'.
Proof.
  intros IA (B1 & B2 & B3 & B4 & B5 & B6 & B7 & B8) X. pose proof X as X0. unfold reader_step in X.
  destruct IA as (P & R & W & N & N2).
  destruct (s_r s) as [off l|off todo l|off todo l|off todo l|off todo l b|off todo l b|off todo l b| | | |b] eqn:RS;
    cbn [reader_ok] in R; unfold put_req in X; unfold inv_b, owners in *; rewrite RS in B3, B4; try rewrite RS in B7; try rewrite RS in B8;
    cbn [held_r app] in *.
  - destruct ok; cbn [negb] in X; injection X as <-; cbn.
    + destruct l as [|[e|] l]; [| |repeat split; auto]; try destruct (ext_zero e); repeat split; auto.
    + repeat split; auto.
  - destruct (todo =? 0); [|destruct (s_err s) eqn:Er]; injection X as <-; cbn; repeat split; auto.
  - destruct (full _ _); [discriminate|]. injection X as <-. cbn. rewrite flat_map_app. cbn. rewrite app_nil_r.
    repeat split; auto. intros r I. apply in_app_or in I. destruct I as [I|[I|[]]]; [auto|].
    injection I as <-. intro; discriminate.
  - destruct (todo =? 0); [injection X as <-; cbn; repeat split; auto|].
    destruct (s_bufs s) as [|b bufs] eqn:B; [discriminate|]. injection X as <-. cbn.
    assert (PM : Permutation (flat_map free_one (b :: bufs) ++ flat_map held_q (s_reqs s) ++ held_w (s_w s))
      (flat_map free_one bufs ++ match b with Some b => [b] | None => [] end ++ flat_map held_q (s_reqs s) ++ held_w (s_w s))).
    { cbn [flat_map]. rewrite <- app_assoc. fold (free_one b). apply Permutation_app_swap_app. }
    destruct (perm_facts _ _ PM (conj B3 B4)) as (Q1 & Q2 & Q3).
    split; [auto|]. split; [auto|]. split; [exact Q1|]. split; [exact Q2|]. repeat split; auto.
    intros Y1 Y2. rewrite <- (B8 Y1 Y2). exact Q3.
  - destruct (s_err s) eqn:Er; [|destruct b as [b|]]; injection X as <-; cbn; repeat split; rewrite ?Er; auto; try discriminate.
    + apply (drop_mid _ _ _ _ (conj B3 B4)).
    + apply (drop_mid _ _ _ _ (conj B3 B4)).
  - destruct R as (R1 & R2 & R4 & R5). destruct ok; cbn [negb] in X.
    + destruct (nth_error (s_heap s) b) as [buf|] eqn:NB; [|discriminate]. injection X as <-. cbn.
      assert (LB : zlen buf = f_buf c).
      { rewrite Forall_forall in B2. apply B2. eapply nth_error_In. eassumption. }
      assert (Lb : (b < length (s_heap s))%nat) by (apply nth_error_Some; congruence).
      rewrite LB. pose proof (rest_ok_le _ _ R4) as SZ.
      assert (LS : zlen (sub off (Z.min todo (f_buf c)) (f_src c)) = Z.min todo (f_buf c)).
      { rewrite zlen_sub by lia. fold src. fold size. lia. }
      split; [rewrite set_nth_length; assumption|]. split.
      { rewrite Forall_forall in *. intros x I. apply In_nth_error in I. destruct I as [i I].
        destruct (Nat.eq_dec b i) as [<-|D].
        - rewrite nth_error_set_same in I by assumption. injection I as <-. rewrite zlen_splice_in; lia.
        - rewrite nth_error_set_other in I by assumption. apply B2. eapply nth_error_In. eassumption. }
      split; [assumption|]. split; [assumption|]. split.
      { intros r I. apply req_data_set; [|auto]. intro O. apply (owners_other _ s); auto.
        - unfold owners. rewrite RS. assumption.
        - rewrite RS. reflexivity. }
      split.
      { destruct (s_w s) eqn:WS; auto. apply req_data_set; [|auto]. intro O. apply (owners_other _ s); auto.
        - unfold owners. rewrite RS, WS. assumption.
        - rewrite RS. reflexivity. }
      split; [|assumption].
      eexists. split; [apply nth_error_set_same; assumption|]. apply sub_take_eq; lia.
    + injection X as <-. cbn. repeat split; auto; apply (drop_mid _ [b] _ _ (conj B3 B4)).
  - destruct (full _ _); [discriminate|]. injection X as <-. cbn. rewrite flat_map_app. cbn.
    assert (PM : Permutation (flat_map free_one (s_bufs s) ++ b :: flat_map held_q (s_reqs s) ++ held_w (s_w s))
      (flat_map free_one (s_bufs s) ++ (flat_map held_q (s_reqs s) ++ [b]) ++ held_w (s_w s))).
    { apply Permutation_app_head. rewrite <- app_assoc. cbn. apply Permutation_middle. }
    destruct (perm_facts _ _ PM (conj B3 B4)) as (Q1 & Q2 & Q3).
    split; [auto|]. split; [auto|]. split; [exact Q1|]. split; [exact Q2|]. repeat split; auto.
    + intros r I. apply in_app_or in I. destruct I as [I|[I|[]]]; [auto|].
      injection I as <-. intros _. cbn. exact B7.
    + intros Y1 Y2. rewrite <- (B8 Y1 Y2). exact Q3.
  - destruct (full _ _); [discriminate|]. injection X as <-. cbn. rewrite flat_map_app. cbn. rewrite app_nil_r.
    repeat split; auto. intros r I. apply in_app_or in I. destruct I as [I|[I|[]]]; [auto|].
    injection I as <-. intro; discriminate.
  - destruct (full _ _); [discriminate|]. injection X as <-. cbn. rewrite flat_map_app. cbn. rewrite app_nil_r.
    repeat split; auto. intros r I. apply in_app_or in I. destruct I as [I|[I|[]]]; [auto|].
    discriminate.
  - destruct (s_w s) eqn:WS; try discriminate. injection X as <-. cbn. rewrite WS. cbn. repeat split; auto.
  - discriminate.
Qed.

Lemma writer_b ok n s s' : inv_a s -> inv_b s -> writer_step c ok n s = Some s' -> inv_b s'.
Proof.
  intros IA (B1 & B2 & B3 & B4 & B5 & B6 & B7 & B8) X. unfold writer_step in X.
  destruct IA as (P & R & W & N & N2).
  destruct (s_w s) as [|r|r| | |] eqn:WS; cbn [writer_ok] in W;
    unfold inv_b, owners in *; rewrite WS in B3, B4; try rewrite WS in B8; try rewrite WS in B6; cbn [held_w] in *.
  - destruct (s_reqs s) as [|x reqs] eqn:Q; [discriminate|]. injection X as <-. cbn.
    assert (PM : Permutation (flat_map free_one (s_bufs s) ++ held_r (s_r s) ++ flat_map held_q (x :: reqs) ++ [])
      (flat_map free_one (s_bufs s) ++ held_r (s_r s) ++ flat_map held_q reqs ++
        held_w (match x with Some r => WDo r | None => WDone end))).
    { do 2 apply Permutation_app_head. rewrite app_nil_r. cbn [flat_map].
      replace (held_w (match x with Some r => WDo r | None => WDone end)) with (held_q x) by (destruct x; reflexivity).
      apply Permutation_app_comm. }
    destruct (perm_facts _ _ PM (conj B3 B4)) as (Q1 & Q2 & Q3).
    split; [auto|]. split; [auto|]. split; [exact Q1|]. split; [exact Q2|]. repeat split; auto.
    + intros r I. apply B5. right. assumption.
    + destruct x; [|exact I]. apply B5. left. reflexivity.
    + intros Y1 Y2. rewrite Q3. apply B8; [assumption|discriminate].
  - destruct ok.
    + destruct (r_op r) eqn:O; injection X as <-; cbn; rewrite ?O; cbn [held_q] in *; rewrite O in *;
        repeat split; auto; intros; apply B8; auto; discriminate.
    + injection X as <-. cbn. rewrite app_nil_r. rewrite !app_assoc in B3, B4.
      rewrite <- (app_nil_r (held_q (Some r))) in B3, B4.
      destruct (drop_mid _ _ _ _ (conj B3 B4)) as [Q1 Q2]. rewrite app_nil_r, <- app_assoc in Q1, Q2.
      repeat split; auto. intros _ Y. congruence.
  - destruct W as (W1 & W2 & l & W3). destruct (full _ _); [discriminate|]. injection X as <-. cbn.
    cbn [held_q] in B3, B4, B8. rewrite W2 in B3, B4, B8. rewrite flat_map_app. cbn. rewrite app_nil_r.
    assert (PM : Permutation (flat_map free_one (s_bufs s) ++ held_r (s_r s) ++ flat_map held_q (s_reqs s) ++ [r_buf r])
      ((flat_map free_one (s_bufs s) ++ [r_buf r]) ++ held_r (s_r s) ++ flat_map held_q (s_reqs s))).
    { rewrite <- app_assoc. apply Permutation_app_head. rewrite app_assoc. apply Permutation_app_comm. }
    destruct (perm_facts _ _ PM (conj B3 B4)) as (Q1 & Q2 & Q3).
    split; [auto|]. split; [auto|]. split; [exact Q1|]. split; [exact Q2|]. repeat split; auto.
    intros Y1 Y2. rewrite Q3. apply B8; [assumption|discriminate].
  - injection X as <-. cbn. repeat split; auto. discriminate.
  - destruct (full _ _); [discriminate|]. injection X as <-. cbn. rewrite flat_map_app. cbn. rewrite app_nil_r.
    repeat split; auto. rewrite W. discriminate.
  - discriminate.
Qed.

Lemma step_b l s s' : inv_a s -> inv_b s -> step c l s = Some s' -> inv_b s'.
Proof. destruct l; cbn; [apply reader_b|apply writer_b]. Qed.

(* ---- what was written ---- *)

Lemma shape_no_flush_ l p k : shape l p k -> k = 0%nat -> ~ In (Some FL) l.
Proof.
  intro H. induction H as [|l p r H IH O G|l H IH|l H IH]; intro K; try discriminate; [intros []|].
  intro I. apply in_app_or in I. destruct I as [I|[I|[]]]; [apply IH; auto|]. injection I as ->.
  destruct G as (_ & _ & _ & []).
Qed.

Lemma shape_no_flush l p : shape l p 0 -> ~ In (Some FL) l.
Proof. intro H. apply (shape_no_flush_ _ _ _ H eq_refl). Qed.

Lemma shape_no_end l p k : shape l p k -> k <> 2%nat -> ~ In None l.
Proof.
  intro H. induction H; intros K I; [destruct I| | |congruence];
    apply in_app_or in I; destruct I as [I|[I|[]]]; try discriminate; apply IHshape in I; auto; discriminate.
Qed.

Definition written (s : st) : Z :=
  match s_w s with WBack r => s_progress s + r_length r | _ => s_progress s end.

Definition inv_c (s : st) : Prop :=
  zlen (s_dst s) = size /\
  (forall i, 0 <= i < size -> getb (s_dst s) i = getb d0 i \/ getb (s_dst s) i = getb src i) /\
  (forall i, 0 <= i < written s -> getb (s_dst s) i = getb src i) /\
  match s_w s with
  | WGet => s_progress s = pos (s_got s) /\ (In (Some FL) (s_got s) -> s_clean s = true)
  | WDo r => exists l, s_got s = l ++ [Some r] /\ s_progress s = pos l
  | WBack r => exists l, s_got s = l ++ [Some r] /\ s_progress s = pos l
  | WDone => s_err s = false -> s_progress s = pos (s_got s) /\ (In (Some FL) (s_got s) -> s_clean s = true)
  | _ => True
  end.

Lemma inv_c_init : inv_c (init c d0).
Proof.
  unfold inv_c, written, init; cbn. repeat split; auto; try lia.
Qed.

Lemma reader_c ok s s' : inv_c s -> reader_step c ok s = Some s' -> inv_c s'.
Proof.
  intros I X. unfold reader_step, put_req in X.
  assert (G : s_w s' = s_w s /\ s_dst s' = s_dst s /\ s_progress s' = s_progress s /\ s_got s' = s_got s
      /\ s_clean s' = s_clean s /\ s_err s' = s_err s).
  { destruct (s_r s); cbn in X;
      repeat match type of X with
      | (if ?b then _ else _) = _ => destruct b eqn:?; cbn in X
      | match ?b with _ => _ end = _ => destruct b eqn:?; cbn in X
      end; try discriminate; injection X as <-; cbn; repeat split; congruence. }
  destruct G as (G1 & G2 & G3 & G4 & G5 & G6). unfold inv_c, written in *.
  rewrite G1, G2, G3, G4, G5, G6. exact I.
Qed.

Lemma splice_content dst r (data : list byte) : 0 <= r_offset r -> zlen dst = size -> r_offset r + zlen data <= size ->
  (forall i, 0 <= i < zlen data -> getb data i = getb src (r_offset r + i)) ->
  zlen (splice dst (r_offset r) data) = size /\
  (forall i, getb (splice dst (r_offset r) data) i = getb dst i
    \/ getb (splice dst (r_offset r) data) i = getb src i) /\
  (forall i, r_offset r <= i < r_offset r + zlen data -> getb (splice dst (r_offset r) data) i = getb src i) /\
  (forall i, i < r_offset r -> getb (splice dst (r_offset r) data) i = getb dst i).
Proof.
  intros O L B D. split; [rewrite zlen_splice_in; lia|].
  assert (Q : forall i, r_offset r <= i < r_offset r + zlen data ->
     getb (splice dst (r_offset r) data) i = getb src i).
  { intros i I. rewrite getb_splice by lia.
    destruct (Z.leb_spec (r_offset r) i); destruct (Z.ltb_spec i (r_offset r + zlen data)); cbn [andb]; try lia.
    rewrite D by lia. f_equal. lia. }
  split; [|split; [exact Q|]].
  - intro i. destruct (Z_le_gt_dec (r_offset r) i); [destruct (Z_lt_ge_dec i (r_offset r + zlen data))|].
    + right. apply Q. lia.
    + left. rewrite getb_splice by lia. destruct (Z.ltb_spec i (r_offset r + zlen data)); [lia|]. rewrite andb_false_r. reflexivity.
    + left. rewrite getb_splice by lia. destruct (Z.leb_spec (r_offset r) i); [lia|]. reflexivity.
  - intros i I. rewrite getb_splice by lia. destruct (Z.leb_spec (r_offset r) i); [lia|]. reflexivity.
Qed.

Lemma put_prefix s l r : inv_a s -> s_got s = l ++ [Some r] ->
  (good_req r /\ r_offset r = pos l /\ shape l (pos l) 0) \/ (r = FL /\ shape l size 0).
Proof.
  intros (P & R & _) G. rewrite G in P.
  assert (H : exists p k, shape (s_put s) p k).
  { unfold reader_ok in R. destruct (s_r s) as [| | | | | | | | | |[|]]; try (do 2 eexists; apply R).
    - destruct R as [R|[_ R]]; eauto.
    - assumption. }
  destruct H as (p & k & H). rewrite P in H. apply shape_prefix in H. destruct H as (q & j & H & _).
  apply shape_snoc in H. destruct H as [(r' & q' & X & O & GR & H & _)|[(X & H & _)|(X & _)]]; try discriminate.
  - injection X as <-. left. pose proof (shape_pos _ _ _ H). subst q'. repeat split; congruence || (try apply GR).
  - injection X as ->. right. auto.
Qed.

Lemma writer_c ok n s s' : inv_a s -> inv_b s -> inv_c s -> writer_step c ok n s = Some s' -> inv_c s'.
Proof.
  intros IA IB (C1 & C2 & C3 & C4) X. pose proof IA as (P & R & W & N & N2). unfold writer_step in X.
  unfold inv_c, written in *. destruct (s_w s) as [|r|r| | |] eqn:WS; cbn [writer_ok] in W.
  - destruct (s_reqs s) as [|x reqs]; [discriminate|]. injection X as <-. destruct C4 as [C4 C5].
    destruct x as [r|]; cbn; repeat split; auto.
    + exists (s_got s). auto.
    + rewrite pos_app. cbn. lia.
    + intro I. apply C5. apply in_app_or in I. destruct I as [I|[I|[]]]; [assumption|discriminate].
  - destruct C4 as (l & G & PR). destruct (put_prefix _ _ _ IA G) as [(GR & O & SH)|(-> & SH)].
    + assert (RD : req_data (s_heap s) r) by (destruct IB as (_ & _ & _ & _ & _ & Q & _); rewrite WS in Q; exact Q).
      remember (match r_op r with
        | WRITE => match nth_error (s_heap s) (r_buf r) with Some buf => take (r_length r) buf | None => [] end
        | ZERO => zeros (r_length r) | FLUSH => [] end) as data eqn:D.
      pose proof GR as (G1 & G2 & G3 & G4).
      assert (DL : zlen data = r_length r /\ forall i, 0 <= i < r_length r -> getb data i = getb src (r_offset r + i)).
      { destruct (r_op r) eqn:OP; [| |destruct G4].
        - destruct (RD OP) as (buf & NE & T). rewrite NE in D. rewrite D, T. split.
          + rewrite zlen_sub by lia. fold size. lia.
          + intros i I. rewrite getb_sub by lia. destruct (Z.ltb_spec i (r_length r)); [reflexivity|lia].
        - rewrite D. split; [rewrite zlen_zeros; lia|]. intros i I. rewrite getb_zeros. symmetry. apply G4. lia. }
      destruct DL as [DL DC].
      remember (if ok then data else take (clamp 0 (zlen data) n) data) as dd eqn:DD.
      assert (D1 : 0 <= zlen dd <= zlen data /\ forall i, 0 <= i < zlen dd -> getb dd i = getb src (r_offset r + i)).
      { rewrite DD. destruct ok; [split; [lia|intros; apply DC; lia]|].
        unfold clamp. pose proof (zlen_nonneg data). rewrite zlen_take. split; [lia|]. intros i I.
        rewrite getb_take by lia. destruct (Z.ltb_spec i (Z.max 0 (Z.min (zlen data) n))); [|lia]. apply DC. lia. }
      destruct D1 as [D1 D2].
      destruct (splice_content (s_dst s) r dd) as (S1 & S2 & S3 & S4); auto; try lia.
      assert (NF : ~ In (Some FL) (s_got s)).
      { rewrite G. intro I. apply in_app_or in I. destruct I as [I|[I|[]]].
        - apply (shape_no_flush _ _ SH I).
        - injection I as ->. destruct G4. }
      assert (S2' : forall i, 0 <= i < size -> getb (splice (s_dst s) (r_offset r) dd) i = getb d0 i
                 \/ getb (splice (s_dst s) (r_offset r) dd) i = getb src i).
      { intros i I. destruct (S2 i) as [Q|Q]; rewrite Q; auto. }
      assert (S5 : forall i, 0 <= i < s_progress s -> getb (splice (s_dst s) (r_offset r) dd) i = getb src i).
      { intros i I. rewrite S4 by lia. auto. }
      destruct ok.
      * assert (S6 : forall i, 0 <= i < s_progress s + r_length r -> getb (splice (s_dst s) (r_offset r) dd) i = getb src i).
        { intros i I. destruct (Z_lt_ge_dec i (s_progress s)); [apply S5; lia|]. apply S3. subst dd. lia. }
        destruct (r_op r) eqn:OP; injection X as <-; cbn; try contradiction; repeat split; auto.
        -- exists l. auto.
        -- rewrite G, pos_app. cbn. lia.
      * injection X as <-. cbn. repeat split; auto.
    + assert (T0 : forall k, take k [] = @nil byte) by (intro; unfold take; apply firstn_nil).
      unfold FL in X. cbn [r_op r_offset r_length] in X. rewrite T0 in X.
      destruct ok; cbn [splice orb] in X; injection X as <-; cbn; repeat split; auto; rewrite ?Z.add_0_r; auto.
      rewrite G, pos_app. cbn. lia.
  - destruct C4 as (l & G & PR). destruct (full _ _); [discriminate|]. injection X as <-. cbn. repeat split; auto.
    + rewrite G, pos_app. cbn. lia.
    + intro I. exfalso. destruct W as (_ & W & _).
      destruct (put_prefix _ _ _ IA G) as [(GR & O & SH)|(-> & SH)]; [|discriminate].
      rewrite G in I. apply in_app_or in I. destruct I as [I|[I|[]]].
      * apply (shape_no_flush _ _ SH I).
      * injection I as ->. discriminate.
  - injection X as <-. cbn. repeat split; auto.
  - destruct (full _ _); [discriminate|]. injection X as <-. cbn. repeat split; auto; rewrite W in *; discriminate.
  - discriminate.
Qed.

Definition inv (s : st) : Prop := inv_a s /\ inv_b s /\ inv_c s.

Lemma step_inv l s s' : inv s -> step c l s = Some s' -> inv s'.
Proof.
  intros (A & B & C) X. split; [eapply step_a; eauto|]. split; [eapply step_b; eauto|].
  destruct l; cbn in X; [eapply reader_c; eauto|eapply writer_c; eauto].
Qed.

Lemma inv_init : inv (init c d0).
Proof. split; [apply inv_a_init|split; [apply inv_b_init|apply inv_c_init]]. Qed.

Lemma exec_inv tr s s' : inv s -> exec c tr s = Some s' -> inv s'.
Proof.
  revert s. induction tr as [|l tr IH]; cbn; intros s I X; [congruence|].
  destruct (step c l s) as [s1|] eqn:S1; [|discriminate]. eapply IH; [|eassumption]. eapply step_inv; eauto.
Qed.

Lemma success s : inv s -> s_r s = RDone true -> s_dst s = src /\ s_progress s = size /\ s_clean s = true.
Proof.
  intros ((P & R & W & N & N2) & _ & (C1 & C2 & C3 & C4)) RS. rewrite RS in R. cbn in R. destruct R as (R1 & R2 & R3).
  rewrite R3 in W, C4. cbn in W. destruct (W R2) as [l G].
  inversion R1 as [| | |l' SH]; subst. assert (RQ : s_reqs s = []).
  { destruct (s_reqs s) as [|x reqs] using rev_ind; [reflexivity|exfalso].
    match goal with H : l' ++ [None] = _ |- _ => rewrite P, app_assoc in H; apply app_inj_tail in H; destruct H as [H _] end.
    apply (shape_no_end _ _ _ SH); [discriminate|]. rewrite H, G. apply in_or_app. left. apply in_or_app. right. left. reflexivity. }
  rewrite RQ, app_nil_r in P. destruct (C4 R2) as [C5 C6]. pose proof (shape_pos _ _ _ R1) as SP.
  split; [|split].
  - apply bytes_ext; [assumption|]. intros i I. apply C3. unfold written. rewrite R3, C5, <- P, <- SP, <- C1. lia.
  - rewrite C5, <- P. symmetry. assumption.
  - apply C6. rewrite <- P, <- H. inversion SH; subst. apply in_or_app. left. apply in_or_app. right. left. reflexivity.
Qed.

(* ---- failures ---- *)

Definition bad (s : st) : Prop := s_err s = true \/ s_w s = WError \/ s_r s = RDone false.

Lemma bad_step l s s' : bad s -> step c l s = Some s' -> bad s'.
Proof.
  unfold bad. intros B X. destruct l as [ok|ok n]; cbn in X.
  - unfold reader_step, put_req in X.
    destruct (s_r s) as [| | | | | | | | | |[|]] eqn:RS; cbn in X;
      repeat match type of X with
      | (if ?b then _ else _) = _ => destruct b eqn:?; cbn in X
      | match ?b with _ => _ end = _ => destruct b eqn:?; cbn in X
      end; try discriminate; injection X as <-; cbn; destruct B as [B|[B|B]]; try congruence; auto.
  - unfold writer_step in X. destruct (s_w s) as [|r|r| | |] eqn:WS;
      repeat match type of X with
      | (if ?b then _ else _) = _ => destruct b eqn:?; cbn in X
      | match ?b with _ => _ end = _ => destruct b eqn:?; cbn in X
      end; try discriminate; injection X as <-; cbn; destruct B as [B|[B|B]]; try congruence; auto.
Qed.

Lemma raises_bad l s s' : raises l s -> step c l s = Some s' -> bad s'.
Proof.
  unfold raises, bad. intros B X. destruct l as [ok|ok n]; cbn in X; destruct B as [-> B].
  - unfold reader_step in X. destruct (s_r s); try contradiction; cbn in X; injection X as <-; cbn; auto.
  - unfold writer_step in X. destruct (s_w s); try contradiction. injection X as <-. cbn; auto.
Qed.

Lemma bad_exec tr s s' : bad s -> exec c tr s = Some s' -> bad s'.
Proof.
  revert s. induction tr as [|l tr IH]; cbn; intros s I X; [congruence|].
  destruct (step c l s) as [s1|] eqn:S1; [|discriminate]. eapply IH; [|eassumption]. eapply bad_step; eauto.
Qed.

Lemma bad_not_success s : inv s -> bad s -> s_r s <> RDone true.
Proof.
  intros ((_ & R & _) & _) B X. rewrite X in R. destruct R as (_ & R1 & R2). unfold bad in B.
  rewrite X, R1, R2 in B. destruct B as [B|[B|B]]; discriminate.
Qed.

Definition nofail (s : st) : Prop :=
  s_err s = false /\ s_w s <> WError /\ s_w s <> WSignal /\ s_r s <> RDone false.

Lemma nofail_step l s s' : inv s -> nofail s -> ~ raises l s -> step c l s = Some s' -> nofail s'.
Proof.
  unfold nofail. intros ((P & R & W & N & N2) & _) (F1 & F2 & F3 & F4) F X. destruct l as [ok|ok n]; cbn in X, F.
  - unfold reader_step, put_req in X.
    destruct (s_r s) as [off [|[e|] l]|off todo l|off todo l|off todo l|off todo l [b|]|off todo l b|off todo l b| | | |b] eqn:RS;
      rewrite ?F1 in X; destruct ok; cbn in X; try (exfalso; apply F; split; [reflexivity|exact I]);
      repeat match type of X with
      | (if ?b then _ else _) = _ => destruct b eqn:?; cbn in X
      | match ?b with _ => _ end = _ => destruct b eqn:?; cbn in X
      end; try discriminate; injection X as <-; cbn; try (repeat split; auto; discriminate || congruence).
    all: try (destruct (ext_zero e); repeat split; auto; discriminate).
    all: exfalso; cbn in R.
    + destruct R as (_ & (l' & R & _) & _). destruct l'; discriminate.
    + destruct R as (_ & _ & _ & _ & R). specialize (R eq_refl). congruence.
    + destruct R as (_ & _ & _ & _ & R). specialize (R eq_refl). congruence.
  - unfold writer_step in X. destruct (s_w s) as [|r|r| | |] eqn:WS; try congruence.
    + destruct (s_reqs s) as [|[r|] q]; [discriminate| |]; injection X as <-; cbn; repeat split; auto; discriminate.
    + destruct ok; [|exfalso; apply F; split; [reflexivity|exact I]].
      destruct (r_op r); injection X as <-; cbn; repeat split; auto; discriminate.
    + destruct (full _ _); [discriminate|]. injection X as <-; cbn; repeat split; auto; discriminate.
Qed.

(* ---- waiting ---- *)

Definition inv_d (s : st) : Prop := s_w s = WDone -> s_err s = true ->
  In None (s_bufs s) \/ match s_r s with RGot _ _ _ None | RJoin | RDone _ => True | _ => False end.

Lemma inv_d_step l s s' : inv_a s -> inv_d s -> step c l s = Some s' -> inv_d s'.
Proof.
  unfold inv_d. intros (P & R & W & N & N2) D X. destruct l as [ok|ok n]; cbn in X.
  - intros W' E'. assert (G : s_w s' = s_w s /\ s_err s' = s_err s).
    { clear - X. unfold reader_step, put_req in X. destruct (s_r s); cbn in X;
      repeat match type of X with
      | (if ?b then _ else _) = _ => destruct b eqn:?; cbn in X
      | match ?b with _ => _ end = _ => destruct b eqn:?; cbn in X
      end; try discriminate; injection X as <-; cbn; split; congruence. }
    destruct G as [G1 G2]. rewrite G1 in W'. rewrite G2 in E'. specialize (D W' E').
    unfold reader_step, put_req in X. rewrite E', W' in X.
    destruct (s_r s) as [off l|off todo l|off todo l|off todo l|off todo l b|off todo l b|off todo l b| | | |b] eqn:RS.
    all: try (repeat match type of X with
      | (if ?b then _ else _) = _ => destruct b eqn:?; cbn in X
      end; try discriminate; injection X as <-; cbn; auto; destruct D as [D|[]]; auto; fail).
    + destruct (todo =? 0); [injection X as <-; cbn; tauto|].
      destruct (s_bufs s) as [|b bufs] eqn:B; [discriminate|]. injection X as <-; cbn.
      destruct D as [[D|D]|[]]; [subst b|]; auto.
    + destruct (negb ok); [injection X as <-; cbn; auto|]. destruct (nth_error _ _); [|discriminate].
      injection X as <-; cbn. tauto.
  - unfold writer_step in X. destruct (s_w s) as [|r|r| | |] eqn:WS; try discriminate.
    + destruct W as [W1 _]. destruct (s_reqs s) as [|[r|] q]; [discriminate| |]; injection X as <-; cbn; try discriminate.
      rewrite W1. discriminate.
    + destruct ok; [destruct (r_op r)|]; injection X as <-; cbn; discriminate.
    + destruct (full _ _); [discriminate|]. injection X as <-; cbn; discriminate.
    + injection X as <-; cbn; discriminate.
    + destruct (full _ _); [discriminate|]. injection X as <-; cbn. intros _ _. left. apply in_or_app. right. left. reflexivity.
Qed.

Lemma exec_inv_d tr s s' : inv s -> inv_d s -> exec c tr s = Some s' -> inv_d s'.
Proof.
  revert s. induction tr as [|l tr IH]; cbn; intros s I D X; [injection X as <-; exact D|].
  destruct (step c l s) as [s1|] eqn:S1; [|discriminate]. eapply IH; [| |eassumption].
  - eapply step_inv; eauto.
  - eapply inv_d_step; eauto. apply I.
Qed.

Lemma bufs_not_full s : inv s -> s_w s <> WDone -> full (f_depth c + 1) (s_bufs s) = false.
Proof.
  intros ((P & R & W & N & N2) & (B1 & B2 & B3 & B4 & _) & _) D.
  assert (NN : ~ In None (s_bufs s)) by auto.
  assert (L : length (flat_map free_one (s_bufs s)) = length (s_bufs s)).
  { clear - NN. induction (s_bufs s) as [|[b|] l IH]; cbn; [reflexivity| |].
    - f_equal. apply IH. intro I. apply NN. right. assumption.
    - exfalso. apply NN. left. reflexivity. }
  unfold owners in B3, B4. rewrite Forall_app in B4. destruct B4 as [B4 _].
  assert (B3' : NoDup (flat_map free_one (s_bufs s))).
  { clear - B3. induction (flat_map free_one (s_bufs s)); [constructor|]. cbn in B3. inversion B3; subst.
    constructor; auto. intro I. apply H1. apply in_or_app. auto. }
  assert (LE : (length (flat_map free_one (s_bufs s)) <= length (seq 0 (f_depth c)))%nat).
  { apply NoDup_incl_length; [assumption|]. intros b I. rewrite Forall_forall in B4. apply in_seq. specialize (B4 _ I). lia. }
  rewrite seq_length, L in LE. unfold full. rewrite (proj2 (Nat.leb_gt _ _)) by lia. apply andb_false_r.
Qed.

Lemma writer_ready s n : inv s -> writer_step c true n s = None ->
  s_w s = WDone \/ (s_w s = WGet /\ s_reqs s = []).
Proof.
  intros I X. pose proof (bufs_not_full s I) as F. unfold writer_step in X.
  destruct (s_w s) as [|r|r| | |] eqn:WS; auto; try (rewrite F in X by discriminate); try discriminate.
  - destruct (s_reqs s); [auto|discriminate].
  - destruct (r_op r); discriminate.
Qed.

Definition blocked_put (r : rstate) : Prop :=
  match r with RZeroPut _ _ _ | RPut _ _ _ _ | RFlush | REnd => True | _ => False end.

Lemma empty_not_full {A} : full (f_depth c * 2) (@nil A) = false.
Proof. unfold full. cbn [length]. rewrite (proj2 (Nat.leb_gt _ _)) by lia. apply andb_false_r. Qed.

Lemma stuck s : inv s -> inv_d s -> (forall l, fine l -> step c l s = None) ->
  finished s \/
  (s_err s = true /\ s_w s = WDone /\ blocked_put (s_r s) /\ (f_depth c * 2 <= length (s_reqs s))%nat).
Proof.
  intros I D X. pose proof (X (LWriter true 0) eq_refl) as XW. pose proof (X (LReader true) eq_refl) as XR. cbn in XW, XR.
  destruct (writer_ready s 0 I XW) as [WS|[WS Q]].
  - destruct I as ((P & R & W & N & N2) & (B1 & B2 & B3 & B4 & B5 & B6 & B7 & B8) & C). rewrite WS in W. cbn in W.
    unfold reader_step, put_req in XR. rewrite WS in XR.
    destruct (s_err s) eqn:Er.
    + specialize (D WS Er).
      destruct (s_r s) as [off l|off todo l|off todo l|off todo l|off todo l b|off todo l b|off todo l b| | | |b] eqn:RS;
        try discriminate; try (left; eexists; eassumption);
        try (destruct (full _ _) eqn:F; [|discriminate]; right; repeat split; auto;
             unfold full in F; apply andb_prop in F; destruct F as [_ F]; apply Nat.leb_le in F; assumption).
      * destruct (todo =? 0); discriminate.
      * destruct (todo =? 0); [discriminate|]. destruct (s_bufs s); [|discriminate]. destruct D as [[]|[]].
      * cbn in XR. unfold owners in B4. rewrite RS in B4. cbn in B4. apply Forall_app in B4. destruct B4 as [_ B4].
        inversion B4; subst. destruct (nth_error (s_heap s) b) eqn:NE; [discriminate|].
        apply nth_error_None in NE. lia.
    + destruct (W eq_refl) as [l G].
      assert (NI : In None (s_put s)) by (rewrite P, G; apply in_or_app; left; apply in_or_app; right; left; reflexivity).
      destruct (s_r s) as [off l'|off todo l'|off todo l'|off todo l'|off todo l' b|off todo l' b|off todo l' b| | | |b] eqn:RS;
        try discriminate; try (left; eexists; eassumption); exfalso; cbn in R.
      all: eapply shape_no_end; [apply R| |exact NI]; discriminate.
  - destruct I as ((P & R & W & N & N2) & (B1 & B2 & B3 & B4 & B5 & B6 & B7 & B8) & C). rewrite WS in W. cbn in W.
    destruct W as [W1 W2]. unfold reader_step, put_req in XR. rewrite WS, Q, W1, empty_not_full in XR.
    destruct (s_r s) as [off l|off todo l|off todo l|off todo l|off todo l b|off todo l b|off todo l b| | | |b] eqn:RS;
      try discriminate; try (left; eexists; eassumption); exfalso.
    + destruct (todo =? 0); discriminate.
    + destruct (todo =? 0); [discriminate|]. destruct (s_bufs s) eqn:B; [|discriminate].
      assert (L : length (owners s) = f_depth c) by (apply B8; [assumption|rewrite WS; discriminate]).
      unfold owners in L. rewrite B, RS, Q, WS in L. cbn in L. lia.
    + destruct b; discriminate.
    + cbn in XR. unfold owners in B4. rewrite RS in B4. cbn in B4. apply Forall_app in B4. destruct B4 as [_ B4].
      inversion B4; subst. destruct (nth_error (s_heap s) b) eqn:NE; [discriminate|].
      apply nth_error_None in NE. lia.
    + cbn in R. destruct R as [R|[R _]]; [|congruence]. inversion R as [| | |l' SH]; subst.
      rewrite Q, app_nil_r in P. apply (W2 l' None); [|reflexivity]. congruence.
Qed.

(* ---- number of steps ---- *)

Fixpoint wl (l : list (option extent)) : Z :=
  match l with [] => 0 | Some e :: l => 10 * e_length e + 2 + wl l | None :: l => 2 + wl l end.

Definition rw (r : rstate) : Z :=
  match r with
  | RNext _ l => wl l + 16
  | RZero _ todo l | RData _ todo l => 10 * todo + wl l + 17
  | RZeroPut _ todo l | RGot _ todo l _ => 10 * todo + wl l + 16
  | RRead _ todo l _ => 10 * todo + wl l + 15
  | RPut _ todo l _ => 10 * todo + wl l + 14
  | RFlush => 15 | REnd => 10 | RJoin => 5 | RDone _ => 0
  end.

Definition ww (w : wstate) : Z :=
  match w with WGet => 2 | WDo _ => 4 | WBack _ => 3 | WError => 2 | WSignal => 1 | WDone => 0 end.

Definition weight (s : st) : Z := rw (s_r s) + 3 * zlen (s_reqs s) + ww (s_w s).

Lemma wl_nonneg a L : rest_ok a L -> 0 <= wl L.
Proof.
  intros (l & -> & F & _). induction F; cbn [map wl]; [lia|]. lia.
Qed.

Lemma weight_nonneg s : inv s -> 0 <= weight s.
Proof.
  intros ((P & R & _) & _). unfold weight. pose proof (zlen_nonneg (s_reqs s)).
  assert (0 <= ww (s_w s)) by (destruct (s_w s); cbn; lia).
  assert (0 <= rw (s_r s)); [|lia].
  destruct (s_r s); cbn [rw reader_ok] in *; try lia;
    match type of R with context [rest_ok ?a ?l] => assert (0 <= wl l) by (apply (wl_nonneg a); apply R) end;
    try lia; destruct R as (R1 & R2 & R3); lia.
Qed.

Lemma weight_step l s s' : inv s -> step c l s = Some s' -> weight s' <= weight s - 1.
Proof.
  intros ((P & R & W & N & N2) & _) X. unfold weight. destruct l as [ok|ok n]; cbn [step] in X.
  - assert (WL : match s_r s with RNext _ l | RZero _ _ l | RZeroPut _ _ l | RData _ _ l | RGot _ _ l _ | RRead _ _ l _
       | RPut _ _ l _ => 0 <= wl l | _ => True end).
    { destruct (s_r s); try exact I; cbn [reader_ok] in R; eapply wl_nonneg; apply R. }
    pose proof MAX_ZERO_pos as MZ. unfold reader_step, put_req in X.
    destruct (s_r s) as [off l|off todo l|off todo l|off todo l|off todo l b|off todo l b|off todo l b| | | |b] eqn:RS;
      cbn [reader_ok rw] in *.
    + destruct ok; cbn [negb] in X; injection X as <-; cbn [set_r s_r s_w s_reqs rw]; [|lia].
      destruct l as [|[e|] l]; cbn [wl rw] in *; [lia| |lia]. destruct (ext_zero e); cbn [rw]; lia.
    + destruct (todo =? 0) eqn:T; [|destruct (s_err s)]; injection X as <-; cbn [set_r s_r s_w s_reqs rw]; lia.
    + destruct (full _ _); [discriminate|]. injection X as <-. cbn [s_r s_w s_reqs rw]. rewrite zlen_app.
      change (zlen [_]) with 1. lia.
    + destruct (todo =? 0) eqn:T; [|destruct (s_bufs s); [discriminate|]]; injection X as <-; cbn [set_r s_r s_w s_reqs rw]; lia.
    + destruct (s_err s); [|destruct b]; injection X as <-; cbn [set_r s_r s_w s_reqs rw]; lia.
    + destruct ok; cbn [negb] in X; [destruct (nth_error _ _); [|discriminate]|]; injection X as <-; cbn [set_r s_r s_w s_reqs rw]; lia.
    + destruct (full _ _); [discriminate|]. injection X as <-. cbn [s_r s_w s_reqs rw]. rewrite zlen_app.
      change (zlen [_]) with 1. lia.
    + destruct (full _ _); [discriminate|]. injection X as <-. cbn [s_r s_w s_reqs rw]. rewrite zlen_app.
      change (zlen [_]) with 1. lia.
    + destruct (full _ _); [discriminate|]. injection X as <-. cbn [s_r s_w s_reqs rw]. rewrite zlen_app.
      change (zlen [_]) with 1. lia.
    + destruct (s_w s) eqn:WS; try discriminate. injection X as <-. cbn [set_r s_r s_w s_reqs rw]. rewrite WS. lia.
    + discriminate.
  - unfold writer_step in X. destruct (s_w s) as [|r|r| | |] eqn:WS; try discriminate.
    + destruct (s_reqs s) as [|[r|] q]; [discriminate| |]; injection X as <-; cbn [s_r s_w s_reqs ww]; rewrite zlen_cons; lia.
    + destruct ok; [destruct (r_op r)|]; injection X as <-; cbn [s_r s_w s_reqs ww]; lia.
    + destruct (full _ _); [discriminate|]. injection X as <-; cbn [s_r s_w s_reqs ww]; lia.
    + injection X as <-; cbn [s_r s_w s_reqs ww]; lia.
    + destruct (full _ _); [discriminate|]. injection X as <-; cbn [s_r s_w s_reqs ww]; lia.
Qed.

Lemma exec_weight tr s s' : inv s -> exec c tr s = Some s' -> zlen tr <= weight s - weight s'.
Proof.
  revert s. induction tr as [|l tr IH]; cbn [exec]; intros s I X.
  - injection X as <-. rewrite zlen_nil. lia.
  - destruct (step c l s) as [s1|] eqn:S1; [|discriminate]. pose proof (step_inv _ _ _ I S1) as I1.
    specialize (IH _ I1 X). pose proof (weight_step _ _ _ I S1). rewrite zlen_cons. lia.
Qed.

Lemma weight_init : weight (init c d0) = 10 * size + 2 * zlen E + 18.
Proof.
  unfold weight, init. cbn [s_r s_w s_reqs rw ww]. rewrite (@zlen_nil (option request)), HE.
  assert (X : forall l, wl (map Some l) = 10 * total l + 2 * zlen l).
  { clear. induction l; cbn [map wl total]; [reflexivity|]. rewrite zlen_cons. lia. }
  rewrite X. destruct TR as (_ & T & _). fold size in T. lia.
Qed.
End Copy.
