From Coq Require Import ZArith List Bool Lia.
From Verif Require Import BytesLib OpsModel.
Import ListNotations.
Open Scope Z_scope.

Ltac inv H := inversion H; subst; clear H.

Lemma round_up_mod n s : 0 < s -> round_up n s mod s = 0.
Proof.
  intros. unfold round_up. set (m := n + s - 1).
  rewrite Zminus_mod, Zmod_mod, Z.sub_diag. now apply Z.mod_0_l; lia.
Qed.

Lemma round_up_ge n s : 0 < s -> n <= round_up n s < n + s.
Proof.
  intros. unfold round_up. pose proof (Z.mod_pos_bound (n + s - 1) s ltac:(lia)). lia.
Qed.

Lemma round_up_pos n s : 0 < s -> 0 < n -> s <= round_up n s.
Proof.
  intros. pose proof (round_up_ge n s H). pose proof (round_up_mod n s H).
  destruct (Z.lt_ge_cases (round_up n s) s); [|lia].
  rewrite Z.mod_small in H2 by lia. lia.
Qed.

Lemma clamp_bounds lo hi n : lo <= hi -> lo <= clamp lo hi n <= hi.
Proof. unfold clamp. lia. Qed.

(* ---- Read ---- *)

(* The bytes chosen in the buffer are bytes of the image. *)
Lemma view_eq (img buf : list byte) pos skip n count :
  0 <= pos -> 0 <= skip -> 0 <= skip + n -> skip + n <= count ->
  count <= zlen img - pos ->
  py_slice skip (skip + n) (sub pos count img ++ drop count buf) = sub (pos + skip) n img.
Proof.
  intros. rewrite py_slice_nonneg by lia. replace (skip + n - skip) with n by lia.
  destruct (Z.le_gt_cases n 0).
  { unfold sub. rewrite !take_nonpos; auto. }
  assert (L : zlen (sub pos count img) = count) by (rewrite zlen_sub; lia).
  unfold sub at 1. rewrite drop_app, L. rewrite take_app.
  rewrite drop_sub by lia. rewrite (take_nonpos (n - _)).
  - rewrite app_nil_r. rewrite take_sub by lia. reflexivity.
  - rewrite zlen_sub. lia.
Qed.

Section Read.
Variables (img : list byte) (bs offset size : Z).
Hypothesis Hbs : 0 < bs.
Hypothesis Hoff : 0 <= offset.
Hypothesis Hsize : 0 <= size.

(* what is known between chunks *)
Record rinv (s : rst) : Prop := {
  ri_sent : r_sent s = sub offset (r_done s) img;
  ri_len : zlen (r_sent s) = Z.max 0 (r_done s);
  ri_le : r_done s <= size;
  ri_pos : size - r_done s <> 0 -> r_pos s = offset + r_done s;
  ri_neg : r_done s < 0 -> r_pos s mod bs <> 0
}.

Definition rprefix (s : rst) : Prop :=
  exists n, 0 <= n <= size /\ r_sent s = sub offset n img /\ zlen (r_sent s) = n.

Lemma rinv_prefix s : rinv s -> rprefix s.
Proof.
  intros []. exists (Z.max 0 (r_done s)). split; [lia|]. split; auto.
  rewrite ri_sent0. destruct (Z.le_gt_cases (r_done s) 0).
  - unfold sub. rewrite !take_nonpos; auto; lia.
  - f_equal. lia.
Qed.

Lemma chunk_gen skip s a s' e :
  0 <= skip < bs -> 0 <= r_done s -> 0 <= r_pos s ->
  r_sent s = sub offset (r_done s) img -> zlen (r_sent s) = r_done s ->
  r_done s <= size -> r_pos s + skip = offset + r_done s ->
  (skip <> 0 -> r_done s = 0) ->
  read_chunk img bs size skip s a = (s', e) ->
  rprefix s' /\ (e = None -> rinv s').
Proof.
  intros Hs Hd Hp Hsent Hlen Hle Hpos Hsk.
  assert (P0 : rprefix s) by (exists (r_done s); auto).
  unfold read_chunk. cbn [r_pos r_buf r_done r_sent r_calls r_chunks].
  destruct (negb (r_pos s mod bs =? 0)) eqn:A.
  { intros E; inv E. split; [exact P0|discriminate]. }
  apply negb_false_iff, Z.eqb_eq in A.
  set (n := py_stop (round_up (size - r_done s) bs) (zlen (r_buf s))).
  destruct (ra_count a) as [c|].
  2:{ intros E; inv E. split; [exact P0|discriminate]. }
  pose proof (py_stop_bounds (round_up (size - r_done s) bs) (zlen (r_buf s)) (zlen_nonneg _)) as B.
  fold n in B.
  set (count := clamp 0 (Z.min n (Z.max 0 (zlen img - r_pos s))) c).
  assert (Hc : 0 <= count <= Z.min n (Z.max 0 (zlen img - r_pos s))).
  { apply clamp_bounds. lia. }
  clearbody count n.
  destruct (count =? 0) eqn:C.
  { intros E; inv E. split; [exact P0|discriminate]. }
  remember (Z.min (count - skip) (size - r_done s)) as m eqn:Hm.
  rewrite (view_eq img (r_buf s) (r_pos s) skip m count) by lia.
  assert (J : forall k, k <= m -> r_sent s ++ sub (r_pos s + skip) k img = sub offset (r_done s + Z.max 0 k) img
              /\ zlen (r_sent s ++ sub (r_pos s + skip) k img) = r_done s + Z.max 0 k).
  { intros k Hk. destruct (Z.le_gt_cases k 0).
    - unfold sub at 1 3. rewrite (take_nonpos k) by auto. rewrite app_nil_r.
      replace (r_done s + Z.max 0 k) with (r_done s) by lia. auto.
    - replace (Z.max 0 k) with k by lia. rewrite Hpos, Hsent, <- sub_split by lia. split; auto.
      rewrite zlen_sub. rewrite Hsent, zlen_sub in Hlen. lia. }
  destruct (ra_send a) as [k|].
  - intros E; injection E as <- <-. split; [|discriminate].
    destruct (Z.le_gt_cases k 0).
    { rewrite take_nonpos, app_nil_r by auto. exact P0. }
    destruct (Z.le_gt_cases k m).
    + rewrite take_sub by auto. destruct (J k) as [J1 J2]; auto.
      exists (r_done s + Z.max 0 k). cbn. split; [lia|]. split; auto.
    + rewrite take_all by (rewrite zlen_sub; lia). destruct (J m) as [J1 J2]; [lia|].
      exists (r_done s + Z.max 0 m). cbn. split; [lia|]. split; auto.
  - destruct (J m) as [J1 J2]; [lia|].
    assert (RI : rinv (RSt (r_pos s + count) (sub (r_pos s) count img ++ drop count (r_buf s))
                  (r_done s + m) (r_sent s ++ sub (r_pos s + skip) m img)
                  (r_calls s ++ [(r_pos s, n)]) (S (r_chunks s)))).
    { constructor; cbn.
      - rewrite J1. destruct (Z.le_gt_cases m 0); [|f_equal; lia].
        assert (m = 0 \/ r_done s = 0) by (destruct (Z.eq_dec skip 0); [left; lia|right; auto]).
        destruct H0 as [->|Z0]; [f_equal; lia|]. rewrite Z0. unfold sub.
        rewrite !take_nonpos; auto; lia.
      - rewrite J2. destruct (Z.eq_dec skip 0); [lia|]. rewrite Hsk by auto. lia.
      - lia.
      - lia.
      - intros N. assert (skip <> 0) by lia. assert (count < skip) by lia.
        rewrite Z.add_mod, A, Z.add_0_l, Z.mod_mod by lia. rewrite Z.mod_small by lia. lia. }
    destruct (ra_cancel a); intros E; injection E as <- <-; (split; [now apply rinv_prefix|auto]).
Qed.

Lemma loop_gen o : forall fuel s s' e,
  rinv s -> 0 <= r_pos s ->
  read_loop fuel img bs size o s = Some (s', e) ->
  rprefix s' /\ (e = Success -> r_sent s' = sub offset size img /\ zlen (r_sent s') = size /\ r_done s' = size).
Proof.
  induction fuel as [|fuel IH]; cbn [read_loop]; intros s s' e I Hp E; [discriminate|].
  destruct (size - r_done s =? 0) eqn:T.
  { inv E. split; [now apply rinv_prefix|]. intros _. destruct I.
    assert (r_done s' = size) by lia. rewrite H in *. repeat split; auto. lia. }
  destruct (Z.lt_ge_cases (r_done s) 0) as [N|N].
  { (* a short first read: the next chunk fails *)
    unfold read_chunk in E. cbn [r_pos r_buf r_done r_sent r_calls r_chunks] in E.
    pose proof (ri_neg s I N) as M. apply Z.eqb_neq in M. rewrite M in E. cbn [negb] in E. inv E.
    split; [|discriminate]. apply rinv_prefix in I. exact I. }
  destruct (read_chunk img bs size 0 s (o (r_chunks s))) as [s1 [e1|]] eqn:C.
  - inv E. split; [|intros ->].
    + destruct I. eapply (chunk_gen 0 s); eauto; try lia;
        (rewrite ri_pos0 by lia; lia) || (rewrite ri_len0; lia).
    + exfalso. revert C. unfold read_chunk. clear.
      repeat match goal with |- context [match ?x with _ => _ end] => destruct x end; congruence.
  - assert (G : rprefix s1 /\ (@None outcome = None -> rinv s1)).
    { destruct I. eapply (chunk_gen 0 s); eauto; try lia;
        (rewrite ri_pos0 by lia; lia) || (rewrite ri_len0; lia). }
    destruct G as [_ G]. specialize (G eq_refl).
    eapply IH; eauto.
    revert C. unfold read_chunk. cbn [r_pos r_buf r_done r_sent r_calls r_chunks].
    destruct (negb _); [congruence|]. destruct (ra_count _) as [c|]; [|congruence].
    match goal with |- context [clamp ?a ?b ?c] => set (count := clamp a b c) end.
    assert (0 <= count) by (apply clamp_bounds; pose proof (py_stop_bounds (round_up (size - r_done s) bs) (zlen (r_buf s)) (zlen_nonneg _)); lia).
    destruct (count =? 0); [congruence|]. destruct (ra_send _); [congruence|].
    destruct (ra_cancel _); intros E1; inv E1. cbn. lia.
Qed.

Lemma run_gen buf o fuel s' e :
  read_run fuel img buf bs offset size o = Some (s', e) ->
  rprefix s' /\ (e = Success -> r_sent s' = sub offset size img /\ zlen (r_sent s') = size /\ r_done s' = size).
Proof.
  unfold read_run. pose proof (Z.mod_pos_bound offset bs Hbs) as M.
  pose proof (Z.mod_le offset bs Hoff Hbs) as ML.
  destruct (offset mod bs =? 0) eqn:S0.
  - intros E. eapply loop_gen; [| |exact E].
    + constructor; cbn; try reflexivity; try lia.
    + cbn. lia.
  - destruct (read_chunk _ _ _ _ _ _) as [s1 [e1|]] eqn:C; intros E.
    + inv E. split; [|intros ->].
      * eapply (chunk_gen (offset mod bs)); try exact C; cbn; auto; try lia.
      * exfalso. revert C. unfold read_chunk. clear.
        repeat match goal with |- context [match ?x with _ => _ end] => destruct x end; congruence.
    + assert (G : rprefix s1 /\ (@None outcome = None -> rinv s1)).
      { eapply (chunk_gen (offset mod bs)); try exact C; cbn; auto; try lia. }
      eapply loop_gen; [exact (proj2 G eq_refl)| |exact E].
      revert C. unfold read_chunk. cbn [r_pos r_buf r_done r_sent r_calls r_chunks].
      destruct (negb _); [congruence|]. destruct (ra_count _) as [c|]; [|congruence].
      match goal with |- context [clamp ?a ?b ?c] => set (count := clamp a b c) end.
      assert (0 <= count) by (apply clamp_bounds; pose proof (py_stop_bounds (round_up (size - 0) bs) (zlen buf) (zlen_nonneg _)); lia).
      destruct (count =? 0); [congruence|]. destruct (ra_send _); [congruence|].
      destruct (ra_cancel _); intros E1; inv E1. cbn. lia.
Qed.
End Read.

(* Shape of one chunk, for any size. *)
Lemma chunk_shape img bs size skip s a s' e :
  0 < bs -> 0 <= skip -> 0 <= r_pos s ->
  read_chunk img bs size skip s a = (s', e) ->
  r_chunks s' = S (r_chunks s) /\
  zlen (r_buf s') = zlen (r_buf s) /\
  (r_calls s' = r_calls s \/
   (r_pos s mod bs = 0 /\
    r_calls s' = r_calls s ++ [(r_pos s, py_stop (round_up (size - r_done s) bs) (zlen (r_buf s)))])) /\
  (e = None -> ra_cancel a = false /\ r_pos s <= r_pos s' /\
     exists count, 0 < count /\ r_done s' = r_done s + Z.min (count - skip) (size - r_done s)).
Proof.
  intros Hbs Hsk Hpos. unfold read_chunk. cbn [r_pos r_buf r_done r_sent r_calls r_chunks].
  destruct (negb (r_pos s mod bs =? 0)) eqn:A.
  { intros E; inv E. cbn. repeat split; auto; try discriminate. }
  apply negb_false_iff, Z.eqb_eq in A.
  set (n := py_stop (round_up (size - r_done s) bs) (zlen (r_buf s))).
  pose proof (py_stop_bounds (round_up (size - r_done s) bs) (zlen (r_buf s)) (zlen_nonneg _)) as B.
  fold n in B. clearbody n.
  destruct (ra_count a) as [c|].
  2:{ intros E; inv E. cbn. repeat split; auto; discriminate. }
  set (count := clamp 0 (Z.min n (Z.max 0 (zlen img - r_pos s))) c).
  assert (Hc : 0 <= count <= Z.min n (Z.max 0 (zlen img - r_pos s))).
  { apply clamp_bounds. lia. }
  clearbody count.
  assert (L : zlen (sub (r_pos s) count img ++ drop count (r_buf s)) = zlen (r_buf s)).
  { rewrite zlen_app, zlen_sub, zlen_drop. lia. }
  destruct (count =? 0) eqn:C.
  { intros E; inv E. cbn. repeat split; auto; discriminate. }
  destruct (ra_send a) as [k|].
  { intros E; inv E. cbn. repeat split; auto; discriminate. }
  destruct (ra_cancel a) eqn:K; intros E; inv E; cbn; repeat split; auto; try discriminate; try lia.
  exists count. split; [lia|reflexivity].
Qed.

Definition call_aligned (bs : Z) (c : Z * Z) : Prop :=
  fst c mod bs = 0 /\ snd c mod bs = 0 /\ 0 <= snd c.

Lemma py_stop_mod i n bs : 0 < bs -> 0 <= n -> i mod bs = 0 -> n mod bs = 0 -> py_stop i n mod bs = 0.
Proof.
  intros Hb Hn A B. unfold py_stop. destruct (i <? 0).
  - destruct (Z.max_spec 0 (n + i)) as [[_ ->]|[_ ->]].
    + rewrite Z.add_mod, A, B by lia. now apply Z.mod_0_l; lia.
    + apply Z.mod_0_l; lia.
  - destruct (Z.min_spec i n) as [[_ ->]|[_ ->]]; auto.
Qed.

Lemma calls_snoc bs size s s' :
  0 < bs -> zlen (r_buf s) mod bs = 0 -> Forall (call_aligned bs) (r_calls s) ->
  (r_calls s' = r_calls s \/
   (r_pos s mod bs = 0 /\
    r_calls s' = r_calls s ++ [(r_pos s, py_stop (round_up (size - r_done s) bs) (zlen (r_buf s)))])) ->
  Forall (call_aligned bs) (r_calls s').
Proof.
  intros Hb Hl F [->|[A ->]]; auto. apply Forall_app; split; auto. constructor; [|constructor].
  unfold call_aligned; cbn. split; auto. split.
  - apply py_stop_mod; auto using zlen_nonneg. now apply round_up_mod.
  - apply py_stop_bounds, zlen_nonneg.
Qed.

Lemma loop_calls img bs size o : 0 < bs -> forall fuel s s' e,
  0 <= r_pos s -> zlen (r_buf s) mod bs = 0 -> Forall (call_aligned bs) (r_calls s) ->
  read_loop fuel img bs size o s = Some (s', e) -> Forall (call_aligned bs) (r_calls s').
Proof.
  intros Hb. induction fuel as [|fuel IH]; cbn [read_loop]; intros s s' e Hp Hl F E; [discriminate|].
  destruct (_ =? 0); [inv E; auto|].
  destruct (read_chunk img bs size 0 s (o (r_chunks s))) as [s1 e1] eqn:C.
  apply chunk_shape in C as (_ & L & CA & N); auto; try lia.
  assert (F1 : Forall (call_aligned bs) (r_calls s1)) by (eapply calls_snoc; eauto).
  destruct e1; [inv E; auto|]. eapply IH; [| | |exact E]; auto.
  - destruct (N eq_refl) as (_ & ? & _). lia.
  - rewrite L; exact Hl.
Qed.

Lemma run_calls img buf bs offset size o fuel s' e :
  0 < bs -> 0 <= offset -> zlen buf mod bs = 0 ->
  read_run fuel img buf bs offset size o = Some (s', e) -> Forall (call_aligned bs) (r_calls s').
Proof.
  intros Hb Ho Hl. unfold read_run. pose proof (Z.mod_pos_bound offset bs Hb).
  pose proof (Z.mod_le offset bs Ho Hb).
  destruct (_ =? 0).
  - apply loop_calls; cbn; auto; lia.
  - destruct (read_chunk _ _ _ _ _ _) as [s1 e1] eqn:C.
    apply chunk_shape in C as (_ & L & CA & N); cbn [r_pos]; auto; try lia.
    assert (F1 : Forall (call_aligned bs) (r_calls s1)).
    { eapply calls_snoc; [| | |exact CA]; cbn; auto. }
    destruct e1; [intros E; inv E; auto|]. apply loop_calls; auto.
    + destruct (N eq_refl) as (_ & ? & _). cbn in *. lia.
    + now rewrite L.
Qed.

Lemma loop_terminates img bs size o : 0 < bs -> forall k s,
  0 <= r_pos s -> size - r_done s <= Z.of_nat k ->
  exists r, read_loop (S (S k)) img bs size o s = Some r.
Proof.
  intros Hb. induction k as [|k IH]; intros s Hp Hk.
  - cbn [read_loop]. destruct (size - r_done s =? 0) eqn:T; [eauto|].
    destruct (read_chunk img bs size 0 s (o (r_chunks s))) as [s1 e1] eqn:C.
    apply chunk_shape in C as (_ & L & _ & N); auto; try lia.
    destruct e1; [eauto|]. destruct (N eq_refl) as (_ & _ & c & Hc & D).
    replace (size - r_done s1 =? 0) with true by lia. eauto.
  - change (read_loop (S (S (S k))) img bs size o s) with
      (if size - r_done s =? 0 then Some (s, Success)
       else match read_chunk img bs size 0 s (o (r_chunks s)) with
            | (s, Some e) => Some (s, e)
            | (s, None) => read_loop (S (S k)) img bs size o s
            end).
    destruct (size - r_done s =? 0) eqn:T; [eauto|].
    destruct (read_chunk img bs size 0 s (o (r_chunks s))) as [s1 e1] eqn:C.
    apply chunk_shape in C as (_ & L & _ & N); auto; try lia.
    destruct e1; [eauto|]. destruct (N eq_refl) as (_ & ? & c & Hc & D).
    apply IH; lia.
Qed.

Lemma loop_ends img bs size o : 0 < bs -> forall fuel s,
  0 <= r_pos s -> Z.max 0 (size - r_done s) + 2 <= Z.of_nat fuel ->
  exists r, read_loop fuel img bs size o s = Some r.
Proof.
  intros Hb fuel s Hp Hk. destruct fuel as [|[|k]]; try lia. apply loop_terminates; auto. lia.
Qed.

Lemma run_ends fuel img buf bs offset size o :
  0 < bs -> 0 <= offset -> Z.max 0 size + bs + 2 <= Z.of_nat fuel ->
  exists r, read_run fuel img buf bs offset size o = Some r.
Proof.
  intros Hb Ho Hf. unfold read_run. pose proof (Z.mod_pos_bound offset bs Hb).
  pose proof (Z.mod_le offset bs Ho Hb).
  destruct (_ =? 0).
  - apply loop_ends; cbn; auto; lia.
  - destruct (read_chunk _ _ _ _ _ _) as [s1 e1] eqn:C.
    apply chunk_shape in C as (_ & L & CA & N); cbn [r_pos]; auto; try lia.
    destruct e1; [eauto|]. destruct (N eq_refl) as (_ & ? & c & Hc & D). cbn [r_done r_pos] in *.
    apply loop_ends; auto; lia.
Qed.

Lemma run_terminates img buf bs offset size o :
  0 < bs -> 0 <= offset -> exists fuel r, read_run fuel img buf bs offset size o = Some r.
Proof. intros Hb Ho. exists (Z.to_nat (Z.max 0 size + bs + 2)). apply run_ends; auto. lia. Qed.

Lemma loop_cancel img bs size o i : 0 < bs -> ra_cancel (o i) = true -> forall fuel s s' e,
  0 <= r_pos s -> (r_chunks s <= i)%nat ->
  read_loop fuel img bs size o s = Some (s', e) -> (r_chunks s' <= S i)%nat.
Proof.
  intros Hb Hi. induction fuel as [|fuel IH]; cbn [read_loop]; intros s s' e Hp Hc E; [discriminate|].
  destruct (_ =? 0); [inv E; lia|].
  destruct (read_chunk img bs size 0 s (o (r_chunks s))) as [s1 e1] eqn:C.
  apply chunk_shape in C as (S1 & L & CA & N); auto; try lia.
  destruct e1; [inv E; lia|]. destruct (N eq_refl) as (K & ? & _).
  eapply IH; [| |exact E]; [lia|]. rewrite S1.
  destruct (Nat.eq_dec (r_chunks s) i) as [X|X]; [rewrite X in K; congruence|lia].
Qed.

Lemma run_cancel img buf bs offset size o i fuel s' e :
  0 < bs -> 0 <= offset -> ra_cancel (o i) = true ->
  read_run fuel img buf bs offset size o = Some (s', e) -> (r_chunks s' <= S i)%nat.
Proof.
  intros Hb Ho Hi. unfold read_run. pose proof (Z.mod_pos_bound offset bs Hb).
  pose proof (Z.mod_le offset bs Ho Hb).
  destruct (_ =? 0).
  - eapply loop_cancel; cbn; eauto; lia.
  - destruct (read_chunk _ _ _ _ _ _) as [s1 e1] eqn:C.
    apply chunk_shape in C as (S1 & L & CA & N); cbn [r_pos]; auto; try lia.
    destruct e1; [intros E; inv E; cbn in S1; lia|].
    destruct (N eq_refl) as (K & ? & _). eapply loop_cancel; eauto; cbn in *; try lia.
    destruct i; [congruence|lia].
Qed.

(* Progress with a well behaved backend. *)
Definition good_reader (bs : Z) (o : nat -> rans) : Prop :=
  forall i, exists c, ra_count (o i) = Some c /\ 0 < c /\ c mod bs = 0 /\
                      ra_send (o i) = None /\ ra_cancel (o i) = false.

Lemma min_mod a b bs : a mod bs = 0 -> b mod bs = 0 -> Z.min a b mod bs = 0.
Proof. destruct (Z.min_spec a b) as [[_ ->]|[_ ->]]; auto. Qed.

Lemma mult_ge a bs : 0 < bs -> 0 < a -> a mod bs = 0 -> bs <= a.
Proof.
  intros. destruct (Z.lt_ge_cases a bs); auto. rewrite Z.mod_small in H1; lia.
Qed.

(* state in which the next chunk must work *)
Definition rgood (img : list byte) (bs offset size : Z) (s : rst) : Prop :=
  0 <= r_pos s /\ r_pos s mod bs = 0 /\ zlen (r_buf s) mod bs = 0 /\ 0 < zlen (r_buf s) /\
  r_pos s <= offset + r_done s < r_pos s + bs.

Lemma chunk_good img bs offset size skip s a :
  0 < bs -> 0 <= skip < bs -> rgood img bs offset size s ->
  offset + r_done s = r_pos s + skip -> 0 <= r_done s ->
  0 < size - r_done s -> offset + size <= zlen img ->
  (exists c, ra_count a = Some c /\ 0 < c /\ c mod bs = 0 /\ ra_send a = None /\ ra_cancel a = false) ->
  exists s', read_chunk img bs size skip s a = (s', None) /\
    0 < r_done s' <= size /\
    (r_done s' <> size -> rgood img bs offset size s' /\ r_pos s' = offset + r_done s').
Proof.
  intros Hb Hs (Hp & Hpm & Hbm & Hbp & Hr) Hpos Hd Ht Hi (c & Ec & Hc & Hcm & Es & Ek).
  unfold read_chunk. cbn [r_pos r_buf r_done r_sent r_calls r_chunks].
  rewrite Hpm, Z.eqb_refl. cbn [negb]. rewrite Ec, Es, Ek.
  pose proof (round_up_mod (size - r_done s) bs Hb) as Rm.
  pose proof (round_up_pos (size - r_done s) bs Hb Ht) as Rp.
  set (R := round_up (size - r_done s) bs) in *. clearbody R.
  rewrite py_stop_nonneg by lia.
  set (n := Z.min R (zlen (r_buf s))).
  assert (Hn : bs <= n) by (unfold n; pose proof (mult_ge _ bs Hb Hbp Hbm); lia).
  assert (Hnm : n mod bs = 0) by (apply min_mod; auto).
  assert (Av : Z.max 0 (zlen img - r_pos s) = zlen img - r_pos s) by lia. rewrite Av.
  pose proof (mult_ge _ bs Hb Hc Hcm) as Hcb.
  set (count := clamp 0 (Z.min n (zlen img - r_pos s)) c).
  assert (Cc : count = Z.min (Z.min n c) (zlen img - r_pos s)) by (unfold count, clamp; lia).
  assert (Cm : Z.min n c mod bs = 0) by (apply min_mod; auto).
  clearbody count.
  assert (count > skip) by lia.
  replace (count =? 0) with false by lia.
  eexists. split; [reflexivity|]. cbn. split; [lia|]. intros NE.
  assert (CE : count = Z.min n c) by lia.
  split; [|lia]. unfold rgood; cbn.
  assert (L : zlen (sub (r_pos s) count img ++ drop count (r_buf s)) = zlen (r_buf s)).
  { rewrite zlen_app, zlen_sub, zlen_drop. lia. }
  rewrite L. repeat split; auto; try lia.
  rewrite Z.add_mod, Hpm by lia. rewrite CE, Cm. apply Z.mod_0_l; lia.
Qed.

Lemma loop_good img bs offset size o : 0 < bs -> offset + size <= zlen img -> good_reader bs o ->
  forall fuel s s' e, 0 <= r_done s <= size ->
  (r_done s <> size -> rgood img bs offset size s /\ r_pos s = offset + r_done s) ->
  read_loop fuel img bs size o s = Some (s', e) -> e = Success.
Proof.
  intros Hb Hi G. induction fuel as [|fuel IH]; cbn [read_loop]; intros s s' e Hd Hg E; [discriminate|].
  destruct (size - r_done s =? 0) eqn:T; [inv E; auto|].
  destruct (Hg ltac:(lia)) as [Hr Hp].
  destruct (chunk_good img bs offset size 0 s (o (r_chunks s))) as (s1 & C & D & N); auto; try lia.
  rewrite C in E. eapply IH; [| |exact E]; [lia|auto].
Qed.

Lemma run_good img buf bs offset size o fuel s' e :
  0 < bs -> 0 <= offset -> 0 <= size -> (0 < size \/ offset mod bs = 0) ->
  offset + size <= zlen img -> 0 < zlen buf -> zlen buf mod bs = 0 -> good_reader bs o ->
  read_run fuel img buf bs offset size o = Some (s', e) -> e = Success.
Proof.
  intros Hb Ho Hs Hz Hi Hbp Hbm G. unfold read_run. pose proof (Z.mod_pos_bound offset bs Hb).
  pose proof (Z.mod_le offset bs Ho Hb).
  assert (Am : (offset - offset mod bs) mod bs = 0).
  { rewrite Zminus_mod, Zmod_mod, Z.sub_diag. apply Z.mod_0_l; lia. }
  destruct (offset mod bs =? 0) eqn:E0.
  - apply (loop_good img bs offset size o); cbn; auto; try lia.
    intros _. split; [|lia]. unfold rgood; cbn. repeat split; auto; lia.
  - destruct (chunk_good img bs offset size (offset mod bs)
               (RSt (offset - offset mod bs) buf 0 [] [] 0) (o O)) as (s1 & C & D & N); cbn; auto; try lia.
    { unfold rgood; cbn. repeat split; auto; lia. }
    rewrite C. apply (loop_good img bs offset size o); auto; try lia.
Qed.

(* ---- Write ---- *)

Definition is_write (e : effect) : Prop := match e with EWrite _ _ => True | _ => False end.
Definition is_zero (e : effect) : Prop := match e with EZero _ _ => True | _ => False end.

Lemma fill_spec o buflen count : forall fuel s got s' got' r,
  fill fuel o buflen count s got = Some (s', got', r) ->
  exists d, got' = got ++ d /\ w_body s = d ++ w_body s' /\
    w_img s' = w_img s /\ w_pos s' = w_pos s /\ w_done s' = w_done s /\
    w_log s' = w_log s /\ w_wi s' = w_wi s /\ w_ci s' = w_ci s /\
    zlen got' <= Z.max (zlen got) count /\ (r = None \/ r = Some Failed).
Proof.
  induction fuel as [|fuel IH]; cbn [fill]; intros s got s' got' r E; [discriminate|].
  assert (Triv : forall ri, exists d, got = got ++ d /\ w_body s = d ++ w_body (WSt (w_img s) (w_pos s) (w_body s) (w_done s) (w_log s) ri (w_wi s) (w_ci s))).
  { exists []. now rewrite app_nil_r. }
  destruct (zlen got <? count) eqn:L.
  2:{ inv E. exists []. rewrite app_nil_r. repeat split; auto. lia. }
  destruct (wo_read o (w_ri s)) as [c|].
  2:{ inv E. exists []. rewrite app_nil_r. cbn. repeat split; auto. lia. }
  set (n := clamp 0 (Z.min (Z.max 0 (Z.min count buflen - zlen got)) (zlen (w_body s))) c) in *.
  assert (Hn : 0 <= n <= Z.min (Z.max 0 (Z.min count buflen - zlen got)) (zlen (w_body s))).
  { apply clamp_bounds. pose proof (zlen_nonneg (w_body s)). lia. }
  clearbody n. destruct (n =? 0) eqn:N.
  { inv E. exists []. rewrite app_nil_r. cbn. repeat split; auto. lia. }
  apply IH in E as (d & G & B & I & P & D & Lg & W & C & Z & R). cbn in *.
  exists (take n (w_body s) ++ d). rewrite G, <- app_assoc. split; auto. split.
  { rewrite <- app_assoc, <- B. now rewrite take_drop. }
  repeat split; auto. rewrite G, !zlen_app, zlen_take in Z. rewrite !zlen_app, zlen_take. lia.
Qed.

Lemma drain_spec o : forall fuel s data s' r, 0 <= w_pos s ->
  drain fuel o s data = Some (s', r) ->
  exists m l, 0 <= m <= zlen data /\ w_img s' = splice (w_img s) (w_pos s) (take m data) /\
    w_body s' = w_body s /\ w_done s' = w_done s /\ w_log s' = w_log s ++ l /\
    Forall is_write l /\ w_ri s' = w_ri s /\ w_ci s' = w_ci s /\
    (r = None -> m = zlen data /\ w_pos s' = w_pos s + zlen data) /\
    (r = None \/ r = Some Failed).
Proof.
  induction fuel as [|fuel IH]; cbn [drain]; intros s data s' r Hp E; [discriminate|].
  destruct data as [|b data].
  { inv E. exists 0, []. rewrite app_nil_r. unfold zlen. cbn. repeat split; auto; try lia. }
  set (x := b :: data) in *. assert (Lx : 1 <= zlen x) by (unfold x; rewrite zlen_cons; pose proof (zlen_nonneg data); lia).
  clearbody x. destruct (wo_write o (w_wi s)) as [c|c].
  - set (n := clamp 1 (zlen x) c) in *.
    assert (Hn : 1 <= n <= zlen x) by (apply clamp_bounds; lia). clearbody n.
    apply IH in E as (m & l & M & I & B & D & Lg & F & Ri & Ci & R & O); cbn in *; [|lia].
    rewrite zlen_drop in M.
    exists (n + m), (EWrite (w_pos s) n :: l). split; [lia|]. split.
    { rewrite I. rewrite take_split by lia.
      replace (w_pos s + n) with (w_pos s + zlen (take n x)) by (rewrite zlen_take; lia).
      now rewrite splice_app. }
    repeat split; auto.
    + rewrite Lg, <- app_assoc. reflexivity.
    + constructor; cbn; auto.
    + destruct (R H) as [R1 R2]. rewrite zlen_drop in R1. lia.
    + destruct (R H) as [R1 R2]. rewrite zlen_drop in R2. lia.
  - set (k := clamp 0 (zlen x) c) in *.
    assert (Hk : 0 <= k <= zlen x) by (apply clamp_bounds; lia). clearbody k.
    inv E. exists k, [EWrite (w_pos s) k]. cbn. repeat split; auto; try lia; try discriminate.
    constructor; cbn; auto.
Qed.

(* What is known about a write after [w_done] bytes. *)
Record winv (img body : list byte) (offset : Z) (s : wst) : Prop := {
  wi_done : 0 <= w_done s;
  wi_body : body = take (w_done s) body ++ w_body s;
  wi_len : zlen (take (w_done s) body) = w_done s;
  wi_img : w_img s = splice img offset (take (w_done s) body);
  wi_pos : w_pos s = offset + w_done s;
  wi_log : Forall is_write (w_log s)
}.

(* What is known when it stops early. *)
Definition wstop (img body : list byte) (offset : Z) (bound : option Z) (s : wst) : Prop :=
  exists m, 0 <= w_done s <= m /\ zlen (take m body) = m /\
    (forall b, bound = Some b -> m <= b) /\
    w_img s = splice img offset (take m body) /\ Forall is_write (w_log s).

Lemma winv_stop img body offset b s :
  winv img body offset s -> (forall n, b = Some n -> w_done s <= n) -> wstop img body offset b s.
Proof.
  intros [] H. exists (w_done s). repeat split; auto; lia.
Qed.

Lemma take_app_exact {A} (a b : list A) : take (zlen a) (a ++ b) = a.
Proof. rewrite take_app, take_all, Z.sub_diag, take_nonpos, app_nil_r by lia. reflexivity. Qed.

Lemma drop_app_exact {A} (a b : list A) : drop (zlen a) (a ++ b) = b.
Proof. rewrite drop_app, drop_all, Z.sub_diag, drop_nonpos by lia. reflexivity. Qed.

Lemma take_done_app (body d rest : list byte) n :
  body = take n body ++ d ++ rest -> zlen (take n body) = n -> 0 <= n ->
  take (n + zlen d) body = take n body ++ d.
Proof.
  intros B L H. rewrite take_split by (auto; apply zlen_nonneg). f_equal.
  rewrite B at 1. rewrite <- L at 1. rewrite drop_app_exact. apply take_app_exact.
Qed.

Lemma write_chunk_spec img body offset fuel o buflen size count s s' e :
  0 <= offset -> 0 <= count -> winv img body offset s ->
  write_chunk fuel o buflen size count s = Some (s', e) ->
  (e = Go -> winv img body offset s' /\ w_done s' = w_done s + count /\
             wo_cancel o (w_ci s) = false /\ w_ci s' = S (w_ci s)) /\
  (e = Eof -> winv img body offset s' /\ w_done s <= w_done s' < w_done s + count /\ size = None) /\
  (forall x, e = Stop x -> x <> Success /\ wstop img body offset (Some (w_done s + count)) s' /\
             (w_ci s' <= S (w_ci s))%nat).
Proof.
  intros Ho Hc I. unfold write_chunk.
  destruct (fill fuel o buflen count s []) as [[[s1 got] r]|] eqn:F; [|discriminate].
  apply fill_spec in F as (d & -> & B & I1 & P1 & D1 & L1 & W1 & C1 & Z1 & R1).
  cbn [app] in *. destruct I as [Id Ib Il Ii Ip Ig].
  rewrite zlen_nil in Z1. pose proof (zlen_nonneg d) as Hd.
  assert (TD : forall m, 0 <= m <= zlen d -> take (w_done s + m) body = take (w_done s) body ++ take m d).
  { intros m Hm. assert (E : m = zlen (take m d)) by (rewrite zlen_take; lia).
    rewrite E at 1. eapply (take_done_app body (take m d) (drop m d ++ w_body s1)); auto.
    rewrite (app_assoc (take m d)), take_drop. rewrite <- B. exact Ib. }
  assert (LD : forall m, 0 <= m <= zlen d -> zlen (take (w_done s + m) body) = w_done s + m).
  { intros m Hm. rewrite TD by auto. rewrite zlen_app, Il, zlen_take. lia. }
  destruct r as [x|].
  { (* the connection failed *)
    intros E; inv E. split; [discriminate|]. split; [discriminate|]. intros y Hy; inv Hy.
    destruct R1 as [R1|R1]; inv R1. split; [discriminate|]. split; [|lia].
    exists (w_done s). rewrite D1, I1, L1. repeat split; auto; try lia.
    intros b Hb; inv Hb. lia. }
  destruct (drain fuel o s1 d) as [[s2 r2]|] eqn:DR; [|discriminate].
  apply drain_spec in DR as (m & l & M & I2 & B2 & D2 & L2 & F2 & Ri2 & C2 & R2 & O2).
  2:{ rewrite P1, Ip. lia. }
  assert (Img : w_img s2 = splice img offset (take (w_done s + m) body)).
  { rewrite I2, I1, P1, Ii, Ip. rewrite <- Il at 2. rewrite splice_app by auto. now rewrite TD. }
  assert (Log : Forall is_write (w_log s2)).
  { rewrite L2, L1. apply Forall_app; auto. }
  destruct r2 as [x|].
  { intros E; inv E. split; [discriminate|]. split; [discriminate|]. intros y Hy; inv Hy.
    destruct O2 as [O2|O2]; inv O2. split; [discriminate|]. split; [|lia].
    exists (w_done s + m). rewrite D2, D1. repeat split; auto; try lia.
    intros b Hb; inv Hb. lia. }
  destruct (R2 eq_refl) as [-> P2].
  assert (W : forall ci, winv img body offset
     (WSt (w_img s2) (w_pos s2) (w_body s2) (w_done s2 + zlen d) (w_log s2) (w_ri s2) (w_wi s2) ci)).
  { intros ci. constructor; cbn; rewrite ?D2, ?D1; try lia; auto.
    rewrite TD, (take_all (zlen d) d) by lia. rewrite <- app_assoc, B2, <- B. exact Ib. }
  destruct (zlen d <? count) eqn:SH.
  - destruct size as [n|].
    + intros E; inv E. split; [discriminate|]. split; [discriminate|]. intros y Hy; inv Hy.
      split; [discriminate|]. split; [|cbn; lia].
      eapply winv_stop; [apply W|]. cbn. intros b Hb; inv Hb. lia.
    + intros E; inv E. split; [discriminate|]. split; [|discriminate]. intros _.
      split; [apply W|]. split; auto. cbn. lia.
  - destruct (wo_cancel o (w_ci s2)) eqn:K; intros E; inv E.
    + split; [discriminate|]. split; [discriminate|]. intros y Hy; inv Hy.
      split; [discriminate|]. split; [|cbn; lia].
      eapply winv_stop; [apply W|]. cbn. intros b Hb; inv Hb. lia.
    + split; [|split; discriminate]. intros _. split; [apply W|]. cbn. split; [lia|].
      rewrite C2, C1 in K. split; [auto|lia].
Qed.

Definition le_size (size : option Z) (n : Z) : Prop :=
  match size with None => True | Some k => n <= k end.

Lemma write_loop_spec img body offset o buflen size : 0 <= offset -> 0 < buflen ->
  forall fuel s s' e, winv img body offset s -> le_size size (w_done s) ->
  write_loop fuel o buflen size s = Some (s', e) ->
  (e = Go -> winv img body offset s' /\ size = Some (w_done s')) /\
  (e = Eof -> winv img body offset s' /\ size = None) /\
  (forall x, e = Stop x -> x <> Success /\ wstop img body offset size s').
Proof.
  intros Ho Hb. induction fuel as [|fuel IH]; intros s s' e I L; [discriminate|].
  cbn [write_loop]. set (todo := write_todo buflen size s).
  destruct (todo =? 0) eqn:T.
  { intros E; inv E. split; [|split; discriminate]. intros _. split; auto.
    unfold todo, write_todo in T. destruct size; [f_equal|]; lia. }
  assert (Ht : 0 < todo) by (unfold todo, write_todo in *; destruct size; cbn in L; lia).
  destruct (write_chunk (S fuel) o buflen size (Z.min todo buflen) s) as [[s1 e1]|] eqn:C; [|discriminate].
  apply (write_chunk_spec img body offset) in C as (G & F & S); auto; try lia.
  assert (LB : le_size size (w_done s + Z.min todo buflen)).
  { unfold todo, write_todo. destruct size; cbn in *; auto. lia. }
  destruct e1.
  - intros E. destruct (G eq_refl) as (I1 & D1 & _). eapply IH; [| |exact E]; auto. now rewrite D1.
  - intros E; inv E. split; [discriminate|]. split; [|discriminate]. intros _.
    destruct (F eq_refl) as (I1 & _ & ->). auto.
  - intros E; inv E. split; [discriminate|]. split; [discriminate|]. intros x Hx; inv Hx.
    destruct (S x eq_refl) as (N & (m & M1 & M2 & M3 & M4 & M5) & _). split; auto.
    exists m. repeat split; auto; try lia. intros b ->. unfold le_size in LB. specialize (M3 _ eq_refl). lia.
Qed.

Lemma init_winv img body offset : winv img body offset (WSt img offset body 0 [] 0 0 0).
Proof.
  constructor; cbn; auto; try lia; rewrite ?take_nonpos by lia; cbn; auto. 
Qed.

Definition flush_events (flush : bool) : list effect := if flush then [EFlush] else [].

Lemma finish_spec o flush s s' e :
  finish o flush s = (s', e) ->
  w_img s' = w_img s /\ w_body s' = w_body s /\ w_done s' = w_done s /\
  w_log s' = w_log s ++ flush_events flush /\ w_ci s' = w_ci s /\
  ((e = Success /\ (flush = true -> wo_flush o = true)) \/ (e = Failed /\ flush = true /\ wo_flush o = false)).
Proof.
  unfold finish. destruct flush.
  - destruct (wo_flush o) eqn:F; intros E; inv E; cbn; intuition.
  - intros E; inv E. cbn. rewrite app_nil_r. intuition discriminate.
Qed.

(* All the runs of Write. *)
Lemma write_run_spec img body bs buflen offset size flush o fuel s' e :
  0 <= offset -> 0 < bs -> 0 < buflen -> (forall n, size = Some n -> 0 <= n) ->
  write_run fuel img body bs buflen offset size flush o = Some (s', e) ->
  (* not finished *)
  (e <> Success /\ wstop img body offset size s') \/
  (* finished, or flush failed *)
  (exists log, w_log s' = log ++ flush_events flush /\ Forall is_write log /\
    0 <= w_done s' /\ body = take (w_done s') body ++ w_body s' /\
    zlen (take (w_done s') body) = w_done s' /\
    w_img s' = splice img offset (take (w_done s') body) /\
    (forall n, size = Some n -> w_done s' = n) /\
    ((e = Success /\ (flush = true -> wo_flush o = true)) \/ (e = Failed /\ flush = true))).
Proof.
  intros Ho Hs Hb Hz. unfold write_run. cbv zeta.
  pose proof (Z.mod_pos_bound offset bs Hs) as Mb.
  set (s0 := WSt img offset body 0 [] 0 0 0).
  assert (I0 : winv img body offset s0) by apply init_winv.
  assert (T0 : 0 <= write_todo buflen size s0).
  { unfold write_todo, s0. destruct size; cbn; [specialize (Hz _ eq_refl)|]; lia. }
  set (r0 := if offset mod bs =? 0 then _ else _).
  assert (R0 : forall s e, r0 = Some (s, e) ->
    (e = Go -> winv img body offset s /\ le_size size (w_done s)) /\
    (e = Eof -> winv img body offset s /\ size = None) /\
    (forall x, e = Stop x -> x <> Success /\ wstop img body offset size s)).
  { unfold r0. intros s1 e1. destruct (offset mod bs =? 0).
    - intros E; inv E. split; [|split; discriminate]. intros _. split; auto.
      destruct size; cbn; auto.
    - set (c := Z.min _ _). intros E. assert (Hc : 0 <= c) by (unfold c; lia).
      apply (write_chunk_spec img body offset) in E as (G & F & S); auto.
      assert (LB : le_size size (w_done s0 + c)).
      { unfold c, write_todo, s0, le_size. destruct size; auto. cbn [w_done]. lia. }
      split; [intros ->; destruct (G eq_refl) as (? & D & _); split; auto; now rewrite D|].
      split; [intros ->; destruct (F eq_refl) as (? & _ & ?); auto|].
      intros x ->. destruct (S x eq_refl) as (N & (m & M1 & M2 & M3 & M4 & M5) & _). split; auto.
      exists m. repeat split; auto; try lia. intros b ->. unfold le_size in LB. specialize (M3 _ eq_refl). lia. }
  clearbody r0.
  set (r1 := match r0 with Some (s, Go) => _ | _ => _ end).
  assert (R1 : forall s e, r1 = Some (s, e) ->
    (e = Go -> winv img body offset s /\ size = Some (w_done s)) /\
    (e = Eof -> winv img body offset s /\ size = None) /\
    (forall x, e = Stop x -> x <> Success /\ wstop img body offset size s)).
  { unfold r1. intros s1 e1. destruct r0 as [[s2 e2]|]; [|discriminate].
    destruct (R0 s2 e2 eq_refl) as (G & F & S). destruct e2.
    - destruct (G eq_refl) as [I2 L2]. apply write_loop_spec; auto.
    - intros E; inv E. split; [discriminate|]. split; auto.
    - intros E; inv E. split; [discriminate|]. split; [discriminate|auto]. }
  clearbody r1. destruct r1 as [[s1 e1]|]; [|discriminate].
  destruct (R1 s1 e1 eq_refl) as (G & F & S).
  assert (Fin : winv img body offset s1 -> (forall n, size = Some n -> w_done s1 = n) ->
     Some (finish o flush s1) = Some (s', e) -> 
     exists log, w_log s' = log ++ flush_events flush /\ Forall is_write log /\
    0 <= w_done s' /\ body = take (w_done s') body ++ w_body s' /\
    zlen (take (w_done s') body) = w_done s' /\
    w_img s' = splice img offset (take (w_done s') body) /\
    (forall n, size = Some n -> w_done s' = n) /\
    ((e = Success /\ (flush = true -> wo_flush o = true)) \/ (e = Failed /\ flush = true))).
  { intros [] Sz E. injection E as E. apply finish_spec in E as (E1 & E2 & E3 & E4 & _ & E5).
    exists (w_log s1). rewrite E1, E2, E3, E4. repeat split; auto. intuition. }
  destruct e1.
  - intros E. right. destruct (G eq_refl) as [I1 Z1]. apply Fin; auto; intros; congruence.
  - intros E. right. destruct (F eq_refl) as [I1 Z1]. apply Fin; auto; intros; congruence.
  - intros E; inv E. left. auto.
Qed.

(* Termination of Write. *)
Lemma fill_terminates o buflen count : forall fuel s got,
  zlen (w_body s) < Z.of_nat fuel -> exists r, fill fuel o buflen count s got = Some r.
Proof.
  induction fuel as [|fuel IH]; intros s got H; [pose proof (zlen_nonneg (w_body s)); lia|].
  cbn [fill]. destruct (_ <? _); [|eauto]. destruct (wo_read _ _) as [c|]; [|eauto].
  set (n := clamp _ _ _). destruct (n =? 0) eqn:N; [eauto|]. apply IH. cbn.
  assert (0 <= n) by (apply clamp_bounds; pose proof (zlen_nonneg (w_body s)); lia).
  rewrite zlen_drop. pose proof (zlen_nonneg (w_body s)). 
  assert (n <= zlen (w_body s)).
  { unfold n, clamp. lia. }
  lia.
Qed.

Lemma drain_terminates o : forall fuel s data,
  zlen data < Z.of_nat fuel -> exists r, drain fuel o s data = Some r.
Proof.
  induction fuel as [|fuel IH]; intros s data H; [pose proof (zlen_nonneg data); lia|].
  cbn [drain]. destruct data as [|b data]; [eauto|]. destruct (wo_write _ _) as [c|c]; [|eauto].
  apply IH. rewrite zlen_drop. assert (1 <= zlen (b :: data)) by (rewrite zlen_cons; pose proof (zlen_nonneg data); lia).
  pose proof (clamp_bounds 1 (zlen (b :: data)) c H0). lia.
Qed.

Lemma write_chunk_terminates fuel o buflen size count s :
  zlen (w_body s) < Z.of_nat fuel -> exists r, write_chunk fuel o buflen size count s = Some r.
Proof.
  intros H. unfold write_chunk.
  destruct (fill_terminates o buflen count fuel s [] H) as [[[s1 got] r] F]. rewrite F.
  apply fill_spec in F as (d & -> & B & _). destruct r; [eauto|]. cbn [app].
  assert (zlen d < Z.of_nat fuel).
  { rewrite B, zlen_app in H. pose proof (zlen_nonneg (w_body s1)). lia. }
  destruct (drain_terminates o fuel s1 d H0) as [[s2 r] D]. rewrite D. destruct r; [eauto|].
  destruct (_ <? _); [destruct size; eauto|eauto].
Qed.

Lemma winv_rest img body offset s : winv img body offset s -> zlen (w_body s) = zlen body - w_done s.
Proof. intros []. rewrite wi_body0 at 1. rewrite zlen_app. lia. Qed.

Lemma write_loop_terminates img body offset o buflen size : 0 <= offset -> 0 < buflen ->
  forall fuel s, winv img body offset s -> le_size size (w_done s) ->
  zlen (w_body s) < Z.of_nat fuel -> exists r, write_loop fuel o buflen size s = Some r.
Proof.
  intros Ho Hb. induction fuel as [|fuel IH]; intros s I L H; [pose proof (zlen_nonneg (w_body s)); lia|].
  cbn [write_loop]. set (todo := write_todo buflen size s).
  destruct (todo =? 0) eqn:T; [eauto|].
  assert (Ht : 0 < todo) by (unfold todo, write_todo in *; destruct size; cbn in L; lia).
  destruct (write_chunk_terminates (S fuel) o buflen size (Z.min todo buflen) s H) as [[s1 e] C].
  rewrite C. apply (write_chunk_spec img body offset) in C as (G & _ & _); auto; try lia.
  destruct e; eauto. destruct (G eq_refl) as (I1 & D1 & _). apply IH; auto.
  - rewrite D1. unfold todo, write_todo. destruct size; unfold le_size in *; auto. lia.
  - apply winv_rest in I1, I. lia.
Qed.

Lemma write_run_ends fuel img body bs buflen offset size flush o :
  0 <= offset -> 0 < bs -> 0 < buflen -> (forall n, size = Some n -> 0 <= n) ->
  zlen body < Z.of_nat fuel ->
  exists r, write_run fuel img body bs buflen offset size flush o = Some r.
Proof.
  intros Ho Hs Hb Hz Hf. unfold write_run. cbv zeta.
  pose proof (Z.mod_pos_bound offset bs Hs) as Mb.
  set (s0 := WSt img offset body 0 [] 0 0 0).
  assert (I0 : winv img body offset s0) by apply init_winv.
  assert (T0 : 0 <= write_todo buflen size s0).
  { unfold write_todo, s0. destruct size; cbn; [specialize (Hz _ eq_refl)|]; lia. }
  assert (Fu : zlen (w_body s0) < Z.of_nat fuel) by exact Hf.
  assert (L0 : le_size size (w_done s0)) by (unfold le_size; destruct size; cbn; auto).
  destruct (offset mod bs =? 0).
  - destruct (write_loop_terminates img body offset o buflen size Ho Hb _ s0 I0 L0 Fu) as [[s1 e1] ->].
    destruct e1; eauto.
  - set (c := Z.min (write_todo buflen size s0) (bs - offset mod bs)).
    destruct (write_chunk_terminates _ o buflen size c s0 Fu) as [[s1 e1] C]. rewrite C.
    apply (write_chunk_spec img body offset) in C as (G & _ & _); auto; [|lia].
    destruct e1; eauto. destruct (G eq_refl) as (I1 & D1 & _).
    assert (L1 : le_size size (w_done s1)).
    { rewrite D1. unfold c, write_todo, s0, le_size. destruct size; auto. cbn [w_done]. lia. }
    assert (F1 : zlen (w_body s1) < Z.of_nat fuel).
    { apply winv_rest in I1. pose proof (wi_done _ _ _ _ I0). cbn [w_done s0] in D1. lia. }
    destruct (write_loop_terminates img body offset o buflen size Ho Hb _ s1 I1 L1 F1) as [[s2 e2] ->].
    destruct e2; eauto.
Qed.

Lemma write_run_terminates img body bs buflen offset size flush o :
  0 <= offset -> 0 < bs -> 0 < buflen -> (forall n, size = Some n -> 0 <= n) ->
  exists fuel r, write_run fuel img body bs buflen offset size flush o = Some r.
Proof.
  intros Ho Hs Hb Hz. exists (S (Z.to_nat (zlen body))). apply write_run_ends; auto.
  pose proof (zlen_nonneg body). lia.
Qed.

(* Success with a well behaved environment. *)
Definition good_writer (o : woracle) : Prop :=
  (forall i, exists c, wo_read o i = Some c /\ 0 < c) /\
  (forall i, exists c, wo_write o i = WOk c) /\
  (forall i, wo_cancel o i = false) /\ wo_flush o = true.

Lemma fill_good o buflen count : good_writer o -> count <= buflen -> forall fuel s got s' got' r,
  count - zlen got <= zlen (w_body s) -> zlen got <= count ->
  fill fuel o buflen count s got = Some (s', got', r) -> r = None /\ zlen got' = count.
Proof.
  intros (R & _) Hc. induction fuel as [|fuel IH]; cbn [fill]; intros s got s' got' r B L E; [discriminate|].
  destruct (zlen got <? count) eqn:C.
  2:{ inv E. split; auto. lia. }
  destruct (R (w_ri s)) as (c & -> & Pc) in E.
  set (n := clamp 0 (Z.min (Z.max 0 (Z.min count buflen - zlen got)) (zlen (w_body s))) c) in *.
  assert (Hn : 1 <= n <= Z.min (count - zlen got) (zlen (w_body s))) by (unfold n, clamp; lia).
  clearbody n. replace (n =? 0) with false in E by lia.
  apply IH in E; auto; cbn; rewrite zlen_app, zlen_take, ?zlen_drop; lia.
Qed.

Lemma drain_good o : good_writer o -> forall fuel s data s' r,
  drain fuel o s data = Some (s', r) -> r = None.
Proof.
  intros (_ & W & _). induction fuel as [|fuel IH]; cbn [drain]; intros s data s' r E; [discriminate|].
  destruct data; [inv E; auto|]. destruct (W (w_wi s)) as (c & ->) in E. eauto.
Qed.

Lemma write_chunk_good fuel o buflen size count s s' e :
  good_writer o -> 0 <= count <= buflen -> count <= zlen (w_body s) ->
  write_chunk fuel o buflen size count s = Some (s', e) -> e = Go.
Proof.
  intros G Hc Hb. unfold write_chunk.
  destruct (fill fuel o buflen count s []) as [[[s1 got] r]|] eqn:F; [|discriminate].
  apply fill_good in F as [-> L]; auto; rewrite ?zlen_nil; try lia.
  destruct (drain fuel o s1 got) as [[s2 r2]|] eqn:D; [|discriminate].
  apply drain_good in D as ->; auto. replace (zlen got <? count) with false by lia.
  destruct G as (_ & _ & C & _). rewrite C. intros E; inv E. auto.
Qed.

Lemma write_loop_good img body offset o buflen n : 0 <= offset -> 0 < buflen -> good_writer o ->
  n <= zlen body ->
  forall fuel s s' e, winv img body offset s -> w_done s <= n ->
  write_loop fuel o buflen (Some n) s = Some (s', e) -> e = Go.
Proof.
  intros Ho Hb G Hn. induction fuel as [|fuel IH]; intros s s' e I L; [discriminate|].
  cbn [write_loop]. change (write_todo buflen (Some n) s) with (n - w_done s).
  destruct (n - w_done s =? 0) eqn:T; [intros E; inv E; auto|].
  destruct (write_chunk (S fuel) o buflen (Some n) _ s) as [[s1 e1]|] eqn:C; [|discriminate].
  pose proof C as C'. apply write_chunk_good in C'; auto; try lia.
  2:{ apply winv_rest in I. lia. }
  subst. apply (write_chunk_spec img body offset) in C as (G1 & _ & _); auto; try lia.
  destruct (G1 eq_refl) as (I1 & D1 & _). apply IH; auto. lia.
Qed.

Lemma write_run_good img body bs buflen offset n flush o fuel s' e :
  0 <= offset -> 0 < bs <= buflen -> 0 <= n <= zlen body -> good_writer o ->
  write_run fuel img body bs buflen offset (Some n) flush o = Some (s', e) -> e = Success.
Proof.
  intros Ho Hs Hn G. unfold write_run. cbv zeta.
  pose proof (Z.mod_pos_bound offset bs ltac:(lia)) as Mb.
  set (s0 := WSt img offset body 0 [] 0 0 0).
  assert (I0 : winv img body offset s0) by apply init_winv.
  assert (Fin : forall s, Some (finish o flush s) = Some (s', e) -> e = Success).
  { intros s E. injection E as E. unfold finish in E. destruct G as (_ & _ & _ & F). rewrite F in E.
    destruct flush; inv E; auto. }
  destruct (offset mod bs =? 0).
  - destruct (write_loop fuel o buflen (Some n) s0) as [[s1 e1]|] eqn:L; [|discriminate].
    apply (write_loop_good img body offset) in L; auto; cbn; try lia. subst. apply Fin.
  - change (write_todo buflen (Some n) s0) with (n - 0).
    destruct (write_chunk _ _ _ _ _ _) as [[s1 e1]|] eqn:C; [|discriminate].
    pose proof C as C'. apply write_chunk_good in C'; auto; cbn [w_body s0]; try lia. subst e1.
    apply (write_chunk_spec img body offset) in C as (G1 & _ & _); auto; try lia.
    destruct (G1 eq_refl) as (I1 & D1 & _). cbn [w_done s0] in D1.
    destruct (write_loop fuel o buflen (Some n) s1) as [[s2 e2]|] eqn:L; [|discriminate].
    apply (write_loop_good img body offset) in L; auto; try lia. subst. apply Fin.
Qed.

(* Cancellation of Write. *)
Lemma write_chunk_ci fuel o buflen size count s s' e :
  write_chunk fuel o buflen size count s = Some (s', e) ->
  (w_ci s' <= S (w_ci s))%nat /\
  (e = Go -> w_ci s' = S (w_ci s) /\ wo_cancel o (w_ci s) = false) /\
  (e = Eof -> w_ci s' = w_ci s).
Proof.
  unfold write_chunk.
  destruct (fill fuel o buflen count s []) as [[[s1 got] r]|] eqn:F; [|discriminate].
  apply fill_spec in F as (d & _ & _ & _ & _ & _ & _ & _ & C1 & _).
  destruct r. { intros E; inv E. rewrite C1. repeat split; auto; discriminate. }
  destruct (drain fuel o s1 got) as [[s2 r2]|] eqn:D; [|discriminate].
  assert (C2 : w_ci s2 = w_ci s1).
  { revert D. clear. revert s1 got. induction fuel as [|fuel IH]; cbn [drain]; intros s1 got; [discriminate|].
    destruct got; [intros E; inv E; auto|]. destruct (wo_write _ _).
    - intros E. apply IH in E. exact E.
    - intros E; inv E. auto. }
  destruct r2. { intros E; inv E. rewrite C2, C1. repeat split; auto; discriminate. }
  destruct (_ <? _).
  - destruct size; intros E; inv E; cbn; rewrite C2, C1; repeat split; auto; discriminate.
  - rewrite C2, C1. destruct (wo_cancel o (w_ci s)) eqn:K; intros E; inv E; cbn; repeat split; auto; discriminate.
Qed.

Lemma write_loop_ci o buflen size i : wo_cancel o i = true -> forall fuel s s' e,
  (w_ci s <= i)%nat -> write_loop fuel o buflen size s = Some (s', e) -> (w_ci s' <= S i)%nat.
Proof.
  intros K. induction fuel as [|fuel IH]; intros s s' e H; [discriminate|].
  cbn [write_loop]. destruct (_ =? 0). { intros E; inv E. lia. }
  destruct (write_chunk _ _ _ _ _ s) as [[s1 e1]|] eqn:C; [|discriminate].
  apply write_chunk_ci in C as (A & B & _).
  destruct e1; [|intros E; inv E; lia|intros E; inv E; lia].
  destruct (B eq_refl) as [B1 B2]. apply IH. rewrite B1.
  destruct (Nat.eq_dec (w_ci s) i); [congruence|lia].
Qed.

Lemma write_run_ci img body bs buflen offset size flush o i fuel s' e :
  wo_cancel o i = true ->
  write_run fuel img body bs buflen offset size flush o = Some (s', e) -> (w_ci s' <= S i)%nat.
Proof.
  intros K. unfold write_run. cbv zeta. set (s0 := WSt img offset body 0 [] 0 0 0).
  assert (Fin : forall s, (w_ci s <= S i)%nat -> Some (finish o flush s) = Some (s', e) -> (w_ci s' <= S i)%nat).
  { intros s L E. injection E as E. apply finish_spec in E as (_ & _ & _ & _ & E & _). lia. }
  destruct (offset mod bs =? 0).
  - destruct (write_loop fuel o buflen size s0) as [[s1 e1]|] eqn:L; [|discriminate].
    apply (write_loop_ci o buflen size i) in L; auto; [|cbn; lia].
    destruct e1; try (apply Fin; exact L). intros E; inv E. exact L.
  - destruct (write_chunk _ _ _ _ _ _) as [[s1 e1]|] eqn:C; [|discriminate].
    apply write_chunk_ci in C as (A & B & D). cbn [w_ci s0] in *.
    destruct e1.
    + destruct (B eq_refl) as [B1 B2].
      destruct (write_loop fuel o buflen size s1) as [[s2 e2]|] eqn:L; [|discriminate].
      apply (write_loop_ci o buflen size i) in L; auto; [|destruct i; [congruence|lia]].
      destruct e2; try (apply Fin; exact L). intros E; inv E. exact L.
    + apply Fin. lia.
    + intros E; inv E. lia.
Qed.

(* ---- Zero ---- *)

Lemma zero_loop_spec img offset o size : 0 <= offset -> forall fuel s s' r,
  0 <= w_done s <= size -> w_pos s = offset + w_done s ->
  w_img s = splice img offset (zeros (w_done s)) -> Forall is_zero (w_log s) ->
  zero_loop fuel o size s = Some (s', r) ->
  exists m, 0 <= w_done s' <= m /\ m <= size /\ w_img s' = splice img offset (zeros m) /\
    Forall is_zero (w_log s') /\ (r = None -> w_done s' = size /\ m = size) /\
    (r = None \/ r = Some Failed \/ (r = Some Canceled /\ m = w_done s')).
Proof.
  intros Ho. induction fuel as [|fuel IH]; intros s s' r Hd Hp Hi Hl; [discriminate|].
  cbn [zero_loop]. destruct (size - w_done s =? 0) eqn:T.
  { intros E; inv E. exists (w_done s'). repeat split; auto; try lia. }
  remember (Z.min (size - w_done s) MAX_STEP) as stp eqn:Est.
  assert (S1 : 1 <= stp <= size - w_done s) by (unfold MAX_STEP in *; lia). clear Est.
  assert (J : forall n, 0 <= n -> splice (w_img s) (w_pos s) (zeros n) = splice img offset (zeros (w_done s + n))).
  { intros n Hn. rewrite Hi, Hp, <- zeros_app by lia.
    replace (offset + w_done s) with (offset + zlen (zeros (w_done s))) by (rewrite zlen_zeros; lia).
    now rewrite splice_app. }
  destruct (wo_write o (w_wi s)) as [c|c].
  - pose proof (clamp_bounds 1 stp c ltac:(lia)) as Hn. set (n := clamp 1 stp c) in *. clearbody n.
    rewrite J by lia. cbn [w_ci pred].
    destruct (wo_cancel o (w_ci s)).
    + intros E; inv E. exists (w_done s + n). cbn. repeat split; auto; try lia; try discriminate.
      apply Forall_app; split; auto. repeat constructor.
    + intros E. apply IH in E; cbn; auto; try lia.
      apply Forall_app; split; auto. repeat constructor.
  - pose proof (clamp_bounds 0 stp c ltac:(lia)) as Hk. set (k := clamp 0 stp c) in *. clearbody k.
    intros E; inv E. exists (w_done s + k). cbn. rewrite J by lia. repeat split; auto; try lia; try discriminate.
    apply Forall_app; split; auto. repeat constructor.
Qed.

Lemma zero_run_spec img offset size flush o fuel s' e :
  0 <= offset -> 0 <= size ->
  zero_run fuel img offset size flush o = Some (s', e) ->
  (e <> Success /\ exists m, 0 <= w_done s' <= m /\ m <= size /\
     w_img s' = splice img offset (zeros m) /\ Forall is_zero (w_log s')) \/
  (exists log, w_log s' = log ++ flush_events flush /\ Forall is_zero log /\
     w_done s' = size /\ w_img s' = splice img offset (zeros size) /\
     ((e = Success /\ (flush = true -> wo_flush o = true)) \/ (e = Failed /\ flush = true))).
Proof.
  intros Ho Hs. unfold zero_run.
  destruct (zero_loop _ _ _ _) as [[s1 r]|] eqn:L; [|discriminate].
  apply (zero_loop_spec img offset) in L as (m & D & M & I & F & R & O); cbn; auto; try lia.
  destruct r as [x|].
  - intros E; inv E. left. split; [|exists m; auto].
    destruct O as [O|[O|[O _]]]; inv O; discriminate.
  - intros E. injection E as E. apply finish_spec in E as (E1 & E2 & E3 & E4 & _ & E5).
    destruct (R eq_refl) as [R1 ->]. right. exists (w_log s1). rewrite E1, E3, E4.
    repeat split; auto. intuition.
Qed.

Lemma zero_loop_terminates o size : forall fuel s, w_done s <= size ->
  size - w_done s < Z.of_nat fuel -> exists r, zero_loop fuel o size s = Some r.
Proof.
  induction fuel as [|fuel IH]; intros s H L; [lia|]. cbn [zero_loop].
  destruct (size - w_done s =? 0) eqn:T; [eauto|].
  destruct (wo_write o (w_wi s)) as [c|c]; [|eauto].
  pose proof (clamp_bounds 1 (Z.min (size - w_done s) MAX_STEP) c ltac:(unfold MAX_STEP; lia)) as Hn.
  set (n := clamp _ _ c) in *. clearbody n.
  destruct (wo_cancel _ _); [eauto|]. apply IH; cbn [w_done]; lia.
Qed.

Lemma zero_run_ends fuel img offset size flush o :
  0 <= size -> size < Z.of_nat fuel -> exists r, zero_run fuel img offset size flush o = Some r.
Proof.
  intros H F. unfold zero_run.
  destruct (zero_loop_terminates o size fuel (WSt img offset [] 0 [] 0 0 0)) as [[s r] ->];
    cbn [w_done]; try lia. destruct r; eauto.
Qed.

Lemma zero_run_terminates img offset size flush o :
  0 <= size -> exists fuel r, zero_run fuel img offset size flush o = Some r.
Proof. intros H. exists (S (Z.to_nat size)). apply zero_run_ends; lia. Qed.

Lemma zero_loop_good o size : (forall i, exists c, wo_write o i = WOk c) ->
  (forall i, wo_cancel o i = false) -> forall fuel s s' r,
  zero_loop fuel o size s = Some (s', r) -> r = None.
Proof.
  intros W C. induction fuel as [|fuel IH]; intros s s' r; [discriminate|]. cbn [zero_loop].
  destruct (_ =? 0); [intros E; inv E; auto|]. destruct (W (w_wi s)) as (c & ->). rewrite C. apply IH.
Qed.

Lemma zero_run_good img offset size flush o fuel s' e :
  (forall i, exists c, wo_write o i = WOk c) -> (forall i, wo_cancel o i = false) ->
  wo_flush o = true ->
  zero_run fuel img offset size flush o = Some (s', e) -> e = Success.
Proof.
  intros W C F. unfold zero_run. destruct (zero_loop _ _ _ _) as [[s1 r]|] eqn:L; [|discriminate].
  apply zero_loop_good in L as ->; auto. unfold finish. rewrite F.
  destruct flush; intros E; inv E; auto.
Qed.

Lemma zero_loop_ci o size i : wo_cancel o i = true -> forall fuel s s' r,
  (w_ci s <= i)%nat -> zero_loop fuel o size s = Some (s', r) -> (w_ci s' <= S i)%nat.
Proof.
  intros K. induction fuel as [|fuel IH]; intros s s' r H; [discriminate|]. cbn [zero_loop].
  destruct (_ =? 0); [intros E; inv E; lia|]. destruct (wo_write _ _) as [c|c].
  - cbn [w_ci pred]. destruct (wo_cancel o (w_ci s)) eqn:Q; [intros E; inv E; cbn; lia|].
    apply IH. cbn. destruct (Nat.eq_dec (w_ci s) i); [congruence|lia].
  - intros E; inv E; cbn; lia.
Qed.

Lemma zero_run_ci img offset size flush o i fuel s' e :
  wo_cancel o i = true -> zero_run fuel img offset size flush o = Some (s', e) -> (w_ci s' <= S i)%nat.
Proof.
  intros K. unfold zero_run. destruct (zero_loop _ _ _ _) as [[s1 r]|] eqn:L; [|discriminate].
  apply (zero_loop_ci o size i) in L; auto; [|cbn; lia].
  destruct r; [intros E; inv E; auto|]. intros E. injection E as E.
  apply finish_spec in E as (_ & _ & _ & _ & E & _). lia.
Qed.

(* ---- Alignment of writes, with a backend without short writes ---- *)

Definition full_writer (o : woracle) (buflen : Z) : Prop :=
  forall i, exists c, wo_write o i = WOk c /\ buflen <= c.

Definition cut_ok (bs offset stop : Z) (e : effect) : Prop :=
  match e with
  | EWrite p l => (p = offset \/ p mod bs = 0) /\ (p + l = stop \/ (p + l) mod bs = 0)
  | _ => True
  end.

Lemma fill_le o buflen count : forall fuel s got s' got' r,
  zlen got <= buflen -> fill fuel o buflen count s got = Some (s', got', r) -> zlen got' <= buflen.
Proof.
  induction fuel as [|fuel IH]; cbn [fill]; intros s got s' got' r L E; [discriminate|].
  destruct (zlen got <? count) eqn:C; [|inv E; auto].
  destruct (wo_read o (w_ri s)) as [c|]; [|inv E; auto].
  set (n := clamp 0 (Z.min (Z.max 0 (Z.min count buflen - zlen got)) (zlen (w_body s))) c) in *.
  assert (Hn : 0 <= n <= Z.max 0 (Z.min count buflen - zlen got)).
  { unfold n, clamp. pose proof (zlen_nonneg (w_body s)). lia. }
  clearbody n. destruct (n =? 0); [inv E; auto|].
  apply IH in E; auto. rewrite zlen_app, zlen_take. lia.
Qed.

Lemma write_chunk_cut fuel o buflen size count s s' :
  full_writer o buflen -> 0 < buflen -> 0 < count ->
  write_chunk fuel o buflen size count s = Some (s', Go) ->
  w_log s' = w_log s ++ [EWrite (w_pos s) count].
Proof.
  intros W Hb Hc. unfold write_chunk.
  destruct (fill fuel o buflen count s []) as [[[s1 got] r]|] eqn:F; [|discriminate].
  assert (FL : zlen got <= buflen) by (eapply fill_le; [|exact F]; rewrite zlen_nil; lia).
  apply fill_spec in F as (d & -> & B & I1 & P1 & D1 & L1 & W1 & C1 & Z1 & R1). cbn [app] in *.
  destruct r; [discriminate|].
  destruct (drain fuel o s1 d) as [[s2 r2]|] eqn:D; [|discriminate]. destruct r2; [discriminate|].
  destruct (zlen d <? count) eqn:C; [destruct size; discriminate|].
  assert (zlen d = count) by (rewrite zlen_nil in Z1; lia).
  intros E. injection E as E _. rewrite <- E. cbn [w_log].
  destruct fuel as [|fuel]; [discriminate|]. cbn [drain] in D.
  destruct d as [|b d]; [rewrite zlen_nil in *; lia|].
  destruct (W (w_wi s1)) as (c & Wc & Hcc). rewrite Wc in D.
  replace (clamp 1 (zlen (b :: d)) c) with (zlen (b :: d)) in D by (unfold clamp; lia).
  rewrite drop_all in D by lia.
  destruct fuel as [|fuel]; [discriminate|]. cbn [drain] in D. injection D as <-. cbn [w_log].
  rewrite L1, P1. do 3 f_equal. auto.
Qed.

Lemma write_loop_cut img body offset bs o buflen n :
  0 <= offset -> 0 < bs -> 0 < buflen -> buflen mod bs = 0 -> full_writer o buflen ->
  forall fuel s s', winv img body offset s -> w_done s <= n ->
  (w_done s = n \/ (offset + w_done s) mod bs = 0) ->
  Forall (cut_ok bs offset (offset + n)) (w_log s) ->
  write_loop fuel o buflen (Some n) s = Some (s', Go) ->
  Forall (cut_ok bs offset (offset + n)) (w_log s').
Proof.
  intros Ho Hs Hb Hm W. induction fuel as [|fuel IH]; intros s s' I L A F; [discriminate|].
  cbn [write_loop]. change (write_todo buflen (Some n) s) with (n - w_done s).
  destruct (n - w_done s =? 0) eqn:T; [intros E; inv E; auto|].
  destruct (write_chunk (S fuel) o buflen (Some n) _ s) as [[s1 e1]|] eqn:C; [|discriminate].
  destruct e1; [|discriminate|discriminate].
  pose proof C as C'. apply write_chunk_cut in C'; auto; [|lia].
  apply (write_chunk_spec img body offset) in C as (G & _ & _); auto; try lia.
  destruct (G eq_refl) as (I1 & D1 & _). destruct A as [A|A]; [lia|].
  assert (A1 : w_done s1 = n \/ (offset + w_done s1) mod bs = 0).
  { rewrite D1. destruct (Z.min_spec (n - w_done s) buflen) as [[? ->]|[? ->]]; [left; lia|right].
    rewrite Z.add_assoc, Z.add_mod, A, Hm by lia. now apply Z.mod_0_l; lia. }
  apply IH; auto; [lia|]. rewrite C'. apply Forall_app; split; auto. constructor; [|constructor].
  destruct I as [_ _ _ _ Ip _]. cbn [cut_ok]. rewrite Ip. split; [auto|].
  replace (offset + w_done s + Z.min (n - w_done s) buflen) with (offset + w_done s1) by lia.
  destruct A1; [left; lia|auto].
Qed.

Lemma write_run_cut img body bs buflen offset n flush o fuel s' :
  0 <= offset -> 0 < bs -> 0 < buflen -> buflen mod bs = 0 -> 0 <= n -> full_writer o buflen ->
  write_run fuel img body bs buflen offset (Some n) flush o = Some (s', Success) ->
  Forall (cut_ok bs offset (offset + n)) (w_log s').
Proof.
  intros Ho Hs Hb Hm Hn W. unfold write_run. cbv zeta.
  pose proof (Z.mod_pos_bound offset bs Hs) as Mb.
  set (s0 := WSt img offset body 0 [] 0 0 0).
  assert (I0 : winv img body offset s0) by apply init_winv.
  change (write_todo buflen (Some n) s0) with (n - 0).
  set (r0 := if offset mod bs =? 0 then _ else _).
  assert (R0 : forall s e, r0 = Some (s, e) ->
    match e with
    | Go => winv img body offset s /\ w_done s <= n /\ (w_done s = n \/ (offset + w_done s) mod bs = 0) /\
        Forall (cut_ok bs offset (offset + n)) (w_log s)
    | Eof => False
    | Stop x => x <> Success end).
  { unfold r0. intros s e. destruct (offset mod bs =? 0) eqn:Z0.
    - intros E; inv E. split; auto. cbn [w_done w_log s0]. split; [lia|].
      split; [right; rewrite Z.add_0_r; lia|constructor].
    - intros C. destruct (Z.eq_dec n 0) as [->|Nz].
      + replace (Z.min (0 - 0) (bs - offset mod bs)) with 0 in C by lia.
        assert (e = Go -> w_log s = w_log s0).
        { intros ->. revert C. unfold write_chunk. destruct fuel as [|fuel]; [discriminate|].
          cbn. destruct (wo_cancel o 0); intros E; inv E; reflexivity. }
        apply (write_chunk_spec img body offset) in C as (G & F & S); auto; try lia.
        destruct e.
        * destruct (G eq_refl) as (I1 & D1 & _). cbn [w_done s0] in D1. split; auto. split; [lia|].
          split; [left; lia|]. rewrite (H eq_refl). constructor.
        * destruct (F eq_refl) as (_ & _ & ?). discriminate.
        * now destruct (S _ eq_refl).
      + pose proof C as C'. apply (write_chunk_spec img body offset) in C as (G & F & S); auto; try lia.
        destruct e.
        * destruct (G eq_refl) as (I1 & D1 & _). cbn [w_done s0] in D1.
          apply write_chunk_cut in C'; auto; [|lia].
          assert (A1 : w_done s = n \/ (offset + w_done s) mod bs = 0).
          { rewrite D1. destruct (Z.min_spec (n - 0) (bs - offset mod bs)) as [[? ->]|[? ->]]; [left; lia|right].
            replace (offset + (0 + (bs - offset mod bs))) with (bs * (offset / bs + 1)).
            - rewrite Z.mul_comm. apply Z.mod_mul. lia.
            - pose proof (Z.div_mod offset bs ltac:(lia)). lia. }
          split; auto. split; [lia|]. split; auto. rewrite C'. cbn [w_log s0 app w_pos].
          constructor; [|constructor]. cbn [cut_ok]. split; auto.
          replace (offset + Z.min (n - 0) (bs - offset mod bs)) with (offset + w_done s) by lia.
          destruct A1; [left; lia|auto].
        * destruct (F eq_refl) as (_ & _ & ?). discriminate.
        * now destruct (S _ eq_refl). }
  clearbody r0. destruct r0 as [[s1 e1]|]; [|discriminate].
  specialize (R0 s1 e1 eq_refl).
  assert (Fin : forall s, Forall (cut_ok bs offset (offset + n)) (w_log s) ->
     Some (finish o flush s) = Some (s', Success) -> Forall (cut_ok bs offset (offset + n)) (w_log s')).
  { intros s F E. injection E as E. apply finish_spec in E as (_ & _ & _ & E4 & _). rewrite E4.
    apply Forall_app; split; auto. destruct flush; repeat constructor. }
  destruct e1; [|tauto|intros E; inv E; tauto].
  destruct R0 as (I1 & D1 & A1 & F1).
  destruct (write_loop fuel o buflen (Some n) s1) as [[s2 e2]|] eqn:L; [|discriminate].
  destruct e2.
  - apply Fin. eapply write_loop_cut; [| | | | |exact I1| | | |exact L]; auto.
  - exfalso. apply (write_loop_spec img body offset) in L as (_ & L & _); auto.
    destruct (L eq_refl) as [_ ?]. discriminate.
  - intros E; inv E. apply (write_loop_spec img body offset) in L as (_ & _ & L); auto.
    destruct (L _ eq_refl) as [? _]. tauto.
Qed.
