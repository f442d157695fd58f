From Coq Require Import ZArith List Bool Ascii String Lia.
From Verif Require Import BytesLib HeaderModel HeaderSpec HttpModel OpsTheorems ImagesModel HttpBackendModel
  HttpBackendProofs GoModel GoSpec.
Import ListNotations.
Open Scope Z_scope.

Definition max64 : Z := 2 ^ 64.
Definition good (p : Z * Z) : Prop := is_u32 (fst p) /\ is_u32 (snd p).
Fixpoint sum (ps : list (Z * Z)) : Z := match ps with [] => 0 | (l, _) :: ps => l + sum ps end.

Lemma u64_id n : 0 <= n < 2 ^ 64 -> u64 n = n.
Proof. apply Z.mod_small. Qed.
Lemma u32_id n : 0 <= n < 4294967296 -> u32 n = n.
Proof. apply Z.mod_small. Qed.
Lemma min_eq a b : GoModel.min a b = Z.min a b.
Proof. unfold GoModel.min. destruct (Z.ltb_spec a b); lia. Qed.

Lemma sum_app ps qs : sum (ps ++ qs) = sum ps + sum qs.
Proof. induction ps as [|[l f] ps IH]; cbn; lia. Qed.
Lemma sum_nonneg ps : Forall good ps -> 0 <= sum ps.
Proof. induction 1 as [|[l f] ps [H _] _ IH]; cbn in *; unfold is_u32 in *; lia. Qed.
Lemma entries_app ps qs : entries_of (ps ++ qs) = entries_of ps ++ entries_of qs.
Proof. induction ps as [|[l f] ps IH]; cbn; congruence. Qed.

(* ---- collecting ---- *)

Lemma says_app flags size qs : forall o ps,
  says flags size o (ps ++ qs) <-> says flags size o ps /\ says flags size (o + sum ps) qs.
Proof.
  intros o ps. revert o. induction ps as [|[l f] ps IH]; intros o; cbn [app says sum].
  - rewrite Z.add_0_r. tauto.
  - rewrite IH, Z.add_assoc. tauto.
Qed.

Lemma collect_spec size : size < 2 ^ 64 -> forall ps offset got, Forall good ps -> 0 <= offset <= size ->
  exists qs, collect size (entries_of ps) offset got = Returns (offset + sum qs, got ++ entries_of qs) /\
    Forall good qs /\ offset + sum qs <= size /\
    (forall flags, says flags size offset ps -> says flags size offset qs) /\
    (Forall (fun p => 0 < fst p) ps -> Forall (fun p => 0 < fst p) qs) /\
    (ps <> [] -> Forall (fun p => 0 < fst p) ps -> offset < size -> 0 < sum qs).
Proof.
  intros SZ. induction ps as [|[l f] ps IH]; intros offset got G O; cbn [entries_of collect].
  - exists []. cbn. rewrite Z.add_0_r, app_nil_r. repeat split; auto; try lia. tauto.
  - destruct (Z.ltb_spec offset size) as [L|L].
    2:{ exists []. cbn. rewrite Z.add_0_r, app_nil_r. repeat split; auto; try lia. }
    inversion G as [|? ? [G1 G2] G3]; subst. cbn [fst snd] in *. unfold is_u32 in G1.
    rewrite min_eq, (u64_id (size - offset)) by lia. set (m := Z.min (size - offset) l).
    assert (0 <= m <= l /\ m <= size - offset /\ (m = l \/ m = size - offset)) as (M1 & M2 & M3) by (unfold m; lia).
    clearbody m.
    rewrite (u32_id m), u64_id by lia.
    destruct (IH (offset + m) (got ++ [m; f]) G3 ltac:(lia)) as (qs & E & Q1 & Q2 & Q3 & Q4 & _).
    exists ((m, f) :: qs). rewrite E. cbn [sum entries_of says].
    split. { rewrite <- app_assoc, Z.add_assoc. reflexivity. }
    split. { constructor; auto. split; auto. cbn. unfold is_u32. lia. }
    split; [lia|]. split; [|split].
    + intros flags (S1 & S2 & S3 & S4). split; [unfold is_u32; lia|]. split; [auto|].
      split; [intros i I1 I2; apply S3; lia|].
      destruct (Z.eq_dec m l) as [->|N]; [apply Q3; auto|].
      assert (m = size - offset) by lia.
      assert (X : offset + m = size) by lia.
      assert (SM : sum qs = 0) by (pose proof (sum_nonneg qs Q1); lia). clear -Q1 SM X.
      rewrite X. revert SM Q1. generalize size. induction qs as [|[a b] qs IH]; intros sz SM Q; [exact I|].
      inversion Q as [|? ? [Q1 Q2] Q3]; subst. cbn in *. pose proof (sum_nonneg qs Q3). unfold is_u32 in Q1.
      assert (a = 0) by lia. subst a. split; [unfold is_u32; lia|]. split; [auto|]. split; [intros; lia|].
      rewrite Z.add_0_r. apply IH; auto; lia.
    + intros P. inversion P as [|? ? P1 P2]; subst. cbn in P1. constructor; [cbn; lia|auto].
    + intros _ P _. inversion P as [|? ? P1 P2]; subst. cbn in P1. pose proof (sum_nonneg qs Q1). lia.
Qed.

Section Libnbd.
Variable libnbd : nat -> Z -> Z -> status.

Lemma fold_callback cs : forall r0, let r := fold_left callback cs r0 in r = r0 \/ In (true, r, 0) cs.
Proof.
  induction cs as [|[[b e] x] cs IH]; intros r0; cbn; auto.
  destruct (IH (callback r0 (b, e, x))) as [H|H]; [|auto]. cbn in H. rewrite H. cbn.
  destruct b; cbn; auto. destruct (Z.eqb_spec x 0) as [->|N]; auto.
Qed.

Lemma fold_callback_in cs e : In (true, e, 0) cs -> forall r0, In (true, fold_left callback cs r0, 0) cs.
Proof.
  revert e. induction cs as [|[[b x] y] cs IH]; intros e H r0; [destruct H|]. destruct H as [H|H]; cbn.
  - injection H as -> -> ->. cbn. destruct (fold_callback cs e) as [-> | F]; auto.
  - right. eapply IH; eauto.
Qed.

Lemma blockStatus_spec : forall tries n r0 offset length x n',
  blockStatus libnbd tries n r0 offset length = (x, n') ->
  (forall r, x = Returns r ->
     r = r0 \/ exists k, In (true, r, 0) (s_calls (libnbd k offset length))) /\
  (forall e, x = Fails e -> e <> EINTR /\ exists k, s_err (libnbd k offset length) = Some e) /\ x <> Panics.
Proof.
  induction tries as [|tries IH]; intros n r0 offset length x n' E; cbn in E.
  - injection E as <- <-. repeat split; discriminate.
  - destruct (s_err _) as [e|] eqn:S.
    + destruct (Z.eqb_spec e EINTR) as [->|N].
      * apply IH in E as (A & B). split; auto. intros r R. apply A in R as [->|R]; auto.
        destruct (fold_callback (s_calls (libnbd n offset length)) r0); eauto.
      * injection E as <- <-. split; [discriminate|]. split; [|discriminate]. intros e1 [= <-]. eauto.
    + injection E as <- <-. split; [|split; discriminate]. intros r [= <-].
      destruct (fold_callback (s_calls (libnbd n offset length)) r0); eauto.
Qed.

Lemma extents_loop_spec size tries : gives_pairs libnbd -> size < 2 ^ 64 ->
  forall rounds n offset got x, 0 <= offset <= size ->
  extents_loop libnbd rounds tries n size offset got = x ->
  x <> Panics /\
  (forall e, x = Fails e -> e <> EINTR /\ exists k o l, 0 <= o /\ 0 < l <= maxExtent /\ o + l <= size /\ s_err (libnbd k o l) = Some e) /\
  forall r, x = Returns r -> exists qs, r = got ++ entries_of qs /\ Forall good qs /\ offset + sum qs = size /\
    (forall flags, truthful flags size libnbd -> says flags size offset qs) /\
    (positive libnbd -> Forall (fun p => 0 < fst p) qs).
Proof.
  intros GP SZ. induction rounds as [|rounds IH]; intros n offset got x O E; cbn in E.
  { subst x. repeat split; try discriminate. }
  destruct (Z.ltb_spec offset size) as [L|L].
  2:{ subst x. split; [discriminate|]. split; [discriminate|]. intros r [= <-]. exists []. cbn.
      rewrite app_nil_r. repeat split; auto. lia. }
  destruct (blockStatus _ _ _ _ _ _) as [b n1] eqn:B. pose proof B as B'.
  apply blockStatus_spec in B as (B1 & B2 & B3). rewrite min_eq, u64_id in * by lia.
  set (len := Z.min (size - offset) maxExtent) in *.
  assert (LEN : 0 < len <= maxExtent /\ offset + len <= size) by (unfold len, maxExtent; lia).
  destruct b as [r|e| |].
  - assert (R : exists ps, r = entries_of ps /\ Forall good ps /\
        (forall flags, truthful flags size libnbd -> says flags size offset ps) /\
        (positive libnbd -> Forall (fun p => 0 < fst p) ps)).
    { destruct (B1 r eq_refl) as [->|(k & K)].
      - exists []. cbn. auto.
      - destruct (GP _ _ _ _ K) as (ps & -> & F). exists ps. split; auto. split; auto. split.
        + intros flags T. destruct (T _ _ _ _ K) as (ps' & EQ & SY).
          replace ps with ps'; auto. clear -EQ. revert ps' EQ. induction ps as [|[a b] ps IH]; intros [|[c d] ps'] EQ; try discriminate; auto.
          cbn in EQ. injection EQ as -> -> EQ. f_equal. auto.
        + intros P. eapply P; eauto. }
    destruct R as (ps & -> & R1 & R2 & R3).
    destruct (collect_spec size SZ ps offset got R1 O) as (qs & C & Q1 & Q2 & Q3 & Q4 & _).
    rewrite C in E. pose proof (sum_nonneg qs Q1) as NN.
    apply IH in E as (E1 & E2 & E3); [|lia]. split; auto. split; auto.
    intros r X. apply E3 in X as (qs' & -> & F1 & F2 & F3 & F4). exists (qs ++ qs').
    rewrite entries_app, sum_app, app_assoc. split; auto. split; [apply Forall_app; auto|]. split; [lia|]. split.
    + intros flags T. apply says_app. split; auto.
    + intros P. apply Forall_app. auto.
  - subst x. split; [discriminate|]. split; [|discriminate]. intros e1 [= <-].
    destruct (B2 e eq_refl) as (N & k & K). split; auto. exists k, offset, len. repeat split; auto; lia.
  - congruence.
  - subst x. repeat split; discriminate.
Qed.

(* ---- termination ---- *)

Lemma blockStatus_ends offset length m : (forall n, (m <= n)%nat -> s_err (libnbd n offset length) <> Some EINTR) ->
  forall tries n r0, (m < tries + n)%nat -> (0 < tries)%nat -> fst (blockStatus libnbd tries n r0 offset length) <> Loops.
Proof.
  intros M. induction tries as [|tries IH]; intros n r0 T P; [lia|]. cbn.
  destruct (s_err _) as [e|] eqn:S; [|discriminate].
  destruct (Z.eqb_spec e EINTR) as [->|N]; [|discriminate].
  destruct (le_lt_dec m n) as [L|L]; [destruct (M n L S)|]. apply IH; lia.
Qed.

Lemma blockStatus_ok : replies libnbd -> forall tries n r0 offset length r n',
  blockStatus libnbd tries n r0 offset length = (Returns r, n') ->
  r <> [] /\ exists k, In (true, r, 0) (s_calls (libnbd k offset length)).
Proof.
  intros [_ RP]. induction tries as [|tries IH]; intros n r0 offset length r n' E; cbn in E; [discriminate|].
  destruct (s_err _) as [e|] eqn:S.
  - destruct (e =? EINTR); [eauto|discriminate].
  - injection E as <- <-. destruct (RP _ _ _ S) as (e & I & P). apply fold_callback_in with (r0 := r0) in I. eauto.
Qed.

Lemma extents_loop_ends size : gives_pairs libnbd -> positive libnbd -> replies libnbd -> size < 2 ^ 64 ->
  exists tries, forall rounds n offset got, 0 <= offset <= size -> size - offset < Z.of_nat rounds ->
    extents_loop libnbd rounds tries n size offset got <> Loops.
Proof.
  intros GP PO RP SZ. destruct RP as [[m M] RP']. exists (S m). remember (S m) as tr eqn:TR.
  induction rounds as [|rounds IH]; intros n offset got O R; [lia|]. cbn [extents_loop].
  destruct (Z.ltb_spec offset size) as [L|L]; [|discriminate].
  destruct (blockStatus _ _ _ _ _ _) as [b n1] eqn:B.
  pose proof (blockStatus_ends offset (GoModel.min (u64 (size - offset)) maxExtent) m (fun n => M n _ _) tr n [] ltac:(lia) ltac:(lia)) as ND.
  rewrite B in ND. cbn [fst] in ND. destruct b as [r|e| |]; try discriminate; [|congruence].
  apply blockStatus_ok in B as (NE & k & K); [|split; eauto].
  destruct (GP _ _ _ _ K) as (ps & -> & F).
  destruct (collect_spec size SZ ps offset got F O) as (qs & C & Q1 & Q2 & _ & _ & Q5). rewrite C.
  assert (0 < sum qs). { apply Q5; auto. - intros ->. apply NE. reflexivity. - eapply PO; eauto. }
  apply IH; lia.
Qed.

End Libnbd.

(* Only the replies to requests inside of the image matter. *)
Lemma blockStatus_ext f g offset length : (forall n, f n offset length = g n offset length) ->
  forall tries n r0, blockStatus f tries n r0 offset length = blockStatus g tries n r0 offset length.
Proof.
  intros H. induction tries as [|tries IH]; intros n r0; cbn; auto. rewrite (H n).
  destruct (s_err _); auto. destruct (_ =? _); auto.
Qed.

Lemma extents_loop_ext f g size tries : size < 2 ^ 64 -> gives_pairs f ->
  (forall n o l, 0 <= o -> 0 < l <= maxExtent -> o + l <= size -> f n o l = g n o l) ->
  forall rounds n offset got, 0 <= offset <= size ->
  extents_loop f rounds tries n size offset got = extents_loop g rounds tries n size offset got.
Proof.
  intros SZ GP H. induction rounds as [|rounds IH]; intros n offset got O; cbn; auto.
  destruct (Z.ltb_spec offset size) as [L|L]; auto.
  rewrite min_eq, u64_id by lia. rewrite (blockStatus_ext f g).
  2:{ intros k. apply H; unfold maxExtent; lia. }
  destruct (blockStatus g _ _ _ _ _) as [b n1] eqn:B. destruct b as [r|e| |]; auto.
  assert (exists ps, r = entries_of ps /\ Forall good ps) as (ps & -> & F).
  { rewrite <- (blockStatus_ext f g) in B by (intros k; apply H; unfold maxExtent; lia).
    apply blockStatus_spec in B as (B & _). destruct (B r eq_refl) as [->|(k & K)]; [exists []; auto|].
    apply GP in K. exact K. }
  destruct (collect_spec size SZ ps offset got F O) as (qs & C & Q1 & Q2 & _). rewrite C.
  pose proof (sum_nonneg qs Q1). apply IH. lia.
Qed.

(* ---- the values ---- *)

Lemma merge_spec f : forall ps l, Forall good ps -> 0 <= l -> l + sum ps < 2 ^ 64 ->
  exists p1 p2, ps = p1 ++ p2 /\ merge f l (entries_of ps) = (l + sum p1, entries_of p2) /\
    Forall (fun p => snd p = f) p1 /\ match p2 with [] => True | p :: _ => snd p <> f end.
Proof.
  induction ps as [|[a b] ps IH]; intros l G L B; cbn [entries_of merge].
  - exists [], []. cbn. rewrite Z.add_0_r. auto.
  - inversion G as [|? ? [G1 G2] G3]; subst. cbn in *. unfold is_u32 in *. pose proof (sum_nonneg ps G3).
    destruct (Z.eqb_spec f b) as [->|N].
    + rewrite u64_id by lia. destruct (IH (l + a) G3 ltac:(lia) ltac:(lia)) as (p1 & p2 & -> & E & F1 & F2).
      exists ((a, b) :: p1), p2. rewrite E. cbn. split; auto. split; [f_equal; lia|]. auto.
    + exists [], ((a, b) :: ps). cbn. rewrite Z.add_0_r. auto.
Qed.

Lemma zero_bit f : (Z.land f STATE_ZERO =? STATE_ZERO) = Z.testbit f 1.
Proof.
  unfold STATE_ZERO. destruct (Z.testbit f 1) eqn:T.
  - apply Z.eqb_eq. apply Z.bits_inj'. intros i I. rewrite Z.land_spec.
    destruct (Z.eq_dec i 1) as [->|N]; [rewrite T; reflexivity|].
    replace (Z.testbit 2 i) with false; [rewrite andb_false_r; auto|].
    symmetry. apply (Z.pow2_bits_false 1 i). lia.
  - apply Z.eqb_neq. intros H. apply (f_equal (fun x => Z.testbit x 1)) in H.
    rewrite Z.land_spec, T in H. discriminate.
Qed.

Fixpoint distinct_next (fs : list Z) : Prop :=
  match fs with a :: (b :: _) as r => a <> b /\ distinct_next r | _ => True end.

Lemma values_spec : forall fuel ps start, (List.length (entries_of ps) <= fuel)%nat -> Forall good ps ->
  0 <= start -> start + sum ps < 2 ^ 64 ->
  exists fs, let l := values fuel (Iter (entries_of ps) start) in
    tiles l start (start + sum ps) /\ distinct_next fs /\
    match ps, fs with [], [] => True | p :: _, f :: _ => snd p = f | _, _ => False end /\
    Forall2 (fun e f => e_zero e = Z.testbit f 1) l fs /\
    (forall flags size, says flags size start ps -> start + sum ps <= size ->
       Forall2 (fun e f => forall i, inside i e -> flags i = f) l fs) /\
    (Forall (fun p => 0 < fst p) ps -> Forall (fun e => 0 < e_length e) l).
Proof.
  induction fuel as [|fuel IH]; intros ps start LE G ST B.
  - destruct ps as [|[a b] ps]; [|cbn in LE; lia]. exists []. cbn. repeat split; auto. lia.
  - destruct ps as [|[l f] ps].
    { exists []. cbn. repeat split; auto. lia. }
    inversion G as [|? ? [G1 G2] G3]; subst. cbn [fst snd] in *. unfold is_u32 in *.
    pose proof (sum_nonneg ps G3) as NN. cbn [sum] in B.
    destruct (merge_spec f ps l G3 ltac:(lia) ltac:(lia)) as (p1 & p2 & -> & E & F1 & F2).
    rewrite sum_app in *. apply Forall_app in G3 as (G31 & G32).
    pose proof (sum_nonneg _ G31). pose proof (sum_nonneg _ G32).
    destruct (IH p2 (start + (l + sum p1))) as (fs & T & D & H1 & Z & Y & P); auto; try lia.
    { cbn in LE. rewrite entries_app, app_length in LE. lia. }
    exists (f :: fs). cbn [values]. unfold next. cbn [i_rest entries_of].
    replace (0 <? zlen (l :: f :: entries_of (p1 ++ p2)) - 1) with true.
    2:{ symmetry. apply Z.ltb_lt. rewrite !zlen_cons. pose proof (zlen_nonneg (entries_of (p1 ++ p2))). lia. }
    unfold value. cbn [i_rest i_start]. rewrite E. rewrite u64_id by lia. cbn [tiles e_start e_length sum snd].
    split; [|split; [|split; [|split; [|split]]]].
    + split; auto. split; [lia|]. rewrite sum_app. replace (start + (l + (sum p1 + sum p2))) with (start + (l + sum p1) + sum p2) by lia. exact T.
    + destruct fs as [|f2 fs]; cbn; auto. split; [|exact D]. destruct p2 as [|p p2]; [destruct H1|]. congruence.
    + reflexivity.
    + constructor; auto. cbn. apply zero_bit.
    + intros flags size (S1 & S2 & S3 & S4) LE2. rewrite sum_app in LE2. apply says_app in S4 as (S4 & S5). constructor.
      * unfold inside. cbn. intros i I. destruct (Z_lt_le_dec i (start + l)) as [IL|IL]; [apply S3; lia|].
        assert (I' : start + l <= i < start + l + sum p1) by lia. clear -S4 F1 I' LE2 G31 H0.
        assert (SZ : i < size) by lia. clear LE2 H0. revert I' S4. generalize (start + l).
        induction p1 as [|[a b] p1 IH]; intros o I S; cbn in *; [lia|].
        inversion F1; subst. inversion G31; subst. destruct S as (S1 & S2 & S3 & S4). cbn in *. subst b || idtac.
        destruct (Z_lt_le_dec i (o + a)); [apply S3; lia|]. apply IH with (o + a); auto. lia.
      * apply (Y flags size); [|lia]. rewrite <- Z.add_assoc in S5. exact S5.
    + intros PP. inversion PP as [|? ? P1 P2]; subst. cbn in P1. apply Forall_app in P2 as (P2 & P3). constructor; [cbn; lia|auto].
Qed.

(* ---- text ---- *)

Lemma spaces_nil : spaces [].
Proof. intros c []. Qed.
Lemma spaces_one c : is_space c -> spaces [c].
Proof. intros H d [<-|[]]. auto. Qed.

Lemma show_json n : 0 <= n -> json_text (JInt n) (show n).
Proof.
  intros H. constructor; [apply show_decimal; auto|].
  unfold show. replace (n <? 0) with false by lia.
  assert (X : forall fuel m, 0 < m -> m < 2 ^ Z.of_nat fuel -> exists c r, rev (rdigits fuel m) = c :: r /\ c <> "0"%char).
  { induction fuel as [|fuel IH]; intros m M1 M2; [cbn in M2; lia|]. cbn [rdigits].
    destruct (Z.ltb_spec m 10) as [L|L].
    - cbn. eexists _, []. split; [reflexivity|]. unfold digit_chr. rewrite Z.mod_small by lia.
      assert (m = 1 \/ m = 2 \/ m = 3 \/ m = 4 \/ m = 5 \/ m = 6 \/ m = 7 \/ m = 8 \/ m = 9) as D by lia.
      decompose [or] D; subst m; discriminate.
    - cbn [rev]. destruct (IH (m / 10)) as (c & r & -> & C).
      + apply Z.div_str_pos. lia.
      + rewrite Nat2Z.inj_succ, Z.pow_succ_r in M2 by lia. apply Z.div_lt_upper_bound; lia.
      + exists c, (r ++ [digit_chr (m mod 10)]). auto. }
  destruct (Z.eq_dec n 0) as [->|N]; [left; reflexivity|]. right.
  apply X; [lia|]. rewrite Nat2Z.inj_succ, Z2Nat.id by apply Z.log2_nonneg. apply Z.log2_spec. lia.
Qed.

Lemma key_text k : (forall c, In c k -> plain_char c) -> json_string k (lit """" ++ k ++ lit """").
Proof.
  intros H. exists [], []. split; [rewrite app_nil_r; reflexivity|]. split; [apply spaces_nil|]. split; [apply spaces_nil|auto].
Qed.
Lemma key_text_space k : (forall c, In c k -> plain_char c) -> json_string k (lit " " ++ lit """" ++ k ++ lit """").
Proof.
  intros H. exists (lit " "), []. split; [rewrite app_nil_r; reflexivity|].
  split; [apply spaces_one; left; reflexivity|]. split; [apply spaces_nil|auto].
Qed.

Lemma plain_check k : forallb (fun c => (N.leb 32 (N_of_ascii c) && N.ltb (N_of_ascii c) 127)%N &&
    negb (Ascii.eqb c """"%char) && negb (Ascii.eqb c "\"%char)) k = true -> forall c, In c k -> plain_char c.
Proof.
  intros H c I. rewrite forallb_forall in H. apply H in I. apply andb_prop in I as (I & I3). apply andb_prop in I as (I & I2).
  apply andb_prop in I as (I & I1). apply N.leb_le in I. apply N.ltb_lt in I1. apply negb_true_iff in I2, I3.
  apply Ascii.eqb_neq in I2, I3. repeat split; auto.
Qed.

Lemma value_space j s : json_text j s -> json_text j (lit " " ++ s).
Proof.
  intros H. rewrite <- (app_nil_r s). apply text_spaces; auto using spaces_nil. apply spaces_one. left. reflexivity.
Qed.

Lemma show_extent_json e : 0 <= e_start e -> 0 <= e_length e -> json_text (extent_json e) (show_extent e).
Proof.
  intros A B. unfold extent_json, show_extent.
  replace (lits "{""start"": " ++ show (e_start e) ++ lits ", ""length"": " ++ show (e_length e) ++
    lits ", ""zero"": " ++ show_bool (e_zero e) ++ lits "}")
  with (lit "{" ++ ((lit """" ++ lit "start" ++ lit """") ++ lit ":" ++ (lit " " ++ show (e_start e)) ++ lit "," ++
    ((lit " " ++ lit """" ++ lit "length" ++ lit """") ++ lit ":" ++ (lit " " ++ show (e_length e)) ++ lit "," ++
    ((lit " " ++ lit """" ++ lit "zero" ++ lit """") ++ lit ":" ++ (lit " " ++ show_bool (e_zero e))))) ++ lit "}").
  2:{ cbn [lit lits list_ascii_of_string app]. repeat (rewrite <- app_assoc; cbn [app]). reflexivity. }
  apply text_obj. apply more_members; [apply key_text, plain_check; reflexivity|apply value_space, show_json; auto| |discriminate].
  apply more_members; [apply key_text_space, plain_check; reflexivity|apply value_space, show_json; auto| |discriminate].
  apply one_member; [apply key_text_space, plain_check; reflexivity|apply value_space].
  destruct (e_zero e); constructor.
Qed.

Lemma write_loop_json l : Forall (fun e => 0 <= e_start e /\ 0 <= e_length e) l ->
  (l <> [] -> exists r, write_loop false l = lit "," ++ r /\ elements (map extent_json l) r) /\
  elements (map extent_json l) (write_loop true l).
Proof.
  induction 1 as [|e l [H1 H2] F IH].
  - split; [tauto|]. constructor.
  - pose proof (show_extent_json e H1 H2) as J.
    assert (G : forall s, json_text (extent_json e) s -> elements (map extent_json (e :: l)) (s ++ write_loop false l)).
    { intros s S. destruct l as [|e2 l2].
      - cbn. rewrite app_nil_r. constructor. auto.
      - destruct IH as [(r & -> & R) _]; [discriminate|]. apply more_elements; auto. discriminate. }
    split.
    + intros _. cbn [write_loop]. exists ([ascii_of_N 10; " "%char] ++ show_extent e ++ write_loop false l).
      split. { unfold separator. rewrite <- app_assoc. reflexivity. }
      rewrite app_assoc. apply G. rewrite <- (app_nil_r (show_extent e)).
      apply text_spaces; auto using spaces_nil. intros c [<-|[<-|[]]]; [right; right; left|left]; reflexivity.
    + cbn [write_loop app]. apply G. auto.
Qed.

Lemma writeExtents_json l : Forall (fun e => 0 <= e_start e /\ 0 <= e_length e) l ->
  json_text (JList (map extent_json l)) (writeExtents l).
Proof.
  intros F. apply write_loop_json in F as [_ F]. unfold writeExtents.
  replace (lits "[" ++ write_loop true l ++ lits "]" ++ [ascii_of_N 10])
    with ([] ++ (lit "[" ++ write_loop true l ++ lit "]") ++ [ascii_of_N 10]).
  2:{ cbn [app]. rewrite <- !app_assoc. reflexivity. }
  apply text_spaces; auto using spaces_nil.
  - apply text_list. auto.
  - apply spaces_one. right. right. left. reflexivity.
Qed.

Lemma tiles_nonneg l : forall a b, 0 <= a -> tiles l a b -> Forall (fun e => 0 <= e_start e /\ 0 <= e_length e) l.
Proof.
  induction l as [|e l IH]; intros a b A T; auto. cbn in T. destruct T as (<- & L & T). constructor; auto.
  eapply IH; [|exact T]. lia.
Qed.
