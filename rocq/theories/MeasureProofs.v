From Coq Require Import ZArith List Bool Lia Permutation.
From Verif Require Import MeasureModel.
Import ListNotations.
Open Scope Z_scope.

Definition wf (r : range) : Prop := start r <= stop r.

(* closed cover, and cover of the unit step [x, x+1) *)
Definition pt (l : list range) (x : Z) : Prop :=
  exists r, In r l /\ start r <= x <= stop r.
Definition cov (l : list range) (x : Z) : Prop :=
  exists r, In r l /\ start r <= x < stop r.

(* canonical: well formed and strictly separated *)
Fixpoint canon (l : list range) : Prop :=
  match l with
  | [] => True
  | r :: l' => wf r /\ Forall (fun y => stop r < start y) l' /\ canon l'
  end.

Fixpoint ssorted (l : list range) : Prop :=
  match l with
  | [] => True
  | r :: l' => Forall (fun y => start r <= start y) l' /\ ssorted l'
  end.

Lemma range_lt_start a b : range_lt a b = true -> start a <= start b.
Proof.
  unfold range_lt. destruct (start a <? start b) eqn:E; [lia|].
  destruct (start a =? start b) eqn:E2; [lia|discriminate].
Qed.

Lemma range_lt_false_start a b : range_lt a b = false -> start b <= start a.
Proof.
  unfold range_lt. destruct (start a <? start b) eqn:E; [discriminate|].
  intros _; lia.
Qed.

Lemma insort_perm r l : Permutation (insort_left r l) (r :: l).
Proof.
  induction l as [|x l IH]; cbn; auto.
  destruct (range_lt x r); auto.
  rewrite IH. apply perm_swap.
Qed.

Lemma sort_perm l : Permutation (sort_ranges l) l.
Proof.
  induction l as [|x l IH]; cbn; auto.
  rewrite insort_perm. auto.
Qed.

Lemma Forall_perm {A} (P : A -> Prop) l l' :
  Permutation l l' -> Forall P l -> Forall P l'.
Proof. intros H; rewrite !Forall_forall. intros F x I. apply F.
  eapply Permutation_in; [symmetry; eauto|auto]. Qed.

Lemma insort_ssorted r l : ssorted l -> ssorted (insort_left r l).
Proof.
  induction l as [|x l IH]; cbn; auto.
  intros [F S]. destruct (range_lt x r) eqn:E; cbn.
  - split; auto. eapply Forall_perm; [symmetry; apply insort_perm|].
    constructor; auto. now apply range_lt_start.
  - split; [|auto]. constructor; [now apply range_lt_false_start|].
    apply range_lt_false_start in E. eapply Forall_impl; [|exact F].
    cbn; intros; lia.
Qed.

Lemma sort_ssorted l : ssorted (sort_ranges l).
Proof. induction l; cbn; auto using insort_ssorted. Qed.

Lemma canon_ssorted l : canon l -> ssorted l.
Proof.
  induction l as [|x l IH]; cbn; auto.
  intros (W & F & C). split; auto. eapply Forall_impl; [|exact F].
  unfold wf in *; cbn; intros; lia.
Qed.

Lemma canon_wf l : canon l -> Forall wf l.
Proof. induction l; cbn; intuition. Qed.

Lemma merge_loop_spec rest : forall c,
  wf c -> Forall wf rest -> ssorted (c :: rest) ->
  canon (merge_loop c rest) /\
  Forall (fun y => start c <= start y) (merge_loop c rest) /\
  (forall x, pt (merge_loop c rest) x <-> pt (c :: rest) x) /\
  (forall x, cov (merge_loop c rest) x <-> cov (c :: rest) x).
Proof.
  induction rest as [|r rest IH]; intros c Wc Wr [Fc Ss]; cbn [merge_loop].
  - cbn. repeat split; auto; try tauto. constructor; auto; lia.
  - inversion Fc as [|? ? Hcr Fc']; subst. inversion Wr as [|? ? Wr1 Wr2]; subst.
    cbn in Ss. destruct Ss as [Fr Ss].
    destruct (start r <=? stop c) eqn:E.
    + specialize (IH (Range (start c) (Z.max (stop c) (stop r)))).
      unfold wf in *. cbn in IH.
      destruct IH as (C & F & P & V); auto; [lia|].
      split; [auto|]. split; [auto|].
      split; intros x; [rewrite P|rewrite V].
      * unfold pt; split.
        -- intros (y & [<-|I] & H); cbn in H.
           ++ destruct (Z_le_dec x (stop c)).
              ** exists c; cbn; split; auto; lia.
              ** exists r; cbn; split; auto; lia.
           ++ exists y; cbn; auto.
        -- intros (y & [<-|[<-|I]] & H).
           ++ eexists; split; [left; reflexivity|cbn; lia].
           ++ eexists; split; [left; reflexivity|cbn; lia].
           ++ exists y; cbn; auto.
      * unfold cov; split.
        -- intros (y & [<-|I] & H); cbn in H.
           ++ destruct (Z_lt_dec x (stop c)).
              ** exists c; cbn; split; auto; lia.
              ** exists r; cbn; split; auto; lia.
           ++ exists y; cbn; auto.
        -- intros (y & [<-|[<-|I]] & H).
           ++ eexists; split; [left; reflexivity|cbn; lia].
           ++ eexists; split; [left; reflexivity|cbn; lia].
           ++ exists y; cbn; auto.
    + destruct (IH r) as (C & F & P & V); auto; [split; auto|].
      assert (F2 : Forall (fun y => stop c < start y) (merge_loop r rest)).
      { eapply Forall_impl; [|exact F]. cbn; intros; lia. }
      split; [cbn; auto|]. split.
      { constructor; [lia|]. eapply Forall_impl; [|exact F2].
        unfold wf in *; cbn; intros; lia. }
      split; intros x.
      * unfold pt in *; split.
        -- intros (y & [<-|I] & H); [exists c; cbn; auto|].
           destruct (proj1 (P x)) as (z & I2 & H2); [eauto|]. exists z; cbn in *; auto.
        -- intros (y & [<-|I] & H); [exists c; cbn; auto|].
           destruct (proj2 (P x)) as (z & I2 & H2); [eauto|]. exists z; cbn in *; auto.
      * unfold cov in *; split.
        -- intros (y & [<-|I] & H); [exists c; cbn; auto|].
           destruct (proj1 (V x)) as (z & I2 & H2); [eauto|]. exists z; cbn in *; auto.
        -- intros (y & [<-|I] & H); [exists c; cbn; auto|].
           destruct (proj2 (V x)) as (z & I2 & H2); [eauto|]. exists z; cbn in *; auto.
Qed.

Lemma merged_spec l :
  Forall wf l -> ssorted l ->
  canon (merged l) /\
  (forall x, pt (merged l) x <-> pt l x) /\
  (forall x, cov (merged l) x <-> cov l x).
Proof.
  destruct l as [|c l]; cbn [merged]; [cbn; intuition|].
  intros W S. inversion W; subst.
  destruct (merge_loop_spec l c) as (A & B & C & D); auto.
Qed.

Lemma pt_perm l l' x : Permutation l l' -> pt l x <-> pt l' x.
Proof.
  intros H. unfold pt. split; intros (r & I & R); exists r; split; auto.
  - eapply Permutation_in; eauto.
  - eapply Permutation_in; [symmetry; eauto|auto].
Qed.
Lemma cov_perm l l' x : Permutation l l' -> cov l x <-> cov l' x.
Proof.
  intros H. unfold cov. split; intros (r & I & R); exists r; split; auto.
  - eapply Permutation_in; eauto.
  - eapply Permutation_in; [symmetry; eauto|auto].
Qed.

Lemma pt_cons r l x : pt (r :: l) x <-> start r <= x <= stop r \/ pt l x.
Proof.
  unfold pt; split.
  - intros (y & [<-|I] & H); eauto.
  - intros [H|(y & I & H)]; [exists r|exists y]; cbn; auto.
Qed.
Lemma cov_cons r l x : cov (r :: l) x <-> start r <= x < stop r \/ cov l x.
Proof.
  unfold cov; split.
  - intros (y & [<-|I] & H); eauto.
  - intros [H|(y & I & H)]; [exists r|exists y]; cbn; auto.
Qed.
Lemma pt_app l1 l2 x : pt (l1 ++ l2) x <-> pt l1 x \/ pt l2 x.
Proof.
  unfold pt; split.
  - intros (y & I & H); apply in_app_or in I; destruct I; eauto.
  - intros [(y & I & H)|(y & I & H)]; exists y; split; auto; apply in_or_app; auto.
Qed.
Lemma cov_app l1 l2 x : cov (l1 ++ l2) x <-> cov l1 x \/ cov l2 x.
Proof.
  unfold cov; split.
  - intros (y & I & H); apply in_app_or in I; destruct I; eauto.
  - intros [(y & I & H)|(y & I & H)]; exists y; split; auto; apply in_or_app; auto.
Qed.

Lemma rl_add_spec l r :
  canon l -> wf r ->
  canon (rl_add l r) /\
  (forall x, pt (rl_add l r) x <-> pt (r :: l) x) /\
  (forall x, cov (rl_add l r) x <-> cov (r :: l) x).
Proof.
  intros C W. unfold rl_add.
  destruct (merged_spec (insort_left r l)) as (A & P & V).
  - eapply Forall_perm; [symmetry; apply insort_perm|].
    constructor; auto using canon_wf.
  - apply insort_ssorted, canon_ssorted, C.
  - split; auto. split; intros x.
    + rewrite P. apply pt_perm, insort_perm.
    + rewrite V. apply cov_perm, insort_perm.
Qed.

Lemma rl_update_spec l rs :
  Forall wf l -> Forall wf rs ->
  canon (rl_update l rs) /\
  (forall x, pt (rl_update l rs) x <-> pt (l ++ rs) x) /\
  (forall x, cov (rl_update l rs) x <-> cov (l ++ rs) x).
Proof.
  intros W1 W2. unfold rl_update.
  destruct (merged_spec (sort_ranges (l ++ rs))) as (A & P & V).
  - eapply Forall_perm; [symmetry; apply sort_perm|]. apply Forall_app; auto.
  - apply sort_ssorted.
  - split; auto. split; intros x.
    + rewrite P. apply pt_perm, sort_perm.
    + rewrite V. apply cov_perm, sort_perm.
Qed.

Lemma fold_add_spec rs : forall l,
  canon l -> Forall wf rs ->
  let l' := fold_left rl_add rs l in
  canon l' /\
  (forall x, pt l' x <-> pt (l ++ rs) x) /\
  (forall x, cov l' x <-> cov (l ++ rs) x).
Proof.
  induction rs as [|r rs IH]; intros l C W; cbn.
  - rewrite app_nil_r. intuition.
  - inversion W; subst. destruct (rl_add_spec l r) as (A & P & V); auto.
    destruct (IH (rl_add l r)) as (A' & P' & V'); auto.
    split; auto. split; intros x.
    + rewrite P', pt_app, P, pt_app, !pt_cons. tauto.
    + rewrite V', cov_app, V, cov_app, !cov_cons. tauto.
Qed.

(* canonical lists are determined by what they cover *)
Lemma canon_head_min r l x : canon (r :: l) -> pt (r :: l) x -> start r <= x.
Proof.
  intros (W & F & C) H. apply pt_cons in H. destruct H as [H|(y & I & H)]; [lia|].
  rewrite Forall_forall in F. specialize (F _ I). unfold wf in W. lia.
Qed.

Lemma canon_pt_gap r l x :
  canon (r :: l) -> stop r < x -> pt (r :: l) x -> pt l x.
Proof. intros _ L H. apply pt_cons in H. destruct H; [lia|auto]. Qed.

Lemma canon_tail_gt r l x : canon (r :: l) -> pt l x -> stop r < x.
Proof.
  intros (W & F & C) (y & I & H). rewrite Forall_forall in F.
  specialize (F _ I). lia.
Qed.

Lemma canon_tail_cov_gt r l x : canon (r :: l) -> cov l x -> stop r < x.
Proof.
  intros (W & F & C) (y & I & H). rewrite Forall_forall in F.
  specialize (F _ I). lia.
Qed.

(* end of the first range: everything in [start, stop) is covered and stop is not *)
Lemma canon_stop_not_cov r l : canon (r :: l) -> ~ cov (r :: l) (stop r).
Proof.
  intros C H. apply cov_cons in H. destruct H; [lia|].
  pose proof (canon_tail_cov_gt _ _ _ C H). lia.
Qed.

Lemma canon_unique l1 : forall l2,
  canon l1 -> canon l2 ->
  (forall x, pt l1 x <-> pt l2 x) ->
  (forall x, cov l1 x <-> cov l2 x) ->
  l1 = l2.
Proof.
  induction l1 as [|r1 l1 IH]; intros [|r2 l2] C1 C2 P V; auto.
  - exfalso. destruct (proj2 (P (start r2))) as (y & [] & _).
    apply pt_cons. left. destruct C2 as (W & _). unfold wf in W. lia.
  - exfalso. destruct (proj1 (P (start r1))) as (y & [] & _).
    apply pt_cons. left. destruct C1 as (W & _). unfold wf in W. lia.
  - assert (W1 : wf r1) by (destruct C1; auto).
    assert (W2 : wf r2) by (destruct C2; auto). unfold wf in *.
    assert (S : start r1 = start r2).
    { assert (start r2 <= start r1).
      { eapply canon_head_min; eauto. apply P, pt_cons. left; lia. }
      assert (start r1 <= start r2).
      { eapply canon_head_min; eauto. apply P, pt_cons. left; lia. }
      lia. }
    assert (T : stop r1 = stop r2).
    { destruct (Z.lt_trichotomy (stop r1) (stop r2)) as [H|[H|H]]; auto; exfalso.
      - apply (canon_stop_not_cov _ _ C1), V, cov_cons. left; lia.
      - apply (canon_stop_not_cov _ _ C2), V, cov_cons. left; lia. }
    assert (R : r1 = r2) by (destruct r1, r2; cbn in *; congruence). subst r2.
    f_equal. apply IH.
    + destruct C1 as (_ & _ & ?); auto.
    + destruct C2 as (_ & _ & ?); auto.
    + intros x; split; intros H.
      * pose proof (canon_tail_gt _ _ _ C1 H).
        assert (Q : pt (r1 :: l2) x) by (apply P, pt_cons; auto).
        apply pt_cons in Q. destruct Q; [lia|auto].
      * pose proof (canon_tail_gt _ _ _ C2 H).
        assert (Q : pt (r1 :: l1) x) by (apply P, pt_cons; auto).
        apply pt_cons in Q. destruct Q; [lia|auto].
    + intros x; split; intros H.
      * pose proof (canon_tail_cov_gt _ _ _ C1 H).
        assert (Q : cov (r1 :: l2) x) by (apply V, cov_cons; auto).
        apply cov_cons in Q. destruct Q; [lia|auto].
      * pose proof (canon_tail_cov_gt _ _ _ C2 H).
        assert (Q : cov (r1 :: l1) x) by (apply V, cov_cons; auto).
        apply cov_cons in Q. destruct Q; [lia|auto].
Qed.

Lemma completed_perm rs rs' :
  Forall wf rs -> Permutation rs rs' -> completed_after rs = completed_after rs'.
Proof.
  intros W H. unfold completed_after.
  destruct (fold_add_spec rs []) as (A & P & V); cbn; auto.
  destruct (fold_add_spec rs' []) as (A' & P' & V'); cbn; auto.
  { eapply Forall_perm; eauto. }
  apply canon_unique; auto; intros x.
  - rewrite P, P'. apply pt_perm; auto.
  - rewrite V, V'. apply cov_perm; auto.
Qed.

(* offsets of a range, as a list *)
Definition offsets (r : range) : list Z :=
  map (fun i => start r + Z.of_nat i) (seq 0 (Z.to_nat (stop r - start r))).

Lemma in_offsets r x : In x (offsets r) <-> start r <= x < stop r.
Proof.
  unfold offsets. rewrite in_map_iff. split.
  - intros (i & <- & I). apply in_seq in I. lia.
  - intros H. exists (Z.to_nat (x - start r)). split; [lia|]. apply in_seq. lia.
Qed.

Lemma nodup_offsets r : NoDup (offsets r).
Proof.
  unfold offsets. apply FinFun.Injective_map_NoDup; [|apply seq_NoDup].
  intros a b H. lia.
Qed.

Lemma length_offsets r : length (offsets r) = Z.to_nat (stop r - start r).
Proof. unfold offsets. now rewrite map_length, seq_length. Qed.

Lemma NoDup_app_intro {A} (l1 l2 : list A) :
  NoDup l1 -> NoDup l2 -> (forall x, In x l1 -> ~ In x l2) -> NoDup (l1 ++ l2).
Proof.
  induction l1 as [|a l1 IH]; cbn; auto. intros N1 N2 D.
  inversion N1; subst. constructor.
  - rewrite in_app_iff. intros [H|H]; [auto|]. eapply D; eauto.
  - apply IH; auto.
Qed.

Lemma canon_enum l : canon l ->
  let xs := flat_map offsets l in
  NoDup xs /\ (forall x, In x xs <-> cov l x) /\
  rl_sum l = Some (Z.of_nat (length xs)).
Proof.
  induction l as [|r l IH]; intros C; cbn.
  - split; [constructor|]. split; auto. intros x; split; [intros []|].
    intros (y & [] & _).
  - pose proof C as (W & F & C'). destruct (IH C') as (N & I & S). unfold wf in W.
    split; [|split].
    + apply NoDup_app_intro; auto using nodup_offsets.
      intros x H1 H2. apply in_offsets in H1. apply I in H2.
      pose proof (canon_tail_cov_gt _ _ _ C H2). lia.
    + intros x. rewrite in_app_iff, in_offsets, I, cov_cons. tauto.
    + unfold range_len. destruct (stop r - start r <? 0) eqn:E; [lia|].
      rewrite S, app_length, length_offsets. f_equal. lia.
Qed.

Lemma transferred_spec done ongoing :
  Forall wf done -> Forall wf ongoing ->
  exists xs, NoDup xs /\
    (forall x, In x xs <-> cov (done ++ ongoing) x) /\
    transferred 1 (completed_after done) ongoing = Bytes (Z.of_nat (length xs)).
Proof.
  intros W1 W2. unfold completed_after, transferred. cbn [Nat.ltb Nat.leb].
  destruct (fold_add_spec done []) as (A & P & V); cbn; auto. cbn in *.
  destruct (rl_update_spec (fold_left rl_add done []) ongoing) as (B & _ & V'); auto.
  { apply canon_wf; auto. }
  destruct (canon_enum _ B) as (N & I & S).
  eexists; split; [exact N|]. split.
  - intros x. rewrite I, V', !cov_app, V. tauto.
  - now rewrite S.
Qed.

Lemma cov_count_unique (xs ys : list Z) :
  NoDup xs -> NoDup ys -> (forall x, In x xs <-> In x ys) -> length xs = length ys.
Proof. intros. apply Permutation_length, NoDup_Permutation; auto. Qed.

Lemma transferred_mono done ongoing r n m :
  Forall wf done -> Forall wf ongoing -> wf r ->
  transferred 1 (completed_after done) ongoing = Bytes n ->
  transferred 1 (completed_after (done ++ [r])) ongoing = Bytes m ->
  n <= m.
Proof.
  intros W1 W2 W H1 H2.
  destruct (transferred_spec done ongoing) as (xs & N & I & E); auto.
  destruct (transferred_spec (done ++ [r]) ongoing) as (ys & N' & I' & E'); auto.
  { apply Forall_app; auto. }
  rewrite E in H1. rewrite E' in H2. inversion H1; inversion H2; subst.
  enough (length xs <= length ys)%nat by lia.
  apply NoDup_incl_length; auto. intros x Hx. apply I', I in Hx || idtac.
  apply I'. apply I in Hx. rewrite !cov_app in *. tauto.
Qed.
