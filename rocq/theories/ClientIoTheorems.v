(* Theorems about the client copy: C33, C34, C35, C36, C51. *)
From Coq Require Import ZArith List Bool Lia Permutation.
From Coq.Strings Require Import Byte.
From Verif Require Import BytesLib OpsModel ExtentsModel ExtentsSpec ClientIoModel ClientIoSpec
  ClientIoProofs ClientIoSched ClientIoLive ClientIoTerm.
Import ListNotations.
Open Scope Z_scope.

(* ---- C33: requests cover the extents ---- *)

Theorem split_covers : forall r, 0 <= r_length r ->
  covers (r_op r) (128 * 1024 * 1024) (r_start r) (r_start r + r_length r) (split_request r).
Proof.
  intros r L. unfold split_request.
  replace (match r_op r with ZERO => MAX_ZERO_SIZE | _ => MAX_COPY_SIZE end) with (128 * 1024 * 1024)
    by (destruct (r_op r); reflexivity).
  apply split_loop_covers; lia.
Qed.

(* 300 MiB are split in three requests. *)
Example split_covers_case :
  split_request (Request COPY 4096 (300 * 1024 * 1024)) =
  [Request COPY 4096 (128 * 1024 * 1024);
   Request COPY (4096 + 128 * 1024 * 1024) (128 * 1024 * 1024);
   Request COPY (4096 + 256 * 1024 * 1024) (44 * 1024 * 1024)].
Proof. vm_compute. reflexivity. Qed.

(* The requests for an extent: none if it is not to be copied, otherwise they
   cover the extent, and are zero requests only for an extent that reads as
   zeros. *)
Definition zero_of (e : image_extent) : bool :=
  match e with ZeroExtent _ _ z _ | DirtyExtent _ _ _ z => z end.
Definition kind_ok (dirty : bool) (e : image_extent) : Prop :=
  match e with ZeroExtent _ _ _ _ => dirty = false | DirtyExtent _ _ _ _ => dirty = true end.

Theorem extent_requests : forall dirty zero hole e, kind_ok dirty e -> 0 <= length_of e ->
  if selected zero hole e
  then covers (if zero_of e then ZERO else COPY) (128 * 1024 * 1024)
         (start_of e) (start_of e + length_of e) (requests (plan dirty zero hole [e]))
  else requests (plan dirty zero hole [e]) = [].
Proof.
  intros dirty zero hole e K L. unfold plan.
  destruct e as [s n z h|s n dd z]; cbn in K; subst dirty; cbn -[submit].
  - destruct z; cbn -[submit].
    + destruct (zero && (negb h || hole)); cbn -[submit]; auto.
      rewrite app_nil_r, requests_submit. apply (split_covers (Request ZERO s n)). auto.
    + rewrite app_nil_r, requests_submit. apply (split_covers (Request COPY s n)). auto.
  - destruct dd, z; cbn -[submit]; auto; rewrite app_nil_r, requests_submit.
    + apply (split_covers (Request ZERO s n)). auto.
    + apply (split_covers (Request COPY s n)). auto.
Qed.

Example extent_requests_case :
  selected true false (ZeroExtent 0 100 true true) = false /\
  selected true false (ZeroExtent 0 (200 * 1024 * 1024) true false) = true /\
  requests (plan false true false [ZeroExtent 4096 (200 * 1024 * 1024) true false]) =
  [Request ZERO 4096 (128 * 1024 * 1024);
   Request ZERO (4096 + 128 * 1024 * 1024) (72 * 1024 * 1024)].
Proof. vm_compute. auto. Qed.

(* ---- helpers about the plan ---- *)

Lemma plan_single dirty zero hole e l :
  plan dirty zero hole (e :: l) = plan dirty zero hole [e] ++ plan dirty zero hole l.
Proof. unfold plan. destruct dirty; cbn; now rewrite app_nil_r. Qed.

Lemma plan_in dirty zero hole src exts a size r :
  tiles a size exts -> honest_extents dirty src exts ->
  In r (requests (plan dirty zero hole exts)) ->
  exists e, In e exts /\ selected zero hole e = true /\
    r_op r = (if zero_of e then ZERO else COPY) /\
    start_of e <= r_start r /\ 0 <= r_length r /\
    r_start r + r_length r <= start_of e + length_of e.
Proof.
  intros T. induction T as [a|a b e l S L T IH]; intros H I.
  - unfold plan in I. destruct dirty; contradiction.
  - rewrite plan_single, requests_app in I. apply in_app_iff in I. destruct I as [I|I].
    + exists e. split; [now left|]. specialize (H e (or_introl eq_refl)).
      unfold plan in I. destruct e as [s n z h|s n dd z]; destruct H as [-> _];
        cbn -[submit] in *; rewrite app_nil_r in I.
      * destruct z; cbn -[submit] in *.
        -- destruct (zero && (negb h || hole)); cbn -[submit] in *; [|contradiction].
           rewrite requests_submit in I. apply split_request_in in I; [|cbn; lia].
           cbn in I. intuition.
        -- rewrite requests_submit in I. apply split_request_in in I; [|cbn; lia].
           cbn in I. intuition.
      * destruct dd, z; cbn -[submit] in *; try contradiction;
          rewrite requests_submit in I; apply split_request_in in I; cbn in *; intuition.
    + destruct IH as (x & X & Y); auto.
      * intros y Y. apply H. now right.
      * exists x. split; auto. now right.
Qed.

Lemma plan_covered dirty zero hole src exts e i :
  honest_extents dirty src exts -> In e exts -> selected zero hole e = true -> within e i ->
  exists r, In r (requests (plan dirty zero hole exts)) /\ in_req r i.
Proof.
  intros H I S W. induction exts as [|x l IH]; [contradiction|].
  rewrite plan_single, requests_app. destruct I as [->|I].
  - specialize (H e (or_introl eq_refl)). unfold within in W.
    assert (X : exists op, requests (plan dirty zero hole [e]) = split_request (Request op (start_of e) (length_of e))).
    { unfold plan. destruct e as [s n z h|s n dd z]; destruct H as [-> _]; cbn -[submit split_request] in *;
        rewrite app_nil_r.
      - destruct z; cbn -[submit split_request] in *; [rewrite S|];
          rewrite requests_submit; eauto.
      - subst dd. destruct z; cbn -[submit split_request] in *; rewrite requests_submit; eauto. }
    destruct X as [op X]. rewrite X.
    destruct (split_request_cover (Request op (start_of e) (length_of e)) i) as (r & R & Q); [cbn; lia|].
    exists r. split; auto. apply in_app_iff. auto.
  - destruct IH as (r & R & Q); auto.
    + intros y Y. apply H. now right.
    + exists r. split; auto. apply in_app_iff. auto.
Qed.

Lemma total_fold l : ClientIoSched.total l = fold_right Z.add 0 (map r_length l).
Proof. induction l; cbn; congruence. Qed.

Lemma skips_submit r : skips (submit r) = 0.
Proof. unfold submit. induction (split_request r); auto. Qed.

Lemma plan_total dirty zero hole src exts a size :
  tiles a size exts -> honest_extents dirty src exts ->
  ClientIoSched.total (requests (plan dirty zero hole exts)) + skips (plan dirty zero hole exts) = size - a.
Proof.
  intros T. induction T as [a|a b e l S L T IH]; intros H.
  - unfold plan. destruct dirty; cbn; lia.
  - rewrite plan_single, requests_app, total_app, skips_app.
    assert (X : ClientIoSched.total (requests (plan dirty zero hole [e])) + skips (plan dirty zero hole [e]) = length_of e).
    { specialize (H e (or_introl eq_refl)). unfold plan.
      assert (SUB : forall op s n, ClientIoSched.total (requests (submit (Request op s n))) + skips (submit (Request op s n)) = n).
      { intros. rewrite requests_submit, skips_submit, total_fold, split_request_total. cbn. lia. }
      destruct e as [s n z h|s n dd z]; destruct H as [-> _]; cbn -[submit]; rewrite app_nil_r.
      - destruct z; cbn -[submit]; auto. destruct (zero && (negb h || hole)); auto. cbn. lia.
      - destruct dd, z; cbn -[submit]; auto; cbn; lia. }
    assert (IH' := IH (fun y Y => H y (or_intror Y))). lia.
Qed.

Lemma tiles_within a b l e i : tiles a b l -> In e l -> within e i -> a <= i < b.
Proof.
  intros T. induction T as [a|a b x l S L T IH]; intros I W; [contradiction|].
  assert (a + length_of x <= b) by (clear - T L; induction T; lia).
  destruct I as [->|I]; [unfold within in W; lia|]. specialize (IH I W). lia.
Qed.

Lemma tiles_disjoint a b l e e' i : tiles a b l -> In e l -> In e' l -> within e i -> within e' i -> e = e'.
Proof.
  intros T. induction T as [a|a b x l S L T IH]; intros I I' W W'; [contradiction|].
  destruct I as [->|I], I' as [->|I']; auto.
  - pose proof (tiles_within _ _ _ _ _ T I' W'). unfold within in W. lia.
  - pose proof (tiles_within _ _ _ _ _ T I W). unfold within in W'. lia.
Qed.

Lemma tiles_find a b l i : tiles a b l -> a <= i < b -> exists e, In e l /\ within e i.
Proof.
  intros T. induction T as [a|a b x l S L T IH]; intros B; [lia|].
  destruct (Z_lt_dec i (a + length_of x)).
  - exists x. split; [now left|]. unfold within. lia.
  - destruct IH as (e & I & W); [lia|]. exists e. split; auto. now right.
Qed.

(* The plan meets what the content invariant needs. *)
Lemma plan_ok_req src m buf dirty zero hole exts r :
  tiles 0 (zlen src) exts -> honest_extents dirty src exts ->
  In r (requests (plan dirty zero hole exts)) ->
  ok_req (copy_config src m buf dirty zero hole exts) (getb src) (zlen src) r.
Proof.
  intros T H I. destruct (plan_in _ _ _ _ _ _ _ _ T H I) as (e & E & S & O & B1 & B2 & B3).
  assert (BD : 0 <= start_of e /\ start_of e + length_of e <= zlen src).
  { assert (P : 0 < length_of e).
    { clear - T E. revert T E. generalize 0 at 1. intros a T E.
      induction T; [contradiction|]. destruct E as [->|E]; auto. }
    pose proof (tiles_within _ _ _ e (start_of e) T E ltac:(unfold within; lia)).
    pose proof (tiles_within _ _ _ e (start_of e + length_of e - 1) T E ltac:(unfold within; lia)). lia. }
  unfold ok_req. repeat split; try lia. rewrite O. destruct (zero_of e) eqn:Z0.
  - intros i W. unfold in_req in W. specialize (H e E).
    destruct e; cbn in Z0; subst; destruct H as [_ H]; apply H; auto; unfold within; lia.
  - split; [cbn; lia|]. auto.
Qed.

Lemma plan_no_stop dirty zero hole src exts size r :
  tiles 0 size exts -> honest_extents dirty src exts ->
  In r (requests (plan dirty zero hole exts)) -> is_stop r = false.
Proof.
  intros T H I. destruct (plan_in _ _ _ _ _ _ _ _ T H I) as (e & _ & _ & O & _).
  unfold is_stop. rewrite O. now destruct (zero_of e).
Qed.

(* ---- C34: content after a copy ---- *)

Section Copy.

Variables (src d : list byte) (m : mode) (buf : Z) (dirty zero hole : bool).
Variables (exts : list image_extent) (depth : nat) (n : Z).
Let c := copy_config src m buf dirty zero hole exts.

Lemma copy_bytes tr s :
  0 < buf -> tiles 0 (zlen src) exts -> honest_extents dirty src exts ->
  Forall complete tr -> exec c tr (init depth n d) = Some s ->
  dinv c d (getb src) (zlen src) s.
Proof.
  intros B T H F E. eapply exec_dinv; eauto.
  - intros r I. apply plan_ok_req; auto.
  - cbn. unfold MAX_BUFFER_SIZE. lia.
Qed.

Lemma copy_success tr s :
  tiles 0 (zlen src) exts -> honest_extents dirty src exts ->
  exec c tr (init depth n d) = Some s -> main s = MDone true ->
  Permutation (requests (f_plan c)) (done s) /\
  progress s = zlen src /\
  Forall (fun w => w_dirty w = false) (workers s) /\
  q_got (q s) = requests (f_plan c) ++ repeat (Request STOP 0 0) (1 + Z.to_nat (n - 1)).
Proof.
  intros T H E M.
  set (N := (1 + Z.to_nat (n - 1))%nat).
  assert (NP : (0 < N)%nat) by (unfold N; lia).
  assert (NS : forall r, In r (all_reqs c) -> is_stop r = false)
    by (intros r I; exact (plan_no_stop dirty zero hole src exts (zlen src) r T H I)).
  assert (G : good c N (init depth n d) \/ bad (init depth n d)).
  { left. apply init_good. reflexivity. }
  destruct (exec_good_or_bad c N NP tr _ _ G E) as [G'|B].
  - destruct (success_done c N NS NP s G' M) as (P1 & P2 & P3 & P4).
    repeat split; auto. rewrite P2. unfold all_reqs. cbn [f_plan c copy_config].
    rewrite (plan_total dirty zero hole src exts 0 (zlen src) T H). lia.
  - unfold bad in B. rewrite M in B. discriminate.
Qed.

End Copy.

(* Any mode, buffer size, queue depth, number of workers, order of the steps.
   Missing, see copy_short_write_refuted: backends that do less than asked for
   without raising. *)
Theorem copy_content_partial : forall src d m buf dirty zero hole exts depth n tr s,
  0 < buf -> tiles 0 (zlen src) exts -> honest_extents dirty src exts ->
  Forall complete tr ->
  exec (copy_config src m buf dirty zero hole exts) tr (init depth n d) = Some s ->
  main s = MDone true ->
  copied zero hole src d exts (dst s).
Proof.
  intros src d m buf dirty zero hole exts depth n tr s B T H F E M.
  pose proof (copy_bytes src d m buf dirty zero hole exts depth n tr s B T H F E) as D.
  destruct (copy_success src d m buf dirty zero hole exts depth n tr s T H E M) as (P & _).
  split; [|apply (d_size _ _ _ _ _ D)].
  intros e i I W. destruct (selected zero hole e) eqn:S.
  - destruct (plan_covered dirty zero hole src exts e i H I S W) as (r & R & Q).
    eapply (d_done _ _ _ _ _ D r); eauto. eapply Permutation_in; [exact P|]. exact R.
  - pose proof (tiles_within _ _ _ _ _ T I W).
    destruct (d_bytes _ _ _ _ _ D i) as [X|[(r & R & Q) X]]; auto; [lia|]. exfalso.
    destruct (plan_in _ _ _ _ _ _ _ _ T H R) as (e' & I' & S' & _ & B1 & B2 & B3).
    unfold in_req in Q.
    rewrite (tiles_disjoint _ _ _ e e' i T I I' W) in S; [congruence|]. unfold within. lia.
Qed.

(* Copying everything gives the source. *)
Theorem copy_identical_partial : forall src d m buf exts depth n tr s,
  0 < buf -> tiles 0 (zlen src) exts -> honest_extents false src exts ->
  zlen d = zlen src -> Forall complete tr ->
  exec (copy_config src m buf false true true exts) tr (init depth n d) = Some s ->
  main s = MDone true ->
  dst s = src.
Proof.
  intros src d m buf exts depth n tr s B T H L F E M.
  destruct (copy_content_partial _ _ _ _ _ _ _ _ _ _ _ _ B T H F E M) as [C1 C2].
  apply bytes_ext; [lia|]. intros i I.
  destruct (tiles_find _ _ _ i T ltac:(lia)) as (e & EI & W). rewrite (C1 e i EI W).
  specialize (H e EI). destruct e as [s0 n0 z h|s0 n0 dd z]; destruct H as [X _]; [|discriminate].
  cbn. destruct z; cbn; auto. now rewrite orb_true_r.
Qed.

(* Whatever happens, also when the copy fails or is still running: a byte of
   the destination is as before, or the byte of the source, the latter only in
   extents to be copied. *)
Theorem copy_bytes_never_wrong : forall src d m buf dirty zero hole exts depth n tr s i,
  0 < buf -> tiles 0 (zlen src) exts -> honest_extents dirty src exts ->
  Forall complete tr ->
  exec (copy_config src m buf dirty zero hole exts) tr (init depth n d) = Some s ->
  0 <= i ->
  getb (dst s) i = getb d i \/
  exists e, In e exts /\ within e i /\ selected zero hole e = true /\ getb (dst s) i = getb src i.
Proof.
  intros src d m buf dirty zero hole exts depth n tr s i B T H F E I.
  pose proof (copy_bytes src d m buf dirty zero hole exts depth n tr s B T H F E) as D.
  destruct (d_bytes _ _ _ _ _ D i I) as [X|[(r & R & Q) X]]; auto. right.
  destruct (plan_in _ _ _ _ _ _ _ _ T H R) as (e & IE & S & _ & B1 & B2 & B3).
  exists e. repeat split; auto; unfold in_req in Q; lia.
Qed.

(* When copy() returned, every destination was flushed after its last write. *)
Theorem copy_flushed : forall src d m buf dirty zero hole exts depth n tr s,
  tiles 0 (zlen src) exts -> honest_extents dirty src exts ->
  exec (copy_config src m buf dirty zero hole exts) tr (init depth n d) = Some s ->
  main s = MDone true ->
  Forall (fun w => w_dirty w = false) (workers s).
Proof. intros. eapply copy_success; eauto. Qed.

(* C51: the progress reported by a successful copy is the size of the image. *)
Theorem copy_progress : forall src d m buf dirty zero hole exts depth n tr s,
  tiles 0 (zlen src) exts -> honest_extents dirty src exts ->
  exec (copy_config src m buf dirty zero hole exts) tr (init depth n d) = Some s ->
  main s = MDone true ->
  progress s = zlen src.
Proof. intros. eapply copy_success; eauto. Qed.

(* ---- C35: failures ---- *)

(* copy() returned without error: every request was executed, exactly once. *)
Theorem success_executed : forall src d m buf dirty zero hole exts depth n tr s,
  tiles 0 (zlen src) exts -> honest_extents dirty src exts ->
  exec (copy_config src m buf dirty zero hole exts) tr (init depth n d) = Some s ->
  main s = MDone true ->
  Permutation (requests (plan dirty zero hole exts)) (done s).
Proof. intros. eapply (copy_success src d m buf dirty zero hole exts depth n); eauto. Qed.

(* For any extents, also wrong ones: something raised, then copy() does not
   return without error. *)
Theorem failure_reported : forall c d depth n tr1 l tr2 s1 s2 s3,
  exec c tr1 (init depth n d) = Some s1 -> raises l s1 -> step c l s1 = Some s2 ->
  exec c tr2 s2 = Some s3 ->
  main s3 <> MDone true.
Proof.
  intros c d depth n tr1 l tr2 s1 s2 s3 E1 R ST E2 M.
  set (N := (1 + Z.to_nat (n - 1))%nat).
  assert (NP : (0 < N)%nat) by (unfold N; lia).
  assert (G : good c N (init depth n d) \/ bad (init depth n d)).
  { left. apply init_good. reflexivity. }
  pose proof (exec_good_or_bad c N NP tr1 _ _ G E1) as GB.
  assert (B : bad s2).
  { destruct GB as [G1|B1]; [|eapply step_bad; eauto].
    unfold step in ST. destruct l as [k| |i k a]; [contradiction| |].
    - destruct (blocked Main (q s1)); [discriminate|]. unfold main_fail in ST.
      destruct (main s1); try discriminate; injection ST as <-; exact I.
    - destruct (blocked (Worker i) (q s1)); [discriminate|].
      destruct R as (A & w & NW & U).
      assert (MD : forall b, main s1 <> MDone b).
      { intros b X. pose proof (g_main _ _ _ G1) as GM. rewrite X in GM.
        destruct b; [|contradiction]. destruct GM as [_ GM].
        rewrite (Forall_nth_error _ _ _ _ GM NW) in U. contradiction. }
      assert (HE : main s2 = main s1 /\ has_error s2).
      { unfold worker_step in ST. rewrite NW in ST. rewrite A in ST.
        assert (X : forall b0 d0 q0 e0 dst0 dn0 p0,
          has_error (St (main s1) (set_nth i (Wrk WError b0 d0) (workers s1)) q0 e0 dst0 dn0 p0)).
        { intros. right. exists i. eexists. cbn. rewrite nth_set_nth, Nat.eqb_refl, NW.
          split; reflexivity. }
        destruct (w_state w) as [| |r|r sp dp todo| | | | | |]; try contradiction;
          try (injection ST as <-; split; [reflexivity|apply X]).
        destruct (copy_chunk c a sp dp todo (w_buf w) (dst s1)) as [[[[x1 x2] x3] x4] x5].
        injection ST as <-. split; [reflexivity|apply X]. }
      destruct HE as [HM HE]. unfold bad. rewrite HM.
      destruct (main s1) as [| | | |[|]|b]; auto. elim (MD b). auto. }
  pose proof (exec_bad c N NP tr2 _ _ B E2) as B3. unfold bad in B3. rewrite M in B3. discriminate.
Qed.

(* No failures, then copy() does not raise. *)
Theorem no_false_failure : forall c d depth n tr s b,
  Forall fine tr -> exec c tr (init depth n d) = Some s -> main s = MDone b -> b = true.
Proof.
  intros c d depth n tr s b F E M.
  set (N := (1 + Z.to_nat (n - 1))%nat).
  assert (NP : (0 < N)%nat) by (unfold N; lia).
  assert (G : good c N (init depth n d)) by (apply init_good; reflexivity).
  pose proof (exec_fine c N NP tr _ _ F G E) as G'. pose proof (g_main _ _ _ G') as GM.
  rewrite M in GM. destruct b; tauto.
Qed.

(* ---- C36: the queue, and deadlocks ---- *)

Definition copy_workers (n : Z) : nat := 1 + Z.to_nat (n - 1).

(* In any reachable state of a copy that did not end, also after failures, some
   thread can run, and what it does next may well succeed.  Missing, see
   copy_deadlock_refuted: more workers than places in the queue, 32. *)
Theorem copy_no_deadlock_partial : forall c d depth n tr s,
  (forall r, In r (requests (f_plan c)) -> r_op r <> STOP) ->
  (copy_workers n <= depth)%nat ->
  exec c tr (init depth n d) = Some s -> ~ finished s ->
  exists l s', fine l /\ complete l /\ step c l s = Some s'.
Proof.
  intros c d depth n tr s NS W E F.
  assert (NS' : forall r, In r (requests (f_plan c)) -> is_stop r = false).
  { intros r I. specialize (NS r I). unfold is_stop. destruct (r_op r); congruence. }
  assert (NP : (0 < copy_workers n)%nat) by (unfold copy_workers; lia).
  assert (L : live (copy_workers n) depth s); [|eapply live_progress; eauto].
  eapply exec_live; eauto. apply init_live; auto.
Qed.

(* Every execution ends: the number of steps is bounded. *)
Theorem copy_steps_bounded : forall c depth n d,
  (forall r, In r (requests (f_plan c)) -> 0 <= r_length r) -> 0 < f_buffer c ->
  exists bound, forall tr s, exec c tr (init depth n d) = Some s -> zlen tr <= bound.
Proof.
  intros c depth n d L B.
  exists (weight c (copy_workers n) (init depth n d) + Z.of_nat (copy_workers n) + 1).
  intros tr s E. eapply exec_bounded; eauto. 
Qed.

(* Together: however far a copy came, it can be completed, and without a
   further failure it will be, after finitely many steps. *)
Theorem copy_completes : forall c d depth n tr s,
  (forall r, In r (requests (f_plan c)) -> r_op r <> STOP /\ 0 <= r_length r) ->
  0 < f_buffer c -> (copy_workers n <= depth)%nat ->
  exec c tr (init depth n d) = Some s ->
  exists tr' s', Forall fine tr' /\ exec c tr' s = Some s' /\ finished s'.
Proof.
  intros c d depth n tr s R B W E.
  destruct (copy_steps_bounded c depth n d (fun r I => proj2 (R r I)) B) as [bound BD].
  assert (P : forall k, (exists tr' s', Forall fine tr' /\ exec c tr' s = Some s' /\ finished s') \/
              (exists tr' s', Forall fine tr' /\ exec c tr' s = Some s' /\ zlen tr' = Z.of_nat k)).
  { induction k as [|k [IH|(tr' & s' & F & X & L)]]; auto.
    - right. exists [], s. repeat split; auto.
    - assert (DEC : finished s' \/ ~ finished s').
      { unfold finished. destruct (main s'); try (left; eexists; reflexivity);
          right; intros [b0 Q]; discriminate. }
      destruct DEC as [FI|NF]; [left; eauto|]. right.
      assert (E' : exec c (tr ++ tr') (init depth n d) = Some s') by (now rewrite exec_app, E).
      destruct (copy_no_deadlock_partial c d depth n _ s' (fun r I => proj1 (R r I)) W E' NF)
        as (l & s2 & FL & _ & ST).
      exists (tr' ++ [l]), s2. repeat split.
      + apply Forall_app. auto.
      + rewrite exec_app, X. cbn. now rewrite ST.
      + rewrite zlen_app. change (zlen [l]) with 1. lia. }
  destruct (P (Z.to_nat (bound + 1))) as [Q|(tr' & s' & F & X & L)]; auto. exfalso.
  assert (E' : exec c (tr ++ tr') (init depth n d) = Some s') by (now rewrite exec_app, E).
  specialize (BD _ _ E'). rewrite zlen_app in BD. pose proof (zlen_nonneg tr). lia.
Qed.

(* The workers of a successful copy took the requests in the order of the
   extents, each once, and then one STOP each. *)
Theorem requests_delivered : forall src d m buf dirty zero hole exts depth n tr s,
  tiles 0 (zlen src) exts -> honest_extents dirty src exts ->
  exec (copy_config src m buf dirty zero hole exts) tr (init depth n d) = Some s ->
  main s = MDone true ->
  q_got (q s) = requests (plan dirty zero hole exts) ++ repeat (Request STOP 0 0) (copy_workers n).
Proof. intros. eapply (copy_success src d m buf dirty zero hole exts depth n); eauto. Qed.

(* ---- Cases ---- *)

Ltac differs := let H := fresh in intro H; vm_compute in H; discriminate H.

(* A schedule: the first label of a list that can run, again and again. Only
   used to write down executions. *)
Fixpoint drive (c : config) (ls : list label) (fuel : nat) (s : st) : list label :=
  match fuel with
  | O => []
  | S fuel =>
    match find (fun l => match step c l s with Some _ => true | None => false end) ls with
    | Some l => l :: match step c l s with Some s' => drive c ls fuel s' | None => [] end
    | None => []
    end
  end.

Definition ok : answer := Answer true 1 None None.
Definition raise : answer := Answer false 1 None None.

(* Data, zeros, data, a hole. *)
Definition case_src : list byte := [x01; x02; x00; x00; x05; x06; x00; x00].
Definition case_dst : list byte := [xff; xff; xff; xff; xff; xff; xff; xff].
Definition case_exts : list image_extent :=
  [ZeroExtent 0 2 false false; ZeroExtent 2 2 true false;
   ZeroExtent 4 2 false false; ZeroExtent 6 2 true true].
Definition case_config (hole : bool) : config :=
  copy_config case_src Generic 1 false true hole case_exts.
Definition case_start : st := init 2 2 case_dst.
(* Two workers, a queue of two requests; worker 0 takes the first request, then
   worker 1 runs whenever it can. *)
Definition case_first : list label := repeat (LMain 0) 4 ++ [LWorker 0 0 ok; LWorker 0 0 ok].
Definition case_trace : list label :=
  case_first ++
  match exec (case_config true) case_first case_start with
  | Some s => drive (case_config true) [LWorker 1 0 ok; LMain 0; LWorker 0 0 ok] 200 s
  | None => []
  end.

Lemma case_tiles : tiles 0 (zlen case_src) case_exts.
Proof. repeat (apply tiles_one; [reflexivity|reflexivity|]). apply tiles_end. Qed.

Lemma case_honest : honest_extents false case_src case_exts.
Proof.
  intros e [<-|[<-|[<-|[<-|[]]]]]; (split; [reflexivity|]); intros Z0 i W; try discriminate;
    unfold within in W; cbn in W.
  - assert (C : i = 2 \/ i = 3) by lia. destruct C as [->| ->]; reflexivity.
  - assert (C : i = 6 \/ i = 7) by lia. destruct C as [->| ->]; reflexivity.
Qed.

Example copy_content_case :
  exists s, exec (case_config true) case_trace case_start = Some s /\
    main s = MDone true /\ dst s = case_src /\ progress s = 8 /\
    (length case_trace > 30)%nat /\ done s <> requests (f_plan (case_config true)) /\
    Forall complete case_trace.
Proof.
  assert (F : Forall complete case_trace).
  { let t := eval vm_compute in case_trace in
    (replace case_trace with t by (vm_compute; reflexivity)).
    repeat (constructor; [cbn; auto|]). constructor. }
  eexists. split; [vm_compute; reflexivity|].
  split; [vm_compute; reflexivity|]. split; [vm_compute; reflexivity|].
  split; [vm_compute; reflexivity|]. split; [vm_compute; lia|].
  split; [differs|]. exact F.
Qed.

(* The hole is not touched with hole=False. *)
Example copy_hole_case :
  let tr := drive (case_config false) [LWorker 1 0 ok; LMain 0; LWorker 0 0 ok] 200 case_start in
  exists s, exec (case_config false) tr case_start = Some s /\
    main s = MDone true /\ dst s = [x01; x02; x00; x00; x05; x06; xff; xff].
Proof. eexists. split; [vm_compute; reflexivity|]. repeat split; vm_compute; reflexivity. Qed.

(* An incremental copy. *)
Example copy_dirty_case :
  let c := copy_config case_src Own 4096 true true true
             [DirtyExtent 0 2 true false; DirtyExtent 2 4 false false; DirtyExtent 6 2 true true] in
  let tr := drive c [LWorker 0 0 ok; LMain 0; LWorker 1 0 ok] 200 case_start in
  exists s, exec c tr case_start = Some s /\
    main s = MDone true /\ dst s = [x01; x02; xff; xff; xff; xff; x00; x00].
Proof. eexists. split; [vm_compute; reflexivity|]. repeat split; vm_compute; reflexivity. Qed.

(* A write fails in the middle of a copy: the copy ends, with an error. *)
Example failure_reported_case :
  let tr1 := case_first ++ [LMain 0; LMain 0] in
  exists s1 s2 s3,
    exec (case_config true) tr1 case_start = Some s1 /\
    raises (LWorker 0 0 raise) s1 /\
    step (case_config true) (LWorker 0 0 raise) s1 = Some s2 /\
    exec (case_config true) (drive (case_config true) [LMain 0; LWorker 1 0 ok; LWorker 0 0 ok] 200 s2) s2
      = Some s3 /\
    main s3 = MDone false /\ dst s3 <> case_src /\ q_items (q s2) <> [].
Proof.
  eexists. eexists. eexists. split; [vm_compute; reflexivity|].
  split; [split; [reflexivity|]; eexists; split; [reflexivity|exact I]|].
  split; [vm_compute; reflexivity|].
  split; [vm_compute; reflexivity|]. repeat split; try (vm_compute; reflexivity); differs.
Qed.

(* An error of the extents of the source: all workers stop. *)
Example main_failure_case :
  let tr := case_first ++ [LMain 0; LMain 0; LMainFail] in
  exists s1 s2, exec (case_config true) tr case_start = Some s1 /\
    exec (case_config true) (drive (case_config true) [LMain 0; LWorker 1 0 ok; LWorker 0 0 ok] 200 s1) s1
      = Some s2 /\
    main s2 = MDone false /\ q_items (q s1) <> [] /\ dst s2 <> case_src.
Proof.
  eexists. eexists. split; [vm_compute; reflexivity|]. split; [vm_compute; reflexivity|].
  repeat split; try (vm_compute; reflexivity); differs.
Qed.

(* The main thread and all workers but one wait, and the other one goes on. *)
Example copy_no_deadlock_case :
  let c := copy_config case_src Generic 1 false true true case_exts in
  exists tr s, exec c tr (init 1 1 case_dst) = Some s /\ q_waiters (q s) = [Main] /\
    step c (LMain 0) s = None /\ exists s', step c (LWorker 0 0 ok) s = Some s'.
Proof.
  exists [LMain 0; LMain 0; LMain 0; LMain 0; LWorker 0 0 ok]. eexists.
  split; [vm_compute; reflexivity|]. repeat split. eexists. vm_compute. reflexivity.
Qed.

(* ---- What does not hold ---- *)

(* With more workers than places in the queue a copy can end in a deadlock,
   without any failure, when the condition wakes waiting threads in order: 33
   workers wait, the main thread fills the queue with 32 requests, and waits.
   The first get() wakes the worker still waiting, instead of the main thread,
   and no later get() wakes anybody. *)
Definition deadlock_config : config :=
  Config case_src Generic 1 (map Put (repeat (Request COPY 0 1) 40)).
Definition workers_do (l : list nat) : list label := map (fun i => LWorker i 0 ok) l.
Definition deadlock_trace : list label :=
  repeat (LMain 0) 34 ++
  workers_do (seq 0 33) ++ workers_do (seq 0 33) ++    (* start, wait *)
  repeat (LMain 0) 33 ++                               (* 32 requests, wait *)
  workers_do (seq 0 32) ++ workers_do [32]%nat ++      (* get, wait *)
  workers_do (seq 0 32) ++ workers_do (seq 0 32).      (* copy, wait *)

Theorem copy_deadlock_refuted :
  exists c tr s, (forall r, In r (requests (f_plan c)) -> r_op r = COPY) /\
    Forall fine tr /\ exec c tr (init QUEUE_DEPTH 33 case_dst) = Some s /\
    ~ finished s /\ forall l, step c l s = None.
Proof.
  exists deadlock_config, deadlock_trace. eexists. split.
  { intros r I. cbn in I. repeat (destruct I as [<-|I]; [reflexivity|]). contradiction. }
  split. { vm_compute. repeat (constructor; auto). }
  split; [vm_compute; reflexivity|]. split. { intros [b X]. discriminate X. }
  intros [k| |i k a]; [reflexivity|reflexivity|]. unfold step.
  do 33 (destruct i as [|i]; [reflexivity|]).
  unfold worker_step, blocked. cbn. destruct i; reflexivity.
Qed.

(* A backend that writes less than asked for, and says so, without raising: the
   copy returns without error although the destination differs. *)
Theorem copy_short_write_refuted :
  exists tr s, Forall fine tr /\
    exec (case_config true) tr case_start = Some s /\
    main s = MDone true /\ dst s <> case_src /\ progress s = zlen case_src.
Proof.
  exists (drive (case_config true) [LWorker 1 0 (Answer true 1 None (Some 0)); LMain 0; LWorker 0 0 ok]
            200 case_start).
  eexists. split. { vm_compute. repeat (constructor; auto). }
  split; [vm_compute; reflexivity|]. repeat split; try (vm_compute; reflexivity); differs.
Qed.

(* The same for readinto(): what the buffer had before is written. *)
Theorem copy_short_read_refuted :
  exists tr s i, Forall fine tr /\
    exec (case_config true) tr case_start = Some s /\
    main s = MDone true /\ getb (dst s) i <> getb case_src i /\ getb (dst s) i <> getb case_dst i.
Proof.
  exists (drive (case_config true) [LWorker 1 0 (Answer true 1 (Some 0) None); LMain 0; LWorker 0 0 ok]
            200 case_start).
  eexists. exists 0. split. { vm_compute. repeat (constructor; auto). }
  split; [vm_compute; reflexivity|]. repeat split; try (vm_compute; reflexivity); differs.
Qed.

(* A copy with an empty buffer does not end. *)
Theorem copy_without_buffer_refuted :
  exists tr l s,
    Forall fine tr /\ exec (copy_config case_src Generic 0 false true true case_exts) tr case_start = Some s /\
    fine l /\ step (copy_config case_src Generic 0 false true true case_exts) l s = Some s.
Proof.
  exists [LMain 0; LMain 0; LMain 0; LMain 0; LWorker 0 0 ok; LWorker 0 0 ok; LWorker 0 0 ok].
  exists (LWorker 0 0 ok). eexists.
  split. { repeat (constructor; cbn; auto). }
  split; [vm_compute; reflexivity|]. split; vm_compute; reflexivity.
Qed.

(* ---- The queue with any threads ---- *)

Lemma try_put_fifo {A} t k (x : A) q q' r :
  try_put t k x q = (q', r) ->
  (q_closed q = true -> q' = q /\ r = Raised) /\
  (q_closed q = false -> q_closed q' = false /\ q_max q' = q_max q /\
     (q_put q = q_got q ++ q_items q -> q_put q' = q_got q' ++ q_items q') /\
     ((length (q_items q) <= q_max q)%nat -> (length (q_items q') <= q_max q')%nat)).
Proof.
  unfold try_put. intros E. destruct (q_closed q).
  - injection E as <- <-. split; [auto|discriminate].
  - split; [discriminate|]. intros _. destruct (Nat.eqb_spec (length (q_items q)) (q_max q)); injection E as <- <-; cbn.
    + auto.
    + repeat split; auto.
      * intros ->. now rewrite app_assoc.
      * rewrite app_length. cbn. lia.
Qed.

Lemma try_get_fifo {A} t k (q q' : queue A) r :
  try_get t k q = (q', r) ->
  (q_closed q = true -> q' = q /\ r = Raised) /\
  (q_closed q = false -> q_closed q' = false /\ q_max q' = q_max q /\
     (q_put q = q_got q ++ q_items q -> q_put q' = q_got q' ++ q_items q') /\
     ((length (q_items q) <= q_max q)%nat -> (length (q_items q') <= q_max q')%nat)).
Proof.
  unfold try_get. intros E. destruct (q_closed q).
  - injection E as <- <-. split; [auto|discriminate].
  - split; [discriminate|]. intros _. destruct (q_items q) as [|x items] eqn:Q; injection E as <- <-; cbn.
    + auto.
    + repeat split; auto.
      * intros ->. now rewrite <- app_assoc.
      * lia.
Qed.

Definition queue_ok {A} (max : nat) (q : queue A) : Prop :=
  q_max q = max /\ (length (q_items q) <= max)%nat /\
  (if q_closed q then q_items q = [] /\ q_waiters q = [] /\ exists l, q_put q = q_got q ++ l
   else q_put q = q_got q ++ q_items q).

Lemma qsys_step_ok {A} max i k (y y' : qsys A) :
  qsys_step i k y = Some y' -> queue_ok max (y_q y) -> queue_ok max (y_q y').
Proof.
  intros E (O1 & O2 & O3). unfold qsys_step in E.
  destruct (blocked (Worker i) (y_q y)); [discriminate|].
  destruct (nth_error (y_threads y) i) as [[|o l]|]; try discriminate.
  destruct o.
  - destruct (try_put (Worker i) k x (y_q y)) as [q' r] eqn:P. injection E as <-. cbn.
    destruct (try_put_fifo _ _ _ _ _ _ P) as [H1 H2].
    destruct (q_closed (y_q y)) eqn:QC.
    + destruct (H1 eq_refl) as [-> _]. unfold queue_ok. rewrite QC. auto.
    + destruct (H2 eq_refl) as (A1 & A2 & A3 & A4). unfold queue_ok. rewrite A1, A2 in *.
      repeat split; auto. rewrite O1 in A4. auto.
  - destruct (try_get (Worker i) k (y_q y)) as [q' r] eqn:P. injection E as <-. cbn.
    destruct (try_get_fifo _ _ _ _ _ P) as [H1 H2].
    destruct (q_closed (y_q y)) eqn:QC.
    + destruct (H1 eq_refl) as [-> _]. unfold queue_ok. rewrite QC. auto.
    + destruct (H2 eq_refl) as (A1 & A2 & A3 & A4). unfold queue_ok. rewrite A1, A2 in *.
      repeat split; auto. rewrite O1 in A4. auto.
  - injection E as <-. unfold queue_ok. cbn. repeat split; auto; [lia|].
    destruct (q_closed (y_q y)); [tauto|eauto].
Qed.

(* Any number of producers and consumers: items leave in the order in which
   they came, each once; nothing is lost unless the queue is closed; at most
   max items are kept. *)
Theorem queue_fifo : forall A max threads tr (y : qsys A),
  qsys_exec tr (QSys (new_queue max) threads) = Some y ->
  (length (q_items (y_q y)) <= max)%nat /\
  (q_closed (y_q y) = false -> q_put (y_q y) = q_got (y_q y) ++ q_items (y_q y)) /\
  (q_closed (y_q y) = true -> exists dropped, q_put (y_q y) = q_got (y_q y) ++ dropped).
Proof.
  intros A max threads tr y E.
  assert (I : queue_ok max (y_q y)).
  { assert (I0 : queue_ok max (y_q (QSys (new_queue max) threads : qsys A))).
    { unfold queue_ok. cbn. repeat split; lia || auto. }
    revert E I0. generalize (QSys (new_queue max) threads : qsys A). clear.
    induction tr as [|[i k] tr IH]; cbn; intros y0 E I0.
    - injection E as <-. auto.
    - destruct (qsys_step i k y0) as [y1|] eqn:S; [|discriminate].
      apply (IH y1 E). eapply qsys_step_ok; eauto. }
  destruct I as (I1 & I2 & I3). split; auto. split; intros QC; rewrite QC in I3; tauto.
Qed.

(* After close(): nobody waits, every thread can run, what it does changes
   nothing and does not wait. *)
Theorem queue_closed : forall A max threads tr (y : qsys A) i k o l,
  qsys_exec tr (QSys (new_queue max) threads) = Some y -> q_closed (y_q y) = true ->
  nth_error (y_threads y) i = Some (o :: l) ->
  exists y', qsys_step i k y = Some y' /\ nth_error (y_threads y') i = Some l /\
    q_put (y_q y') = q_put (y_q y) /\ q_got (y_q y') = q_got (y_q y) /\
    q_items (y_q y') = [] /\ q_waiters (y_q y') = [].
Proof.
  intros A max threads tr y i k o l E QC NT.
  assert (I : queue_ok max (y_q y)).
  { assert (I0 : queue_ok max (y_q (QSys (new_queue max) threads : qsys A))).
    { unfold queue_ok. cbn. repeat split; lia || auto. }
    revert E I0. generalize (QSys (new_queue max) threads : qsys A). clear.
    induction tr as [|[i k] tr IH]; cbn; intros y0 E I0.
    - injection E as <-. auto.
    - destruct (qsys_step i k y0) as [y1|] eqn:S; [|discriminate].
      apply (IH y1 E). eapply qsys_step_ok; eauto. }
  destruct I as (I1 & I2 & I3). rewrite QC in I3. destruct I3 as (I3 & I4 & I5).
  unfold qsys_step, blocked. rewrite I4, NT. cbn [existsb].
  destruct o; unfold try_put, try_get; rewrite ?QC; eexists; (split; [reflexivity|]); cbn;
    rewrite nth_set_nth, Nat.eqb_refl, NT; auto.
Qed.

(* Two producers and two consumers, one item at a time. *)
Example queue_fifo_case :
  exists y, qsys_exec [(2, 0); (0, 0); (1, 0); (2, 0); (1, 0); (0, 0); (3, 0); (0, 0); (3, 0)]%nat
    (QSys (new_queue 1) [[QPut 1; QPut 2]; [QPut 3]; [QGet]; [QGet; QGet]]) = Some y /\
  q_got (y_q y) = [1; 3; 2] /\ q_put (y_q y) = [1; 3; 2] /\ y_threads y = [[]; []; []; []].
Proof. eexists. split; [vm_compute; reflexivity|]. repeat split; vm_compute; reflexivity. Qed.

Example queue_closed_case :
  exists y, qsys_exec [(0, 0); (0, 0); (1, 0)]%nat
    (QSys (new_queue 1) [[QPut 1; QPut 2]; [QClose]]) = Some y /\
  q_closed (y_q y) = true /\ nth_error (y_threads y) 0 = Some [QPut 2] /\ q_put (y_q y) = [1].
Proof. eexists. split; [vm_compute; reflexivity|]. repeat split; vm_compute; reflexivity. Qed.

(* The claim that nobody waits in vain is false in general, with condition
   variables waking threads in order: one condition is used for both producers
   and consumers. Two producers, one consumer: in the end the consumer waits
   although there is an item. *)
Theorem queue_deadlock_refuted :
  exists threads tr (y : qsys Z), qsys_exec tr (QSys (new_queue 1) threads) = Some y /\
    (forall i k, In (i, k) tr -> k = 0%nat) /\
    stuck y /\ q_closed (y_q y) = false /\ q_items (y_q y) <> [] /\
    exists i l, nth_error (y_threads y) i = Some (QGet :: l).
Proof.
  exists [[QPut 1; QPut 2]; [QPut 3]; [QGet; QGet; QGet]].
  exists [(2, 0); (0, 0); (0, 0); (1, 0); (2, 0); (2, 0); (0, 0); (1, 0)]%nat.
  eexists. split; [vm_compute; reflexivity|]. split.
  { intros i k I. cbn in I. repeat (destruct I as [I|I]; [now injection I as _ <-|]). contradiction. }
  split.
  { split; [exists 1%nat, (QPut 3), []; reflexivity|].
    intros i k. do 3 (destruct i as [|i]; [reflexivity|]). unfold qsys_step, blocked. cbn.
    destruct i; reflexivity. }
  split; [reflexivity|]. split; [discriminate|].
  exists 2%nat. eexists. reflexivity.
Qed.

Print Assumptions split_covers.
Print Assumptions extent_requests.
Print Assumptions copy_content_partial.
Print Assumptions copy_identical_partial.
Print Assumptions copy_bytes_never_wrong.
Print Assumptions copy_flushed.
Print Assumptions copy_progress.
Print Assumptions success_executed.
Print Assumptions failure_reported.
Print Assumptions no_false_failure.
Print Assumptions copy_no_deadlock_partial.
Print Assumptions requests_delivered.
Print Assumptions copy_steps_bounded.
Print Assumptions copy_completes.
Print Assumptions copy_deadlock_refuted.
Print Assumptions copy_short_write_refuted.
Print Assumptions copy_short_read_refuted.
Print Assumptions copy_without_buffer_refuted.
Print Assumptions queue_fifo.
Print Assumptions queue_closed.
Print Assumptions queue_deadlock_refuted.
