(* Lemmas about the client copy: splitting, and the content of the
   destination. *)
From Coq Require Import ZArith List Bool Lia Permutation.
From Coq.Strings Require Import Byte.
From Verif Require Import BytesLib OpsModel ExtentsModel ExtentsSpec ClientIoModel ClientIoSpec.
Import ListNotations.
Open Scope Z_scope.

(* ---- splitting ---- *)

Lemma split_loop_covers op step : 0 < step -> forall fuel start length,
  0 <= length -> length / step < Z.of_nat fuel ->
  covers op step start (start + length) (split_loop fuel op start length step).
Proof.
  intros S. induction fuel as [|fuel IH]; intros start length L F.
  - pose proof (Z.div_pos length step L S). lia.
  - cbn [split_loop]. destruct (Z.ltb_spec step length) as [G|G].
    + constructor; [lia|].
      replace (start + length) with ((start + step) + (length - step)) by lia.
      apply IH; [lia|]. replace length with ((length - step) + 1 * step) in F by lia.
      rewrite Z.div_add in F by lia. lia.
    + assert (E : Request op start length = Request op start (start + length - start))
        by (f_equal; lia).
      rewrite E. constructor. lia.
Qed.

Lemma split_loop_in op step : 0 < step -> forall fuel start length r,
  0 <= length -> In r (split_loop fuel op start length step) ->
  r_op r = op /\ start <= r_start r /\ 0 <= r_length r /\
  r_start r + r_length r <= start + length.
Proof.
  intros S. induction fuel as [|fuel IH]; intros start length r L I; cbn [split_loop] in I.
  - destruct I as [<-|[]]. cbn. repeat split; lia.
  - destruct (Z.ltb_spec step length) as [G|G].
    + destruct I as [<-|I]; [cbn; repeat split; lia|]. apply IH in I; [|lia]. destruct I as (? & ? & ? & ?). repeat split; auto; lia.
    + destruct I as [<-|[]]. cbn. repeat split; lia.
Qed.

Lemma split_loop_cover op step : 0 < step -> forall fuel start length i,
  start <= i < start + length ->
  exists r, In r (split_loop fuel op start length step) /\
    r_start r <= i < r_start r + r_length r.
Proof.
  intros S. induction fuel as [|fuel IH]; intros start length i H; cbn [split_loop].
  - eexists. split; [left; reflexivity|]. cbn. lia.
  - destruct (Z.ltb_spec step length) as [G|G].
    + destruct (Z.lt_ge_cases i (start + step)).
      * eexists. split; [left; reflexivity|]. cbn. lia.
      * destruct (IH (start + step) (length - step) i) as (r & I & R); [lia|].
        exists r. split; [now right|auto].
    + eexists. split; [left; reflexivity|]. cbn. lia.
Qed.

Lemma split_loop_total op step : 0 < step -> forall fuel start length,
  fold_right Z.add 0 (map r_length (split_loop fuel op start length step)) = length.
Proof.
  intros S. induction fuel as [|fuel IH]; intros start length; cbn [split_loop].
  - cbn. lia.
  - destruct (Z.ltb_spec step length); cbn; [rewrite IH|]; lia.
Qed.

Definition step_of (op : opcode) : Z := match op with ZERO => MAX_ZERO_SIZE | _ => MAX_COPY_SIZE end.

Lemma step_of_pos op : 0 < step_of op.
Proof. now destruct op. Qed.

Lemma split_request_in r x : 0 <= r_length r -> In x (split_request r) ->
  r_op x = r_op r /\ r_start r <= r_start x /\ 0 <= r_length x /\
  r_start x + r_length x <= r_start r + r_length r.
Proof. intros L. apply split_loop_in; auto. apply step_of_pos. Qed.

Lemma split_request_cover r i : r_start r <= i < r_start r + r_length r ->
  exists x, In x (split_request r) /\ r_start x <= i < r_start x + r_length x.
Proof. apply split_loop_cover. apply step_of_pos. Qed.

Lemma split_request_total r :
  fold_right Z.add 0 (map r_length (split_request r)) = r_length r.
Proof. apply split_loop_total. apply step_of_pos. Qed.

Lemma requests_app l m : requests (l ++ m) = requests l ++ requests m.
Proof. induction l as [|[r|n] l IH]; cbn; congruence. Qed.

Lemma requests_submit r : requests (submit r) = split_request r.
Proof. unfold submit. induction (split_request r); cbn; congruence. Qed.

(* ---- lists ---- *)

Lemma nth_set_nth {A} i j (x : A) l :
  nth_error (set_nth i x l) j =
  if (i =? j)%nat then match nth_error l i with Some _ => Some x | None => None end
  else nth_error l j.
Proof.
  revert i j. induction l as [|y l IH]; intros i j; cbn [set_nth].
  - destruct i, j; cbn; auto. now destruct (i =? j)%nat.
  - destruct i as [|i], j as [|j]; cbn; auto.
Qed.

Lemma length_set_nth {A} i (x : A) l : length (set_nth i x l) = length l.
Proof. revert i. induction l as [|y l IH]; intros [|i]; cbn; auto. Qed.

Lemma Forall_set_nth {A} (P : A -> Prop) i x l :
  Forall P l -> P x -> Forall P (set_nth i x l).
Proof.
  intros F X. revert i. induction F as [|y l Y F IH]; intros [|i]; cbn; auto.
Qed.

Lemma Forall_nth_error {A} (P : A -> Prop) i x l :
  Forall P l -> nth_error l i = Some x -> P x.
Proof. intros F E. rewrite Forall_forall in F. apply F. eapply nth_error_In; eauto. Qed.

Lemma exec_app c tr1 tr2 s : exec c (tr1 ++ tr2) s =
  match exec c tr1 s with Some s' => exec c tr2 s' | None => None end.
Proof.
  revert s. induction tr1 as [|l tr1 IH]; intros s; cbn; auto. destruct (step c l s); auto.
Qed.

(* An invariant of all executions. *)
Lemma exec_inv c (P : label -> Prop) (I : st -> Prop) :
  (forall l s s', P l -> I s -> step c l s = Some s' -> I s') ->
  forall tr s s', Forall P tr -> I s -> exec c tr s = Some s' -> I s'.
Proof.
  intros H. induction tr as [|l tr IH]; intros s s' F S E; cbn in E.
  - now injection E as <-.
  - inversion F; subst. destruct (step c l s) as [s1|] eqn:X; [|discriminate].
    apply (IH s1 s'); auto. apply (H l s s1); auto.
Qed.

(* ---- content ---- *)

Section Data.

Variable c : config.
Variable d : list byte.       (* destination before *)
Variable fin : Z -> byte.     (* destination after *)
Variable size : Z.

Definition in_req (r : request) (i : Z) : Prop := r_start r <= i < r_start r + r_length r.

Definition ok_req (r : request) : Prop :=
  0 <= r_start r /\ 0 <= r_length r /\ r_start r + r_length r <= size /\
  match r_op r with
  | COPY => r_start r + r_length r <= zlen (f_src c) /\
            forall i, in_req r i -> fin i = getb (f_src c) i
  | ZERO => forall i, in_req r i -> fin i = x00
  | STOP => False
  end.

Definition reqs := requests (f_plan c).

Hypothesis plan_ok : forall r, In r reqs -> ok_req r.
Hypothesis buffer_ok : 0 < f_buffer c.

Definition covered (i : Z) : Prop := exists r, In r reqs /\ in_req r i.

Definition wok (dst : list byte) (w : worker) : Prop :=
  zlen (w_buf w) = f_buffer c /\
  match w_state w with
  | WZero r => In r reqs /\ r_op r = ZERO
  | WCopy r sp dp todo =>
    In r reqs /\ r_op r = COPY /\ sp = dp /\ dp = r_start r + r_length r - todo /\
    0 <= todo <= r_length r /\ forall i, r_start r <= i < dp -> getb dst i = fin i
  | _ => True
  end.

Definition item_ok (r : request) : Prop := r_op r = STOP \/ In r reqs.

Record dinv (s : st) : Prop := {
  d_items : Forall item_ok (q_items (q s));
  d_main : match main s with MRun l => incl (requests l) reqs | _ => True end;
  d_workers : Forall (wok (dst s)) (workers s);
  d_done : forall r, In r (done s) -> In r reqs /\ forall i, in_req r i -> getb (dst s) i = fin i;
  d_bytes : forall i, 0 <= i -> getb (dst s) i = getb d i \/ (covered i /\ getb (dst s) i = fin i);
  d_size : zlen d <= zlen (dst s) <= Z.max (zlen d) size
}.

(* A write of final bytes inside of a request. *)
Lemma write_final dst r pos data :
  In r reqs -> r_start r <= pos -> pos + zlen data <= r_start r + r_length r ->
  (forall j, 0 <= j < zlen data -> getb data j = fin (pos + j)) ->
  let dst' := splice dst pos data in
  (forall i, getb dst' i = getb dst i \/ (covered i /\ getb dst' i = fin i)) /\
  (forall i, pos <= i < pos + zlen data -> getb dst' i = fin i) /\
  zlen dst <= zlen dst' <= Z.max (zlen dst) size.
Proof.
  intros R P1 P2 D. destruct (plan_ok _ R) as (O1 & O2 & O3 & _). cbn zeta.
  assert (G : forall i, getb (splice dst pos data) i =
            if (pos <=? i) && (i <? pos + zlen data) then fin i else getb dst i).
  { intros i. rewrite getb_splice by lia.
    destruct (Z.leb_spec pos i), (Z.ltb_spec i (pos + zlen data)); cbn; auto.
    rewrite D by lia. f_equal. lia. }
  repeat split.
  - intros i. rewrite G.
    destruct (Z.leb_spec pos i), (Z.ltb_spec i (pos + zlen data)); cbn; auto.
    right. split; auto. exists r. split; auto. unfold in_req. lia.
  - intros i I. rewrite G. destruct (Z.leb_spec pos i), (Z.ltb_spec i (pos + zlen data)); cbn; auto; lia.
  - rewrite zlen_splice by lia. destruct data; lia.
  - rewrite zlen_splice by lia. destruct data as [|x data]; [lia|]. lia.
Qed.

(* Such writes keep what was established before. *)
Definition grows (dst dst' : list byte) : Prop :=
  (forall i, getb dst' i = getb dst i \/ (covered i /\ getb dst' i = fin i)) /\
  zlen dst <= zlen dst' <= Z.max (zlen dst) size.

Lemma grows_refl dst : grows dst dst.
Proof. split; [auto|lia]. Qed.

Lemma grows_fin dst dst' i : grows dst dst' -> getb dst i = fin i -> getb dst' i = fin i.
Proof. intros [G _] E. destruct (G i) as [->|[_ ->]]; auto. Qed.

Lemma grows_wok dst dst' w : grows dst dst' -> wok dst w -> wok dst' w.
Proof.
  intros G [B H]. split; auto. destruct (w_state w); auto.
  destruct H as (H1 & H2 & H3 & H4 & H5 & H6). repeat split; auto; try lia.
  intros i I. eapply grows_fin; eauto.
Qed.

Lemma dinv_grows s dst' main' workers' q' errors' done' progress' :
  dinv s -> grows (dst s) dst' ->
  Forall item_ok (q_items q') ->
  match main' with MRun l => incl (requests l) reqs | _ => True end ->
  Forall (wok dst') workers' ->
  (forall r, In r done' -> In r (done s) \/
     (In r reqs /\ forall i, in_req r i -> getb dst' i = fin i)) ->
  dinv (St main' workers' q' errors' dst' done' progress').
Proof.
  intros [A1 A2 A3 A4 A5 A6] G I M W D. constructor; cbn; auto.
  - intros r R. destruct (D r R) as [X|X]; auto. destruct (A4 r X) as [X1 X2]. split; auto.
    intros i H. eapply grows_fin; eauto.
  - intros i H. destruct G as [G _]. destruct (G i) as [->|X]; auto.
  - destruct G as [_ G]. lia.
Qed.

Lemma dinv_same s main' workers' q' errors' progress' :
  dinv s -> Forall item_ok (q_items q') ->
  match main' with MRun l => incl (requests l) reqs | _ => True end ->
  Forall (wok (dst s)) workers' ->
  dinv (St main' workers' q' errors' (dst s) (done s) progress').
Proof. intros D I M W. eapply dinv_grows; eauto using grows_refl. Qed.

Lemma main_step_dinv k s s' : dinv s -> main_step c k s = Some s' -> dinv s'.
Proof.
  intros D E. pose proof D as [A1 A2 A3 A4 A5 A6]. unfold main_step in E.
  assert (PUT : forall r, item_ok r -> Forall item_ok (q_items (fst (try_put Main k r (q s))))).
  { intros r R. unfold try_put. destruct (q_closed (q s)); cbn; auto.
    destruct (length (q_items (q s)) =? q_max (q s))%nat; cbn; auto.
    apply Forall_app. auto. }
  destruct (main s) as [[|n]|[|[r|n] l]|[|n]| |ab|b] eqn:M;
    try (injection E as <-; apply dinv_same; cbn; auto; fail); try discriminate.
  - injection E as <-. apply dinv_same; auto. apply incl_refl.
  - injection E as <-. apply dinv_same; auto. apply Forall_app. split; auto.
    constructor; [|constructor]. split; cbn; auto. rewrite zlen_zeros. lia.
  - specialize (PUT r ltac:(right; apply A2; now left)).
    destruct (try_put Main k r (q s)) as [q' a]. cbn in PUT. injection E as <-.
    apply dinv_same; auto. destruct a; auto.
    intros y Y. apply A2. now right.
  - specialize (PUT (Request STOP 0 0) ltac:(now left)).
    destruct (try_put Main k (Request STOP 0 0) (q s)) as [q' a]. cbn in PUT. injection E as <-.
    apply dinv_same; auto. now destruct a.
  - destruct (forallb _ _); [|discriminate]. injection E as <-. apply dinv_same; auto.
Qed.

Lemma done_of_bounds m o : 0 <= done_of m o <= Z.max 0 m.
Proof. unfold done_of, clamp. destruct o; lia. Qed.

Lemma copy_chunk_final a sp todo buf dst0 r :
  In r reqs -> r_op r = COPY -> sp = r_start r + r_length r - todo -> 0 <= todo <= r_length r ->
  zlen buf = f_buffer c -> a_read a = None ->
  (forall i, r_start r <= i < sp -> getb dst0 i = fin i) ->
  let '(buf', sp', dst', dp', todo') := copy_chunk c a sp sp todo buf dst0 in
  grows dst0 dst' /\ zlen buf' = f_buffer c /\ 0 <= todo' <= r_length r /\
  (a_ok a = true -> a_written a = None ->
   sp' = dp' /\ dp' = r_start r + r_length r - todo' /\
   forall i, r_start r <= i < dp' -> getb dst' i = fin i).
Proof.
  intros R OP SP T B AR K. destruct (plan_ok _ R) as (O1 & O2 & O3 & O4). rewrite OP in O4.
  destruct O4 as [O4 O5]. unfold copy_chunk. destruct (f_mode c).
  - rewrite AR. remember (Z.min (Z.max 0 todo) (zlen buf)) as n eqn:N.
    assert (NB : 0 <= n <= todo) by lia.
    replace (done_of (Z.min n (zlen (f_src c) - sp)) None) with n by (unfold done_of; lia).
    remember (done_of n (a_written a)) as w eqn:W.
    assert (WB : 0 <= w <= n) by (pose proof (done_of_bounds n (a_written a)); lia).
    assert (SL : zlen (splice buf 0 (sub sp n (f_src c))) = zlen buf).
    { rewrite zlen_splice by lia.
      assert (zlen (sub sp n (f_src c)) = n) by (rewrite zlen_sub; lia).
      destruct (sub sp n (f_src c)); lia. }
    remember (take w (take n (splice buf 0 (sub sp n (f_src c))))) as data eqn:DT.
    assert (DL : zlen data = w).
    { subst data. rewrite !zlen_take, SL. lia. }
    assert (DG : forall j, 0 <= j < zlen data -> getb data j = fin (sp + j)).
    { intros j J. subst data. rewrite getb_take by lia.
      destruct (Z.ltb_spec j w); [|lia]. rewrite getb_take by lia.
      destruct (Z.ltb_spec j n); [|lia]. rewrite getb_splice by lia.
      assert (zlen (sub sp n (f_src c)) = n) as -> by (rewrite zlen_sub; lia).
      destruct (Z.leb_spec 0 j), (Z.ltb_spec j (0 + n)); try lia. cbn [andb].
      rewrite getb_sub by lia. rewrite Z.sub_0_r. destruct (Z.ltb_spec j n); [|lia].
      symmetry. apply O5. unfold in_req. lia. }
    destruct (write_final dst0 r sp data R ltac:(lia) ltac:(lia) DG) as (G1 & G2 & G3).
    assert (GR : grows dst0 (splice dst0 sp data)) by (split; auto).
    split; [exact GR|]. split; [lia|]. split; [lia|].
    intros OK AW. assert (w = n) by (rewrite W, AW; unfold done_of; lia).
    repeat split; try lia. intros i I. destruct (Z.lt_ge_cases i sp).
    + apply (grows_fin _ _ i GR). apply K. lia.
    + apply G2. lia.
  - remember (clamp (Z.min 1 todo) todo (a_chunk a)) as n0 eqn:N0.
    remember (if a_ok a then n0 else done_of n0 (a_written a)) as n eqn:N.
    assert (NB : 0 <= n <= todo).
    { pose proof (done_of_bounds n0 (a_written a)). unfold clamp in N0. destruct (a_ok a); lia. }
    assert (DL : zlen (sub sp n (f_src c)) = n) by (rewrite zlen_sub; lia).
    assert (DG : forall j, 0 <= j < zlen (sub sp n (f_src c)) ->
              getb (sub sp n (f_src c)) j = fin (sp + j)).
    { intros j J. rewrite getb_sub by lia. destruct (Z.ltb_spec j n); [|lia].
      symmetry. apply O5. unfold in_req. lia. }
    destruct (write_final dst0 r sp (sub sp n (f_src c)) R ltac:(lia) ltac:(lia) DG)
      as (G1 & G2 & G3).
    assert (GR : grows dst0 (splice dst0 sp (sub sp n (f_src c)))) by (split; auto).
    split; [exact GR|]. split; [lia|]. split; [lia|].
    intros OK AW. repeat split; try lia. intros i I. destruct (Z.lt_ge_cases i sp).
    + apply (grows_fin _ _ i GR). apply K. lia.
    + apply G2. lia.
Qed.

Lemma worker_step_dinv i k a s s' :
  complete (LWorker i k a) -> dinv s -> worker_step c i k a s = Some s' -> dinv s'.
Proof.
  intros [AR AW] D E. pose proof D as [A1 A2 A3 A4 A5 A6]. unfold worker_step in E.
  destruct (nth_error (workers s) i) as [w|] eqn:N; [|discriminate].
  pose proof (Forall_nth_error _ _ _ _ A3 N) as [WB W].
  assert (SAME : forall x b, match x with WZero _ | WCopy _ _ _ _ => False | _ => True end ->
            Forall (wok (dst s)) (set_nth i (Wrk x (w_buf w) b) (workers s))).
  { intros x b X. apply Forall_set_nth; auto. split; auto. cbn. destruct x; try contradiction; auto. }
  destruct (w_state w) as [| |r|r sp dp todo| | | | | |] eqn:WS; try discriminate.
  - injection E as <-. apply dinv_same; auto; apply SAME; now destruct (a_ok a).
  - unfold try_get in E. destruct (q_closed (q s)).
    { injection E as <-. apply dinv_same; auto; apply SAME; auto. }
    destruct (q_items (q s)) as [|r items] eqn:QI.
    + injection E as <-. apply dinv_same; cbn; auto; apply SAME; auto.
    + inversion A1 as [|? ? R RS]; subst. injection E as <-. apply dinv_same; cbn; auto.
      destruct R as [R|R].
      * rewrite R. apply SAME. auto.
      * destruct (plan_ok _ R) as (O1 & O2 & O3 & O4).
        destruct (r_op r) eqn:OP; [| |contradiction].
        -- apply Forall_set_nth; auto. split; cbn; auto.
        -- apply Forall_set_nth; auto. split; cbn; auto. repeat split; auto; lia.
  - destruct W as [R OP]. destruct (plan_ok _ R) as (O1 & O2 & O3 & O4). rewrite OP in O4.
    remember (done_of (r_length r) (a_written a)) as n eqn:NN.
    assert (NB : 0 <= n <= r_length r) by (pose proof (done_of_bounds (r_length r) (a_written a)); lia).
    assert (DL : zlen (zeros n) = n) by (rewrite zlen_zeros; lia).
    destruct (write_final (dst s) r (r_start r) (zeros n) R ltac:(lia) ltac:(lia)) as (G1 & G2 & G3).
    { intros j J. rewrite getb_zeros. symmetry. apply O4. unfold in_req. lia. }
    assert (GR : grows (dst s) (splice (dst s) (r_start r) (zeros n))) by (split; auto).
    assert (F : forall x b, match x with WZero _ | WCopy _ _ _ _ => False | _ => True end ->
              Forall (wok (splice (dst s) (r_start r) (zeros n)))
                (set_nth i (Wrk x (w_buf w) b) (workers s))).
    { intros x b X. apply Forall_set_nth.
      - eapply Forall_impl; [|exact A3]. intros y. apply grows_wok. auto.
      - split; auto. cbn. destruct x; try contradiction; auto. }
    destruct (a_ok a) eqn:OK; injection E as <-; eapply dinv_grows; eauto.
    intros x X. apply in_app_or in X. destruct X as [X|[<-|[]]]; auto. right. split; auto.
      intros j J. apply G2. rewrite NN, AW by auto. unfold done_of, in_req in *.
      rewrite zlen_zeros. lia.
  - destruct W as (R & OP & -> & DP & T & K).
    pose proof (copy_chunk_final a dp todo (w_buf w) (dst s) r R OP DP T WB AR K) as CH.
    destruct (copy_chunk c a dp dp todo (w_buf w) (dst s)) as [[[[buf sp'] dst'] dp'] todo'].
    destruct CH as (GR & B' & T' & CH).
    assert (F : forall x b, match x with WZero _ | WCopy _ _ _ _ => False | _ => True end ->
              Forall (wok dst') (set_nth i (Wrk x buf b) (workers s))).
    { intros x b X. apply Forall_set_nth.
      - eapply Forall_impl; [|exact A3]. intros y. apply grows_wok. auto.
      - split; auto. cbn. destruct x; try contradiction; auto. }
    destruct (a_ok a) eqn:OK.
    + destruct (CH eq_refl (AW eq_refl)) as (C1 & C2 & C3).
      destruct (Z.eqb_spec todo' 0) as [Z0|Z0]; injection E as <-; eapply dinv_grows; eauto.
      * intros x X. apply in_app_or in X. destruct X as [X|[<-|[]]]; auto. right. split; auto.
        intros j J. apply C3. unfold in_req in J. lia.
      * apply Forall_set_nth.
        -- eapply Forall_impl; [|exact A3]. intros y. apply grows_wok. auto.
        -- split; auto. cbn. repeat split; auto; lia.
    + injection E as <-. eapply dinv_grows; eauto.
  - destruct (a_ok a); injection E as <-; apply dinv_same; auto; apply SAME; auto.
  - injection E as <-. apply dinv_same; auto; apply SAME; now destruct (a_ok a).
  - injection E as <-. apply dinv_same; auto; apply SAME; now destruct (a_ok a).
  - injection E as <-. apply dinv_same; auto; apply SAME; auto.
  - injection E as <-. apply dinv_same; cbn; auto; apply SAME; auto.
Qed.

Lemma step_dinv l s s' : complete l -> dinv s -> step c l s = Some s' -> dinv s'.
Proof.
  intros C D E. unfold step in E. destruct l as [k| |i k a].
  - destruct (blocked Main (q s)); [discriminate|]. eapply main_step_dinv; eauto.
  - destruct (blocked Main (q s)); [discriminate|]. unfold main_fail in E.
    pose proof D as [A1 A2 A3 A4 A5 A6].
    destruct (main s); try discriminate; injection E as <-; apply dinv_same; auto.
  - destruct (blocked (Worker i) (q s)); [discriminate|]. eapply worker_step_dinv; eauto.
Qed.

Lemma exec_dinv tr depth n s : Forall complete tr ->
  exec c tr (init depth n d) = Some s -> dinv s.
Proof.
  intros F. apply (exec_inv c complete dinv step_dinv); auto.
  constructor; cbn; auto; try contradiction. lia.
Qed.

End Data.
