(* Lemmas about the client copy: no deadlock, and termination. *)
From Coq Require Import ZArith List Bool Lia.
From Coq.Strings Require Import Byte.
From Verif Require Import BytesLib OpsModel ExtentsModel ExtentsSpec ClientIoModel ClientIoSpec
  ClientIoProofs ClientIoSched.
Import ListNotations.
Open Scope Z_scope.

Definition alive (x : wstate) : bool := negb (stopped x).
Definition broken (x : wstate) : bool := match x with WError | WFailed => true | _ => false end.
Definition is_idle (x : wstate) : bool := match x with WIdle => true | _ => false end.
Definition is_cancel (x : wstate) : bool := match x with WCancel => true | _ => false end.

Definition idle_at (ws : list worker) (t : tid) : Prop :=
  match t with
  | Main => True
  | Worker i => exists w, nth_error ws i = Some w /\ w_state w = WIdle
  end.

(* Distinct waiting workers are distinct idle workers. *)
Lemma idle_count ws waiters :
  NoDup waiters -> (forall t, In t waiters -> idle_at ws t) ->
  cnt is_worker waiters <= cnt (onw is_idle) ws.
Proof.
  revert ws. induction waiters as [|t l IH]; intros ws ND H.
  - cbn. apply cnt_bounds.
  - inversion ND as [|? ? NI ND']; subst. destruct t as [|i].
    + cbn. apply IH; auto. intros t I. apply H. now right.
    + destruct (H (Worker i)) as (w & NW & W); [now left|].
      pose proof (cnt_set_nth (onw is_idle) i w (Wrk WDone [] false) ws NW) as C.
      unfold onw at 3 4 in C. rewrite W in C. cbn [is_idle w_state b2z] in C.
      specialize (IH (set_nth i (Wrk WDone [] false) ws) ND').
      cbn [cnt is_worker b2z].
      assert (cnt is_worker l <= cnt (onw is_idle) (set_nth i (Wrk WDone [] false) ws)); [|lia].
      apply IH. intros [|j] I; [exact Logic.I|]. cbn. rewrite nth_set_nth.
      destruct (Nat.eqb_spec i j).
      * subst. contradiction.
      * apply (H (Worker j)). now right.
Qed.

Lemma NoDup_app_snoc {A} (l : list A) x : NoDup l -> ~ In x l -> NoDup (l ++ [x]).
Proof.
  induction 1 as [|y l Y N IH]; cbn; intros H; [constructor; auto using NoDup_nil|].
  constructor.
  - rewrite in_app_iff. cbn. intuition.
  - apply IH. auto.
Qed.

Section Live.

Variable c : config.
Variable N : nat.            (* number of workers *)
Variable depth : nat.

Hypothesis no_stop : forall r, In r (requests (f_plan c)) -> is_stop r = false.
Hypothesis some_workers : (0 < N)%nat.
Hypothesis deep : (N <= depth)%nat.

Record live (s : st) : Prop := {
  v_max : q_max (q s) = depth;
  v_count : match main s with
            | MStart k => (length (workers s) + k = N)%nat
            | MRun _ | MStop _ | MJoin false => length (workers s) = N
            | _ => True
            end /\ (length (workers s) <= N)%nat;
  v_plan : match main s with
           | MRun l => (forall r, In r (requests l) -> is_stop r = false)
           | _ => True
           end;
  v_nodup : NoDup (q_waiters (q s));
  v_wait : forall t, In t (q_waiters (q s)) ->
    match t with
    | Worker i => exists w, nth_error (workers s) i = Some w /\ w_state w = WIdle
    | Main => match main s with MRun (Put _ :: _) | MStop (S _) => True | _ => False end
    end;
  v_closed : q_closed (q s) = true -> q_waiters (q s) = [] /\ q_items (q s) = [];
  v_aborted : match main s with MJoin true => q_closed (q s) = true | _ => True end;
  v_open : q_closed (q s) = false ->
    (length (q_items (q s)) <= depth)%nat /\
    (0 < cnt is_worker (q_waiters (q s)) ->
       cnt is_worker (q_waiters (q s)) + zlen (q_items (q s)) <= cnt (onw alive) (workers s)) /\
    (In Main (q_waiters (q s)) ->
       length (q_items (q s)) = depth /\ cnt is_worker (q_waiters (q s)) = 0) /\
    (cnt (onw stopped) (workers s) <= cnt is_stop (q_got (q s)) <=
       cnt (onw stopped) (workers s) + cnt (onw broken) (workers s)) /\
    q_put (q s) = q_got (q s) ++ q_items (q s) /\
    cnt (onw is_cancel) (workers s) = 0 /\
    (match main s with
     | MStart _ | MRun _ => cnt is_stop (q_put (q s)) = 0
     | MStop k => cnt is_stop (q_put (q s)) + Z.of_nat k = zlen (workers s)
     | MJoin false => cnt is_stop (q_put (q s)) = zlen (workers s)
     | _ => True
     end)
}.

Lemma init_live n d : (1 + Z.to_nat (n - 1) = N)%nat -> live (init depth n d).
Proof.
  intros E. constructor; cbn; auto; try lia; try discriminate.
  - constructor.
  - intros _. repeat split; auto; try lia; intros [].
Qed.

Lemma alive_bound s : live s -> cnt (onw alive) (workers s) <= Z.of_nat depth.
Proof.
  intros L. pose proof (cnt_bounds (onw alive) (workers s)) as H. unfold zlen in H.
  pose proof (proj2 (v_count _ L)). lia.
Qed.

(* Putting an item. *)
Lemma put_live k r s q' a m :
  live s -> try_put Main k r (q s) = (q', a) -> blocked Main (q s) = false ->
  (match main s with MRun (Put _ :: _) | MStop (S _) => True | _ => False end) ->
  (a = Waiting -> m = main s) ->
  (a = Raised -> match m with MStart _ => False | MJoin true => False
                 | MRun l => (forall r, In r (requests l) -> is_stop r = false) | _ => True end) ->
  (a = Got tt -> match m with
     | MRun l => (forall r, In r (requests l) -> is_stop r = false) /\ cnt is_stop (q_put (q s)) = 0 /\
                 is_stop r = false
     | MStop k => cnt is_stop (q_put (q s)) + b2z (is_stop r) + Z.of_nat k = zlen (workers s)
     | _ => False end) ->
  live (St m (workers s) q' (errors s) (dst s) (done s) (progress s)).
Proof.
  intros L T BL MS HW HR HG. unfold try_put in T. pose proof (alive_bound _ L) as AB.
  destruct L as [L1 L2 L3 L4 L5 L6 L7 L8]. apply blocked_not_in in BL.
  destruct (q_closed (q s)) eqn:QC.
  { injection T as <- <-. specialize (HR eq_refl). destruct (L6 eq_refl) as [L6a L6b].
    constructor; cbn; auto.
    - destruct (main s) as [| | | |[|]|]; try contradiction; destruct m as [| | | |[|]|]; intuition.
    - destruct m; intuition.
    - rewrite L6a. contradiction.
    - destruct m as [| | | |[|]|]; auto; contradiction.
    - intros X; congruence. }
  destruct (L8 eq_refl) as (O1 & O2 & O3 & O4 & O5 & O6 & O7). clear L8.
  destruct (Nat.eqb_spec (length (q_items (q s))) (q_max (q s))) as [F|F]; injection T as <- <-.
  - rewrite (HW eq_refl). clear HW HR HG.
    assert (NW : cnt is_worker (q_waiters (q s)) = 0).
    { pose proof (cnt_bounds is_worker (q_waiters (q s))).
      unfold zlen in O2. rewrite F, L1 in O2.
      destruct (Z.eq_dec (cnt is_worker (q_waiters (q s))) 0); auto.
      assert (0 < Z.of_nat depth) by lia. lia. }
    constructor; cbn; auto; try discriminate.
    + apply NoDup_app_snoc; auto.
    + intros t I. apply in_app_iff in I. destruct I as [I|[<-|[]]]; auto.
      apply (L5 t I).
    + intros _. rewrite cnt_app. cbn. rewrite NW.
      repeat (split; auto; try lia).
  - assert (CW : cnt is_worker (notify k (q_waiters (q s))) =
                 Z.max 0 (cnt is_worker (q_waiters (q s)) - 1)) by (apply notify_workers; auto).
    specialize (HG eq_refl). clear HW HR.
    constructor; cbn [main workers q q_max q_closed q_waiters q_items q_put q_got]; auto; try discriminate.
    + destruct (main s) as [| | | |[|]|]; try contradiction; destruct m; try contradiction; intuition.
    + destruct m; try contradiction; intuition.
    + now apply notify_nodup.
    + intros t I. apply notify_in in I. specialize (L5 t I). destruct t; try contradiction; auto.
    + destruct m as [| | | |[|]|]; auto; contradiction.
    + intros _. rewrite app_length, zlen_app. cbn [length]. change (zlen [r]) with 1.
      split; [lia|]. split.
      { rewrite CW. intros X. lia. }
      split. { intros X. apply notify_in in X. contradiction. }
      split; auto. split. { rewrite O5. now rewrite app_assoc. }
      split; auto. rewrite cnt_app. cbn [cnt].
      destruct m; try contradiction.
      * destruct HG as (_ & -> & ->). reflexivity.
      * lia.
Qed.

Lemma main_step_live k s s' :
  live s -> blocked Main (q s) = false -> main_step c k s = Some s' -> live s'.
Proof.
  intros L BL E. unfold main_step in E.
  destruct (main s) as [[|n]|[|[r|n] l]|[|n]| |aborted|b] eqn:M; try discriminate.
  - injection E as <-. destruct L as [L1 L2 L3 L4 L5 L6 L7 L8]. rewrite M in *.
    constructor; cbn; auto; try tauto; try lia.
    intros t I. specialize (L5 t I). destruct t; try contradiction; auto.
  - injection E as <-. destruct L as [L1 L2 L3 L4 L5 L6 L7 L8]. rewrite M in *.
    constructor; cbn; auto.
    + rewrite app_length. cbn. lia.
    + intros t I. specialize (L5 t I). destruct t as [|i]; auto.
      destruct L5 as (w & W1 & W2). exists w. split; auto. rewrite nth_error_app1; auto.
      apply nth_error_Some. congruence.
    + intros QC. destruct (L8 QC) as (O1 & O2 & O3 & O4 & O5 & O6 & O7).
      rewrite !cnt_app. cbn [cnt onw w_state alive stopped broken is_cancel negb b2z].
      repeat (split; auto; try lia).
  - injection E as <-. destruct L as [L1 L2 L3 L4 L5 L6 L7 L8]. rewrite M in *.
    constructor; cbn; auto; try tauto.
    + intros t I. specialize (L5 t I). destruct t; try contradiction; auto.
    + intros QC. destruct (L8 QC) as (O1 & O2 & O3 & O4 & O5 & O6 & O7).
      repeat (split; auto; try lia). rewrite O7. reflexivity.
  - destruct (try_put Main k r (q s)) as [q' a] eqn:T. injection E as <-.
    eapply put_live; eauto.
    + rewrite M. exact I.
    + intros ->. congruence.
    + intros ->. exact I.
    + intros ->. pose proof (v_plan _ L) as P. rewrite M in P. cbn in P.
      pose proof (v_open _ L) as O. rewrite M in O.
      assert (QC : q_closed (q s) = false).
      { unfold try_put in T. destruct (q_closed (q s)); auto. discriminate. }
      repeat split; auto. tauto.
  - injection E as <-. destruct L as [L1 L2 L3 L4 L5 L6 L7 L8]. rewrite M in *.
    constructor; cbn; auto; try tauto.
    intros t I. specialize (L5 t I). destruct t; try contradiction; auto.
  - injection E as <-. destruct L as [L1 L2 L3 L4 L5 L6 L7 L8]. rewrite M in *.
    constructor; cbn; auto; try tauto.
    + intros QC. destruct (L8 QC) as (O1 & O2 & O3 & O4 & O5 & O6 & O7).
      repeat (split; auto; try lia).
  - destruct (try_put Main k (Request STOP 0 0) (q s)) as [q' a] eqn:T. injection E as <-.
    eapply put_live; eauto.
    + rewrite M. exact I.
    + intros ->. congruence.
    + intros ->. exact I.
    + intros ->. pose proof (v_open _ L) as O. rewrite M in O.
      assert (QC : q_closed (q s) = false).
      { unfold try_put in T. destruct (q_closed (q s)); auto. discriminate. }
      destruct (O QC) as (_ & _ & _ & _ & _ & _ & O7). cbn. lia.
  - injection E as <-. destruct L as [L1 L2 L3 L4 L5 L6 L7 L8]. rewrite M in *.
    constructor; cbn; auto; try tauto; try discriminate. constructor.
  - destruct (forallb _ _); [|discriminate].
    injection E as <-. destruct L as [L1 L2 L3 L4 L5 L6 L7 L8]. rewrite M in *.
    constructor; cbn; auto; try tauto.
Qed.

Lemma main_fail_live s s' : live s -> blocked Main (q s) = false -> main_fail s = Some s' -> live s'.
Proof.
  intros L BL E. apply blocked_not_in in BL. unfold main_fail in E.
  destruct L as [L1 L2 L3 L4 L5 L6 L7 L8].
  destruct (main s) eqn:M; try discriminate; injection E as <-;
    (constructor; cbn; auto; try tauto).
  intros t I. specialize (L5 t I). destruct t; try contradiction; auto.
Qed.

(* A worker that does not use the queue. *)
Lemma move_live i w x buf dirty e d dn p s :
  live s -> nth_error (workers s) i = Some w -> w_state w <> WIdle ->
  (q_closed (q s) = false ->
     b2z (alive (w_state w)) <= b2z (alive x) /\
     b2z (stopped x) <= b2z (stopped (w_state w)) <= b2z (stopped x) + b2z (broken x) - b2z (broken (w_state w)) /\
     is_cancel x = false) ->
  live (St (main s) (set_nth i (Wrk x buf dirty) (workers s)) (q s) e d dn p).
Proof.
  intros [L1 L2 L3 L4 L5 L6 L7 L8] NW NI H.
  constructor; cbn; auto.
  - now rewrite length_set_nth.
  - intros t I. specialize (L5 t I). destruct t as [|j]; auto.
    rewrite nth_set_nth. destruct (Nat.eqb_spec i j); auto. subst j.
    destruct L5 as (y & Y1 & Y2). congruence.
  - intros QC. destruct (L8 QC) as (O1 & O2 & O3 & O4 & O5 & O6 & O7). destruct (H QC) as (H1 & H2 & H3).
    rewrite !(cnt_set_nth _ i w _ _ NW). unfold onw at 2 3 5 6 8 9 11 12 14 15. cbn [w_state].
    unfold zlen in *. rewrite length_set_nth.
    pose proof (cnt_bounds (onw is_cancel) (workers s)).
    assert (NC : is_cancel (w_state w) = false).
    { destruct (is_cancel (w_state w)) eqn:X; auto.
      pose proof (cnt_in (onw is_cancel) _ _ (nth_error_In _ _ NW) X). lia. }
    rewrite NC, H3. cbn [b2z].
    repeat (split; auto; try lia).
Qed.

Lemma worker_step_live i k a s s' :
  live s -> blocked (Worker i) (q s) = false -> worker_step c i k a s = Some s' -> live s'.
Proof.
  intros L BL E. unfold worker_step in E.
  destruct (nth_error (workers s) i) as [w|] eqn:NW; [|discriminate].
  destruct (w_state w) as [| |r|r sp dp todo| | | | | |] eqn:WS; try discriminate.
  - injection E as <-. eapply move_live; eauto; rewrite WS; [discriminate|].
    destruct (a_ok a); cbn; intros _; repeat split; lia.
  - (* get *)
    apply blocked_not_in in BL. unfold try_get in E.
    destruct (q_closed (q s)) eqn:QC.
    { injection E as <-. destruct L as [L1 L2 L3 L4 L5 L6 L7 L8].
      destruct (L6 QC) as [L6a L6b].
      constructor; cbn; auto.
      - now rewrite length_set_nth.
      - rewrite L6a. contradiction.
      - congruence. }
    destruct L as [L1 L2 L3 L4 L5 L6 L7 L8]. rewrite QC in L7.
    destruct (L8 QC) as (O1 & O2 & O3 & O4 & O5 & O6 & O7). clear L8.
    assert (WI : forall f x buf dirty, cnt (onw f) (set_nth i (Wrk x buf dirty) (workers s)) =
               cnt (onw f) (workers s) - b2z (f WIdle) + b2z (f x)).
    { intros. rewrite (cnt_set_nth _ i w _ _ NW). unfold onw at 2 3. cbn. now rewrite WS. }
    destruct (q_items (q s)) as [|r items] eqn:QI.
    + injection E as <-.
      assert (ND : NoDup (q_waiters (q s) ++ [Worker i])) by (apply NoDup_app_snoc; auto).
      assert (IW : forall t, In t (q_waiters (q s) ++ [Worker i]) ->
                 match t with
                 | Worker j => exists w0, nth_error (set_nth i (Wrk WIdle (w_buf w) (w_dirty w)) (workers s)) j = Some w0 /\ w_state w0 = WIdle
                 | Main => match main s with MRun (Put _ :: _) | MStop (S _) => True | _ => False end
                 end).
      { intros t I. apply in_app_iff in I. destruct I as [I|[<-|[]]].
        - specialize (L5 t I). destruct t as [|j]; auto. rewrite nth_set_nth.
          destruct (Nat.eqb_spec i j); auto. subst j. rewrite NW. eexists. split; eauto.
        - rewrite nth_set_nth, Nat.eqb_refl, NW. eexists. split; eauto. }
      constructor; cbn [main workers q q_max q_closed q_waiters q_items q_put q_got]; auto; try discriminate.
      * now rewrite length_set_nth.
      * intros _. split; [cbn; lia|]. split.
        { intros _. change (zlen (@nil request)) with 0.
          pose proof (idle_count (set_nth i (Wrk WIdle (w_buf w) (w_dirty w)) (workers s)) _ ND) as IC.
          etransitivity; [|apply (cnt_le (onw is_idle) (onw alive))].
          - rewrite Z.add_0_r. apply IC. intros t I. specialize (IW t I). destruct t; auto. exact Logic.I.
          - intros x. unfold onw. destruct (w_state x); cbn; congruence. }
        rewrite !WI. cbn [stopped broken is_cancel b2z].
        split. { intros I. apply in_app_iff in I. destruct I as [I|[I|[]]]; [|discriminate].
                 destruct (O3 I). cbn in H. lia. }
        unfold zlen in *. rewrite length_set_nth. rewrite !Z.sub_0_r, !Z.add_0_r. auto.
    + injection E as <-.
      set (x := match r_op r with ZERO => WZero r | COPY => WCopy r (r_start r) (r_start r) (r_length r) | STOP => WFlush end).
      set (ws := if (length items =? q_max (q s) - 1)%nat then notify k (q_waiters (q s)) else q_waiters (q s)).
      assert (WSI : forall t, In t ws -> In t (q_waiters (q s))).
      { intros t. unfold ws. destruct (_ =? _)%nat; auto. apply notify_in. }
      assert (XS : b2z (alive x) = 1 - b2z (is_stop r) /\ b2z (stopped x) = b2z (is_stop r) /\
                   b2z (broken x) = 0 /\ b2z (is_cancel x) = 0).
      { unfold x, is_stop. destruct (r_op r); cbn; auto. }
      destruct XS as (X1 & X2 & X3 & X4).
      assert (XB : 0 <= b2z (is_stop r) <= 1) by (destruct (is_stop r); cbn; lia).
      assert (WC : cnt is_worker ws <= cnt is_worker (q_waiters (q s)) /\ 0 <= cnt is_worker ws).
      { split; [|apply cnt_bounds]. unfold ws. destruct (_ =? _)%nat; [|lia].
        unfold notify. destruct (q_waiters (q s)) as [|t l] eqn:QW; [reflexivity|].
        set (j := if (k <? length (t :: l))%nat then k else 0%nat).
        assert (J : (j < length (t :: l))%nat).
        { subst j. destruct (Nat.ltb_spec k (length (t :: l))); cbn in *; lia. }
        destruct (cnt_remove_nth is_worker j _ J) as (y & _ & ->).
        destruct (is_worker y); cbn [b2z]; lia. }
      assert (WM : ~ In Main ws).
      { intros I. pose proof (WSI _ I) as I'. destruct (O3 I') as [F Z0]. cbn [length] in F.
        unfold ws in I. replace (length items =? q_max (q s) - 1)%nat with true in I
          by (symmetry; apply Nat.eqb_eq; lia).
        assert (Q1 : q_waiters (q s) = [Main]).
        { assert (ALL : forall t, In t (q_waiters (q s)) -> t = Main).
          { intros [|j] J; auto. pose proof (cnt_in is_worker _ _ J eq_refl). lia. }
          destruct (q_waiters (q s)) as [|t l]; [contradiction|].
          rewrite (ALL t) in * by (now left). destruct l as [|t' l]; auto. exfalso.
          rewrite (ALL t') in L4 by (right; now left). inversion L4. subst. apply H1. now left. }
        rewrite Q1 in I. unfold notify in I. destruct (k <? length [Main])%nat eqn:KK in I.
        - apply Nat.ltb_lt in KK. cbn in KK. replace k with 0%nat in I by lia. contradiction.
        - contradiction. }
      constructor; cbn [main workers q q_max q_closed q_waiters q_items q_put q_got]; auto; try discriminate.
      * now rewrite length_set_nth.
      * unfold ws. destruct (_ =? _)%nat; auto. now apply notify_nodup.
      * intros t I. pose proof (WSI t I) as I'. specialize (L5 t I'). destruct t as [|j]; auto.
        rewrite nth_set_nth. destruct (Nat.eqb_spec i j); auto. subst j. contradiction.
      * intros _. rewrite !WI. cbn [alive stopped broken is_cancel negb b2z] in *.
        rewrite cnt_app. cbn [cnt]. rewrite zlen_cons in O2. cbn [length] in O1.
        split; [lia|]. split.
        { intros Y. lia. }
        split; [contradiction|]. split; [lia|].
        split. { rewrite <- app_assoc. exact O5. }
        split; [lia|]. unfold zlen in *. rewrite length_set_nth. exact O7.
  - destruct (a_ok a); injection E as <-; (eapply move_live; eauto; rewrite WS; [discriminate|];
    cbn; intros _; repeat split; lia).
  - destruct (copy_chunk c a sp dp todo (w_buf w) (dst s)) as [[[[buf sp'] dst'] dp'] todo'].
    destruct (a_ok a); [destruct (todo' =? 0)|]; injection E as <-;
      (eapply move_live; eauto; rewrite WS; [discriminate|]; cbn; intros _; repeat split; lia).
  - destruct (a_ok a); injection E as <-; (eapply move_live; eauto; rewrite WS; [discriminate|];
    cbn; intros _; repeat split; lia).
  - injection E as <-; (eapply move_live; eauto; rewrite WS; [discriminate|];
    destruct (a_ok a); cbn; intros _; repeat split; lia).
  - injection E as <-. eapply move_live; eauto; rewrite WS; [discriminate|].
    intros QC. exfalso. destruct (v_open _ L QC) as (_ & _ & _ & _ & _ & O6 & _).
    assert (onw is_cancel w = true) by (unfold onw; now rewrite WS).
    pose proof (cnt_in (onw is_cancel) _ _ (nth_error_In _ _ NW) H). lia.
  - injection E as <-. eapply move_live; eauto; rewrite WS; [discriminate|].
    cbn. intros _. repeat split; lia.
  - injection E as <-. destruct L as [L1 L2 L3 L4 L5 L6 L7 L8].
    constructor; cbn; auto; try discriminate.
    + now rewrite length_set_nth.
    + constructor.
    + contradiction.
    + destruct (main s) as [| | | |[|]|]; auto.
Qed.

Lemma step_live l s s' : live s -> step c l s = Some s' -> live s'.
Proof.
  intros L E. unfold step in E. destruct l as [k| |i k a].
  - destruct (blocked Main (q s)) eqn:B; [discriminate|]. eapply main_step_live; eauto.
  - destruct (blocked Main (q s)) eqn:B; [discriminate|]. eapply main_fail_live; eauto.
  - destruct (blocked (Worker i) (q s)) eqn:B; [discriminate|]. eapply worker_step_live; eauto.
Qed.

Lemma exec_live tr s s' : live s -> exec c tr s = Some s' -> live s'.
Proof.
  apply (exec_inv c (fun _ => True) live).
  - intros l x y _ L E. eapply step_live; eauto.
  - apply Forall_forall. auto.
Qed.

(* Somebody can always run. *)
Lemma live_progress s : live s -> ~ finished s ->
  exists l s', fine l /\ complete l /\ step c l s = Some s'.
Proof.
  intros L NF.
  destruct (existsb (fun i => negb (blocked (Worker i) (q s)) &&
              match nth_error (workers s) i with
              | Some w => negb (is_done (w_state w)) | None => false end)
              (seq 0 (length (workers s)))) eqn:EX.
  { apply existsb_exists in EX. destruct EX as (i & _ & EX).
    apply andb_true_iff in EX. destruct EX as [B W].
    destruct (nth_error (workers s) i) as [w|] eqn:NW; [|discriminate].
    set (a := Answer true 1 None None).
    destruct (worker_step c i 0 a s) as [s'|] eqn:E.
    - exists (LWorker i 0 a), s'. cbn. repeat split; auto.
      apply negb_true_iff in B. now rewrite B.
    - exfalso. unfold worker_step in E. rewrite NW in E.
      destruct (w_state w) as [| |r|r sp dp todo| | | | | |]; try discriminate.
      + destruct (try_get (Worker i) 0 (q s)). discriminate.
      + destruct (copy_chunk c a sp dp todo (w_buf w) (dst s)) as [[[[x1 x2] x3] x4] x5].
        cbn in E. destruct (x5 =? 0); discriminate. }
  assert (ALL : forall i w, nth_error (workers s) i = Some w ->
            blocked (Worker i) (q s) = true \/ w_state w = WDone).
  { intros i w NW. destruct (blocked (Worker i) (q s)) eqn:B; auto. right.
    destruct (is_done (w_state w)) eqn:D; [destruct (w_state w); auto; discriminate|].
    exfalso. apply not_true_iff_false in EX. apply EX. apply existsb_exists. exists i. split.
    - apply in_seq. assert (i < length (workers s))%nat by (apply nth_error_Some; congruence). lia.
    - now rewrite B, NW, D. }
  clear EX.
  destruct (blocked Main (q s)) eqn:BM.
  - exfalso. apply blocked_in in BM.
    destruct L as [L1 L2 L3 L4 L5 L6 L7 L8].
    destruct (q_closed (q s)) eqn:QC. { destruct (L6 eq_refl) as [X _]. rewrite X in BM. contradiction. }
    destruct (L8 eq_refl) as (O1 & O2 & O3 & O4 & O5 & O6 & O7). destruct (O3 BM) as [F NW].
    assert (AD : forall w, In w (workers s) -> w_state w = WDone).
    { intros w I. apply In_nth_error in I. destruct I as [i I]. destruct (ALL i w I) as [B|]; auto.
      apply blocked_in in B. pose proof (cnt_in is_worker _ _ B eq_refl). lia. }
    assert (C1 : cnt (onw stopped) (workers s) = zlen (workers s)).
    { apply cnt_all. intros w I. unfold onw. now rewrite (AD w I). }
    assert (C2 : cnt is_stop (q_put (q s)) = cnt is_stop (q_got (q s)) + cnt is_stop (q_items (q s)))
      by now rewrite O5, cnt_app.
    pose proof (cnt_bounds is_stop (q_items (q s))) as C3.
    specialize (L5 Main BM). cbn in L5. unfold zlen in *.
    destruct (main s) as [|[|[r|n] l]|[|n]| |[|]|]; try contradiction; lia.
  - destruct (main_step c 0 s) as [s'|] eqn:E.
    { exists (LMain 0), s'. cbn. rewrite BM. auto. }
    exfalso. unfold main_step in E.
    destruct (main s) as [[|n]|[|[r|n] l]|[|n]| |ab|b] eqn:M; try discriminate.
    + destruct (try_put Main 0 r (q s)). discriminate.
    + destruct (try_put Main 0 (Request STOP 0 0) (q s)). discriminate.
    + destruct (forallb _ _) eqn:F; [discriminate|].
      assert (WX : exists i w, nth_error (workers s) i = Some w /\ w_state w <> WDone).
      { apply not_true_iff_false in F. rewrite forallb_forall in F.
        destruct (existsb (fun w => negb (is_done (w_state w))) (workers s)) eqn:EX.
        - apply existsb_exists in EX. destruct EX as (w & I & W). apply In_nth_error in I.
          destruct I as [i I]. exists i, w. split; auto. intros X. rewrite X in W. discriminate.
        - exfalso. apply F. intros w I. destruct (w_state w) eqn:WS; auto;
            (apply not_true_iff_false in EX; exfalso; apply EX; apply existsb_exists; exists w;
             split; auto; now rewrite WS). }
      destruct WX as (i & w & NW & WD).
      destruct (ALL i w NW) as [B|]; [|contradiction]. apply blocked_in in B.
      destruct L as [L1 L2 L3 L4 L5 L6 L7 L8]. rewrite M in *.
      destruct (q_closed (q s)) eqn:QC. { destruct (L6 eq_refl) as [X _]. rewrite X in B. contradiction. }
      destruct ab; [discriminate|].
      destruct (L8 eq_refl) as (O1 & O2 & O3 & O4 & O5 & O6 & O7).
      pose proof (cnt_in is_worker _ _ B eq_refl) as P. specialize (O2 P).
      assert (C1 : cnt (onw broken) (workers s) = 0).
      { apply cnt_none. intros y I. apply In_nth_error in I. destruct I as [j I].
        unfold onw. destruct (ALL j y I) as [Y|Y].
        - apply blocked_in in Y. destruct (L5 _ Y) as (z & Z1 & Z2).
          rewrite I in Z1. injection Z1 as <-. now rewrite Z2.
        - now rewrite Y. }
      assert (C2 : cnt is_stop (q_put (q s)) = cnt is_stop (q_got (q s)) + cnt is_stop (q_items (q s)))
        by now rewrite O5, cnt_app.
      pose proof (cnt_bounds is_stop (q_items (q s))) as C3.
      assert (C4 : cnt (onw alive) (workers s) + cnt (onw stopped) (workers s) = zlen (workers s)).
      { clear. induction (workers s) as [|y l IH]; [reflexivity|]. rewrite zlen_cons. cbn [cnt].
        unfold onw at 1 3, alive at 1. destruct (stopped (w_state y)); unfold b2z, negb; lia. }
      lia.
    + apply NF. now exists b.
Qed.

End Live.
