(* Proofs about termination signals. *)
From Coq Require Import ZArith List Bool Lia.
From Coq.Strings Require Import Byte.
From Verif Require Import BytesLib OpsModel ExtentsModel ClientIoModel ClientIoSpec ClientIoProofs SignalModel SignalSpec.
Import ListNotations.
Open Scope Z_scope.

Definition kept (s s' : st) : Prop :=
  q s' = q s /\ errors s' = errors s /\ dst s' = dst s /\ done s' = done s.
Definition got (r : request) : wstate :=
  match r_op r with
  | ZERO => WZero r
  | COPY => WCopy r (r_start r) (r_start r) (r_length r)
  | STOP => WFlush
  end.

(* The transitions of a worker. *)
Inductive wcase (s s' : st) (a : answer) : wstate -> wstate -> Prop :=
| c_new : kept s s' -> wcase s s' a WNew (if a_ok a then WIdle else WError)
| c_cancel : q_closed (q s) = true -> kept s s' -> wcase s s' a WIdle WCancel
| c_wait : q_closed (q s') = q_closed (q s) -> q_items (q s') = q_items (q s) -> errors s' = errors s ->
    dst s' = dst s -> done s' = done s -> wcase s s' a WIdle WIdle
| c_got r : q_closed (q s') = q_closed (q s) -> q_items (q s) = r :: q_items (q s') -> errors s' = errors s ->
    dst s' = dst s -> done s' = done s -> wcase s s' a WIdle (got r)
| c_zero r n : q s' = q s -> errors s' = errors s -> n <= Z.max 0 (r_length r) ->
    dst s' = splice (dst s) (r_start r) (zeros n) -> done s' = (if a_ok a then done s ++ [r] else done s) ->
    (a_written a = Some 0 -> n = 0) ->
    wcase s s' a (WZero r) (if a_ok a then WIdle else WError)
| c_copied r sp dp todo d : q s' = q s -> errors s' = errors s -> zlen d <= Z.max 0 todo ->
    dst s' = splice (dst s) dp d -> done s' = done s ++ [r] -> a_ok a = true ->
    wcase s s' a (WCopy r sp dp todo) WIdle
| c_copying r sp dp todo d sp' dp' todo' : q s' = q s -> errors s' = errors s -> zlen d <= Z.max 0 todo ->
    dst s' = splice (dst s) dp d -> done s' = done s -> a_ok a = true ->
    (0 <= todo -> dp <= dp' /\ 0 <= todo' /\ dp' + todo' <= dp + todo) ->
    wcase s s' a (WCopy r sp dp todo) (WCopy r sp' dp' todo')
| c_failed r sp dp todo d : q s' = q s -> errors s' = errors s -> zlen d <= Z.max 0 todo ->
    dst s' = splice (dst s) dp d -> done s' = done s -> a_ok a = false -> (a_written a = Some 0 -> d = []) ->
    wcase s s' a (WCopy r sp dp todo) WError
| c_flush : kept s s' -> wcase s s' a WFlush (if a_ok a then WClosing else WError)
| c_close x : (x = WClosing \/ x = WCancel) -> kept s s' -> wcase s s' a x (if a_ok a then WDone else WError)
| c_error : q s' = q s -> errors s' = S (errors s) -> dst s' = dst s -> done s' = done s -> wcase s s' a WError WFailed
| c_end : q_closed (q s') = true -> q_items (q s') = [] -> errors s' = errors s -> dst s' = dst s -> done s' = done s ->
    wcase s s' a WFailed WDone.

Lemma splice_nothing l p d : zlen d <= 0 -> splice l p d = l.
Proof. intros H. destruct d as [|x d]; auto. rewrite zlen_cons in H. pose proof (zlen_nonneg d). lia. Qed.

Lemma done_of_le n o : done_of n o <= Z.max 0 n.
Proof. unfold done_of, clamp. destruct o; lia. Qed.
Lemma done_of_nonneg n o : 0 <= done_of n o.
Proof. unfold done_of, clamp. destruct o; lia. Qed.

Lemma worker_case c i k a s s' : ClientIoModel.step c (LWorker i k a) s = Some s' ->
  exists w w', nth_error (workers s) i = Some w /\ workers s' = set_nth i w' (workers s) /\ main s' = main s /\
    wcase s s' a (w_state w) (w_state w').
Proof.
  cbn [ClientIoModel.step]. destruct (blocked _ _); [discriminate|]. unfold worker_step.
  destruct (nth_error (workers s) i) as [w|] eqn:W; [|discriminate]. intros E. exists w.
  destruct (w_state w) as [| |r|r sp dp todo| | | | | |] eqn:WS.
  - injection E as <-. eexists. cbn. repeat (split; [eauto|]). constructor. split; auto.
  - unfold try_get in E. destruct (q_closed (q s)) eqn:C; [|destruct (q_items (q s)) as [|r items] eqn:I].
    + injection E as <-. eexists. cbn. repeat (split; [eauto|]). apply c_cancel; auto. repeat split; auto.
    + injection E as <-. eexists. cbn. repeat (split; [eauto|]). apply c_wait; auto.
    + injection E as <-. eexists. cbn [workers main]. repeat (split; [eauto|]). cbn [w_state].
      fold (got r). apply c_got; cbn; auto.
  - destruct (a_ok a) eqn:O; injection E as <-; eexists; cbn [workers main]; (repeat (split; [eauto|])); cbn [w_state].
    + replace WIdle with (if a_ok a then WIdle else WError) by now rewrite O.
      apply c_zero with (n := done_of (r_length r) (a_written a)); cbn; try rewrite O; auto using done_of_le.
      intros ->. unfold done_of, clamp. lia.
    + replace WError with (if a_ok a then WIdle else WError) by now rewrite O.
      apply c_zero with (n := done_of (r_length r) (a_written a)); cbn; try rewrite O; auto using done_of_le.
      intros ->. unfold done_of, clamp. lia.
  - destruct (copy_chunk c a sp dp todo (w_buf w) (dst s)) as [[[[buf sp'] dst'] dp'] todo'] eqn:CC.
    assert (D : exists d, dst' = splice (dst s) dp d /\ zlen d <= Z.max 0 todo /\
      (0 <= todo -> dp <= dp' /\ 0 <= todo' /\ dp' + todo' <= dp + todo) /\
      (a_ok a = false -> a_written a = Some 0 -> d = [])).
    { unfold copy_chunk in CC. destruct (f_mode c).
      - set (n := Z.min (Z.max 0 todo) (zlen (w_buf w))) in *. injection CC as <- <- <- <- <-.
        pose proof (zlen_nonneg (w_buf w)). assert (0 <= n <= Z.max 0 todo) by (unfold n; lia).
        eexists. split; [reflexivity|]. split; [rewrite zlen_take, zlen_take; lia|].
        split; [intros; pose proof (done_of_le n (a_written a)); pose proof (done_of_nonneg n (a_written a)); lia|].
        intros _ ->. unfold done_of, clamp. replace (Z.max 0 (Z.min (Z.max 0 n) 0)) with 0 by lia. reflexivity.
      - set (n := clamp (Z.min 1 todo) todo (a_chunk a)) in *.
        set (m := if a_ok a then n else done_of n (a_written a)) in *. injection CC as <- <- <- <- <-.
        assert (N : n <= Z.max 0 todo /\ (0 <= todo -> 0 <= n <= todo)) by (unfold n, clamp; lia).
        assert (K : m <= Z.max 0 todo /\ (0 <= todo -> 0 <= m <= todo)).
        { unfold m. destruct (a_ok a); auto. pose proof (done_of_le n (a_written a)).
          pose proof (done_of_nonneg n (a_written a)). lia. }
        eexists. split; [reflexivity|]. split; [rewrite zlen_sub; pose proof (zlen_nonneg (f_src c)); lia|].
        split; [intros; lia|]. intros O Wr. unfold m. rewrite O, Wr. unfold done_of, clamp.
        replace (Z.max 0 (Z.min (Z.max 0 n) 0)) with 0 by lia. unfold sub, take. reflexivity. }
    destruct D as (d & -> & D1 & D2 & D3). destruct (a_ok a) eqn:O; [destruct (todo' =? 0)|]; injection E as <-;
      eexists; cbn [workers main]; (repeat (split; [eauto|])); cbn [w_state].
    + eapply c_copied; cbn; eauto.
    + eapply c_copying; cbn; eauto.
    + eapply c_failed; cbn; eauto.
  - destruct (a_ok a) eqn:O; injection E as <-; eexists; cbn [workers main]; (repeat (split; [eauto|])); cbn [w_state].
    + replace WClosing with (if a_ok a then WClosing else WError) by now rewrite O. constructor. repeat split; auto.
    + replace WError with (if a_ok a then WClosing else WError) by now rewrite O. constructor. repeat split; auto.
  - injection E as <-; eexists; cbn [workers main]; (repeat (split; [eauto|])); cbn [w_state]. constructor; auto. repeat split; auto.
  - injection E as <-; eexists; cbn [workers main]; (repeat (split; [eauto|])); cbn [w_state]. constructor; auto. repeat split; auto.
  - injection E as <-; eexists; cbn [workers main]; (repeat (split; [eauto|])); cbn [w_state]. constructor; auto.
  - injection E as <-; eexists; cbn [workers main]; (repeat (split; [eauto|])); cbn [w_state]. constructor; auto.
  - discriminate.
Qed.

Ltac sp := repeat match goal with |- _ /\ _ => split end; try (now auto); try (intros; congruence).
Ltac ex := eexists; split; [reflexivity|exact I].

(* The steps of the main thread. *)
Lemma main_case c l s s' : (exists k, l = LMain k) \/ l = LMainFail -> ClientIoModel.step c l s = Some s' ->
  (workers s' = workers s \/ (exists n, main s = MStart (S n) /\ main s' = MStart n) /\ workers s' = workers s ++ [Wrk WNew (zeros (f_buffer c)) false]) /\
  errors s' = errors s /\ dst s' = dst s /\ done s' = done s /\
  (q_closed (q s') = q_closed (q s) \/ main s = MAbort) /\
  (main s = MAbort -> main s' = MJoin true) /\
  (forall r, In r (q_items (q s')) -> In r (q_items (q s)) \/ r = Request STOP 0 0 \/ exists l, main s = MRun (Put r :: l)) /\
  (forall l, main s' = MRun l -> l = f_plan c \/ exists l', main s = MRun l' /\ incl l l') /\
  match main s with
  | MStart O => main s' = MRun (f_plan c) \/ main s' = MAbort
  | MStart (S n) => main s' = MStart n \/ main s' = MAbort
  | MRun _ => exists x, main s' = x /\ match x with MRun _ | MStop _ | MAbort => True | _ => False end
  | MStop _ => exists x, main s' = x /\ match x with MStop _ | MJoin false => True | _ => False end
  | MAbort => True
  | MJoin a => Forall (fun w => w_state w = WDone) (workers s) /\ workers s' = workers s /\
               main s' = MDone (negb a && (errors s =? 0)%nat)
  | MDone _ => False
  end.
Proof.
  intros L E.
  assert (P : forall k x, q_closed (fst (try_put Main k x (q s))) = q_closed (q s) /\
     forall r, In r (q_items (fst (try_put Main k x (q s)))) -> In r (q_items (q s)) \/ r = x).
  { intros k x. unfold try_put. destruct (q_closed (q s)) eqn:C; cbn; [auto|].
    destruct (_ =? _)%nat; cbn; [auto|]. split; auto. intros r I. apply in_app_or in I. destruct I as [I|[<-|[]]]; auto. }
  destruct L as [[k ->]| ->]; cbn [ClientIoModel.step] in E; destruct (blocked _ _); try discriminate.
  - unfold main_step in E. destruct (main s) as [[|n]|[|[r|n] l]|[|n]| |ab|b] eqn:M.
    + injection E as <-. cbn. sp. intros l [= <-]; auto.
    + injection E as <-. cbn. sp. right; split; eauto.
    + injection E as <-. cbn. sp. ex.
    + specialize (P k r). destruct (try_put Main k r (q s)) as [q' a]. cbn in P. destruct P as [P1 P2]. injection E as <-. cbn. sp.
      * intros x X; destruct (P2 x X) as [| ->]; eauto.
      * intros l0 L. destruct a; try congruence; right; exists (Put r :: l); (split; [auto|]).
        -- injection L as <-. apply incl_refl.
        -- injection L as <-. apply incl_tl, incl_refl.
      * destruct a; ex.
    + injection E as <-. cbn. sp.
      * intros l0 [= <-]; right; eexists; split; [reflexivity|]; apply incl_tl, incl_refl.
      * ex.
    + injection E as <-. cbn. sp. ex.
    + specialize (P k (Request STOP 0 0)). destruct (try_put Main k (Request STOP 0 0) (q s)) as [q' a]. cbn in P. destruct P as [P1 P2].
      injection E as <-. cbn. sp.
      * intros x X; destruct (P2 x X) as [| ->]; eauto.
      * destruct a; intros; congruence.
      * destruct a; ex.
    + injection E as <-. cbn. sp.
    + destruct (forallb _ (workers s)) eqn:F; [|discriminate]. injection E as <-. cbn. sp.
      apply Forall_forall. intros w W. rewrite forallb_forall in F. specialize (F w W). destruct (w_state w); congruence.
    + discriminate.
  - unfold main_fail in E. destruct (main s) as [[|n]|l| | | |] eqn:M; try discriminate; injection E as <-; cbn; sp. ex.
Qed.

(* ---- steps of the whole system ---- *)

Lemma nothing_case s s' x y : wcase s s' nothing x y -> has_request x = true -> y = WError /\ kept s s'.
Proof.
  intros C H. unfold kept. destruct C as [?|? ?|? ? ? ? ?|r ? ? ? ? ?|r n A1 A2 A3 A4 A5 A6|r sp dp todo d A1 A2 A3 A4 A5 A6
    |r sp dp todo d sp' dp' todo' A1 A2 A3 A4 A5 A6 A7|r sp dp todo d A1 A2 A3 A4 A5 A6 A7|?|x X ?|? ? ? ?|? ? ? ? ?]; try discriminate; auto.
  - rewrite (A6 eq_refl) in A4. change (zeros 0) with (@nil byte) in A4. cbn in A4. auto.
  - rewrite (A7 eq_refl) in A4. cbn in A4. auto.
Qed.

Lemma done_case s s' a y : ~ wcase s s' a WDone y.
Proof. intros C. remember WDone as x. destruct C; try discriminate. destruct H; congruence. Qed.
Lemma error_case s s' a y : wcase s s' a WError y -> y = WFailed.
Proof. intros C. remember WError as x. destruct C; try discriminate; auto. destruct H; congruence. Qed.
Lemma errors_case s s' a x y : wcase s s' a x y -> errors s' = if is_error x then S (errors s) else errors s.
Proof. intros C. destruct C; cbn; unfold kept in *; try tauto; auto. destruct H as [-> | ->]; cbn; tauto. Qed.
Lemma closed_case s s' a x y : wcase s s' a x y -> q_closed (q s') = true -> q_closed (q s) = true \/ x = WFailed.
Proof.
  intros C CL. destruct C; unfold kept in *; auto; left;
    repeat match goal with H : _ /\ _ |- _ => destruct H end; congruence.
Qed.
Lemma failed_case s s' a x : wcase s s' a x WFailed -> x = WError.
Proof.
  intros C. remember WFailed as y. destruct C; try discriminate; auto; try (destruct (a_ok a); discriminate).
  unfold got in Heqy. destruct (r_op r); discriminate.
Qed.

Inductive scase (c : config) (s s' : state) : event -> Prop :=
| s_signal n : s' = State (io s) (handle_signal n (flag s)) (checked s) (raised s) (reported s) (result s) ->
    scase c s s' (Signal n)
| s_pass i ok w : nth_error (workers (io s)) i = Some w -> has_request (w_state w) = true -> checked s i = false ->
    flag s = None ->
    s' = State (io s) (flag s) (upd (checked s) i true) (raised s) (reported s) (result s) ->
    scase c s s' (Check i ok)
| s_stop i (ok : bool) w w' n : nth_error (workers (io s)) i = Some w -> has_request (w_state w) = true -> checked s i = false ->
    flag s = Some n -> ClientIoModel.step c (LWorker i 0 nothing) (io s) = Some (io s') ->
    workers (io s') = set_nth i w' (workers (io s)) -> main (io s') = main (io s) -> w_state w' = WError ->
    wcase (io s) (io s') nothing (w_state w) (w_state w') ->
    s' = State (io s') (flag s) (checked s) (upd (raised s) i (if ok then Terminated n else Other)) (reported s) (result s) ->
    scase c s s' (Check i ok)
| s_worker i k a w w' : nth_error (workers (io s)) i = Some w ->
    (has_request (w_state w) = true -> checked s i = true) ->
    ClientIoModel.step c (LWorker i k a) (io s) = Some (io s') ->
    workers (io s') = set_nth i w' (workers (io s)) -> main (io s') = main (io s) ->
    wcase (io s) (io s') a (w_state w) (w_state w') ->
    s' = State (io s') (flag s) (if has_request (w_state w) then checked s else upd (checked s) i false)
           (if negb (is_error (w_state w)) && is_error (w_state w') then upd (raised s) i Other else raised s)
           (if is_error (w_state w) then reported s ++ [raised s i] else reported s) (result s) ->
    scase c s s' (Run (LWorker i k a))
| s_main l : ((exists k, l = LMain k) \/ l = LMainFail) -> ClientIoModel.step c l (io s) = Some (io s') ->
    s' = State (io s') (flag s) (checked s) (raised s) (reported s)
          (match main (io s') with
           | MDone _ => Some (match main (io s) with
                              | MJoin true => inr Other
                              | _ => match reported s with [] => inl tt | x :: _ => inr x end
                              end : unit + exn)
           | _ => result s end) ->
    scase c s s' (Run l).

Lemma nth_set_same i w' (l : list worker) w : nth_error l i = Some w -> nth_error (set_nth i w' l) i = Some w'.
Proof. revert i. induction l as [|x l IH]; intros [|i] H; try discriminate; cbn in *; auto. Qed.
Lemma nth_set_other i j w' (l : list worker) : j <> i -> nth_error (set_nth i w' l) j = nth_error l j.
Proof. revert i j. induction l as [|x l IH]; intros [|i] [|j] H; cbn; auto; try congruence. Qed.
Lemma upd_same {A} (f : nat -> A) i x : upd f i x i = x.
Proof. unfold upd. now rewrite Nat.eqb_refl. Qed.
Lemma upd_other {A} (f : nat -> A) i j x : j <> i -> upd f i x j = f j.
Proof. intros N. unfold upd. destruct (Nat.eqb_spec j i); congruence. Qed.

Lemma step_case c e s s' : step c e s = Some s' -> scase c s s' e.
Proof.
  intros E. destruct e as [n|i ok|l]; cbn [step] in E.
  - injection E as <-. now constructor.
  - destruct (has_request (wstate_of i (io s))) eqn:H; cbn [andb] in E; [|discriminate]. destruct (checked s i) eqn:K; cbn [negb] in E; [discriminate|].
    unfold wstate_of in H. destruct (nth_error (workers (io s)) i) as [w|] eqn:W; [|discriminate].
    destruct (flag s) as [n|] eqn:F; cbn [check_terminated] in E.
    + destruct (ClientIoModel.step c (LWorker i 0 nothing) (io s)) as [io'|] eqn:S; [|discriminate].
      destruct (worker_case _ _ _ _ _ _ S) as (w0 & w' & W0 & WS & M & C). rewrite W in W0. injection W0 as <-.
      injection E as E. symmetry in E. assert (io s' = io') by (now rewrite E). subst io'.
      eapply s_stop with (w := w) (w' := w'); eauto.
      * exact (proj1 (nothing_case _ _ _ _ C H)).
      * rewrite F. exact E.
    + injection E as <-. eapply s_pass; eauto. rewrite F. reflexivity.
  - destruct l as [k| |i k a].
    + destruct (ClientIoModel.step c (LMain k) (io s)) as [io'|] eqn:S; [|discriminate].
      injection E as E. symmetry in E. assert (io s' = io') by (now rewrite E). subst io'. apply s_main; eauto.
    + destruct (ClientIoModel.step c LMainFail (io s)) as [io'|] eqn:S; [|discriminate].
      injection E as E. symmetry in E. assert (io s' = io') by (now rewrite E). subst io'. apply s_main; eauto.
    + destruct (ClientIoModel.step c (LWorker i k a) (io s)) as [io'|] eqn:S; [|destruct (_ && _); discriminate].
      destruct (worker_case _ _ _ _ _ _ S) as (w & w' & W & WS & M & C).
      assert (X : wstate_of i (io s) = w_state w) by (unfold wstate_of; now rewrite W). rewrite X in E.
      assert (X' : wstate_of i io' = w_state w') by (unfold wstate_of; now rewrite WS, (nth_set_same _ _ _ _ W)).
      destruct (has_request (w_state w) && negb (checked s i)) eqn:N; [discriminate|]. rewrite X' in E.
      injection E as E. symmetry in E. assert (io s' = io') by (now rewrite E). subst io'.
      eapply s_worker with (w := w) (w' := w'); eauto.
      intros H. rewrite H in N. destruct (checked s i); auto.
Qed.

Lemma exec_snoc c tr e s : exec c (tr ++ [e]) s = match exec c tr s with Some s' => step c e s' | None => None end.
Proof. revert s. induction tr as [|x tr IH]; intros s; cbn; [destruct (step c e s); auto|]. destruct (step c x s); auto. Qed.
Lemma exec_app c t1 t2 s : exec c (t1 ++ t2) s = match exec c t1 s with Some s' => exec c t2 s' | None => None end.
Proof. revert s. induction t1 as [|x tr IH]; intros s; cbn; auto. destruct (step c x s); auto. Qed.

Lemma exec_ind c (P : state -> Prop) : (forall e s s', P s -> step c e s = Some s' -> P s') ->
  forall tr s s', P s -> exec c tr s = Some s' -> P s'.
Proof.
  intros H tr. induction tr as [|e tr IH]; intros s s' Q E; cbn in E; [injection E as <-; auto|].
  destruct (step c e s) as [s1|] eqn:S; [|discriminate]. eauto.
Qed.

(* An execution is one of ClientIoModel. *)
Lemma exec_io c tr s s' : exec c tr s = Some s' -> exists tr', ClientIoModel.exec c tr' (io s) = Some (io s').
Proof.
  revert s. induction tr as [|e tr IH]; intros s E; cbn in E; [injection E as <-; exists []; reflexivity|].
  destruct (step c e s) as [s1|] eqn:S; [|discriminate]. destruct (IH _ E) as [tr' X].
  destruct (step_case _ _ _ _ S) as [n Q|i ok w W H K F Q|i ok w w' n W H K F ST WS M WE C Q|i k a w w' W H ST WS M C Q|l L ST Q];
    [exists tr'; rewrite Q in X; exact X|exists tr'; rewrite Q in X; exact X| | |]; eexists (_ :: tr'); cbn; rewrite ST; exact X.
Qed.

(* ---- the flag ---- *)

Lemma exec_flag c tr s s' : exec c tr s = Some s' -> flag s' = first_signal (flag s) tr.
Proof.
  revert s. induction tr as [|e tr IH]; intros s E; cbn in E.
  - injection E as <-. unfold first_signal. destruct (flag s); auto.
  - destruct (step c e s) as [s1|] eqn:S; [|discriminate]. rewrite (IH _ E).
    destruct (step_case _ _ _ _ S) as [n Q|i ok w W H K F Q|i ok w w' n W H K F ST WS M WE C Q|i k a w w' W H ST WS M C Q|l L ST Q];
      rewrite Q; cbn; auto.
    unfold first_signal, handle_signal. destruct (flag s); auto.
Qed.
Lemma exec_flag_some c tr s s' n : flag s = Some n -> exec c tr s = Some s' -> flag s' = Some n.
Proof. intros F E. rewrite (exec_flag _ _ _ _ E), F. reflexivity. Qed.

(* ---- exceptions ---- *)

Definition aborting (m : mstate) : bool := match m with MAbort | MJoin true | MDone false => true | _ => false end.

Record inv (s : state) : Prop := {
  v_errors : errors (io s) = length (reported s);
  v_raised : forall i w n, nth_error (workers (io s)) i = Some w -> w_state w = WError -> raised s i = Terminated n -> flag s = Some n;
  v_reported : forall n, In (Terminated n) (reported s) -> flag s = Some n;
  v_closed : q_closed (q (io s)) = true -> (0 < errors (io s))%nat \/ aborting (main (io s)) = true;
  v_failed : forall i w, nth_error (workers (io s)) i = Some w -> w_state w = WFailed -> (0 < errors (io s))%nat;
  v_done : forall b, main (io s) = MDone b ->
     (forall i w, nth_error (workers (io s)) i = Some w -> w_state w = WDone) /\
     (b = true -> errors (io s) = 0%nat) /\
     exists r, result s = Some r /\ (b = true <-> r = inl tt) /\ (forall n, r = inr (Terminated n) -> flag s = Some n)
}.

Lemma init_inv f depth n d : inv (init f depth n d).
Proof.
  constructor; cbn; try discriminate; auto; try (intros [|i]; discriminate). contradiction.
Qed.

Lemma step_inv c e s s' : inv s -> step c e s = Some s' -> inv s'.
Proof.
  intros V E.
  destruct (step_case _ _ _ _ E) as [n Q|i ok w W H K F Q|i ok w w' n W H K F ST WS M WE C Q|i k a w w' W H ST WS M C Q|l L ST Q].
  - destruct V as [V1 V2 V3 V4 V5 V6]. rewrite Q. constructor; cbn; auto.
    + intros i w m W X R. rewrite (V2 i w m W X R). reflexivity.
    + intros m I. rewrite (V3 m I). reflexivity.
    + intros b M. destruct (V6 b M) as (A & B & r & R1 & R2 & R3). split; [auto|]. split; [auto|]. exists r. split; [auto|]. split; [auto|].
      intros m X. rewrite (R3 m X). reflexivity.
  - destruct V as [V1 V2 V3 V4 V5 V6]. rewrite Q. constructor; cbn; auto.
  - destruct V as [V1 V2 V3 V4 V5 V6].
    assert (KE : errors (io s') = errors (io s) /\ q (io s') = q (io s)).
    { destruct (nothing_case _ _ _ _ C H) as (_ & X). unfold kept in X. tauto. }
    destruct KE as [KE KQ]. rewrite Q. constructor; cbn; rewrite ?KE, ?KQ, ?M; auto.
    + intros j x m X XE R. destruct (Nat.eq_dec j i) as [->|N].
      * rewrite upd_same in R. destruct ok; congruence.
      * rewrite upd_other in R by auto. rewrite WS, nth_set_other in X by auto. eauto.
    + intros j x X XE. destruct (Nat.eq_dec j i) as [->|N].
      * rewrite WS, (nth_set_same _ _ _ _ W) in X. injection X as <-. congruence.
      * rewrite WS, nth_set_other in X by auto. eauto.
    + intros b B. destruct (V6 b B) as (A & _). specialize (A _ _ W). rewrite A in H. discriminate.
  - destruct V as [V1 V2 V3 V4 V5 V6].
    assert (ERR : errors (io s') = if is_error (w_state w) then S (errors (io s)) else errors (io s)).
    { exact (errors_case _ _ _ _ _ C). }
    assert (ND : forall b, main (io s) <> MDone b).
    { intros b B. destruct (V6 b B) as (A & _). specialize (A _ _ W). rewrite A in C. exact (done_case _ _ _ _ C). }
    rewrite Q. constructor; cbn; rewrite ?ERR, ?M.
    + destruct (is_error (w_state w)); [rewrite app_length; cbn; lia|auto].
    + intros j x m X XE R. destruct (Nat.eq_dec j i) as [->|N].
      * rewrite WS, (nth_set_same _ _ _ _ W) in X. injection X as <-. rewrite XE in R. cbn in R.
        destruct (is_error (w_state w)) eqn:IE; cbn in R; [|rewrite upd_same in R; discriminate].
        destruct (w_state w); try discriminate. apply error_case in C. congruence.
      * rewrite WS, nth_set_other in X by auto.
        destruct (negb _ && _); [rewrite upd_other in R by auto|]; eauto.
    + intros m I. destruct (is_error (w_state w)) eqn:IE; auto. apply in_app_or in I. destruct I as [I|[I|[]]]; auto.
      destruct (w_state w) eqn:WX; try discriminate. eauto.
    + intros CL. assert (D : q_closed (q (io s)) = true \/ w_state w = WFailed).
      { exact (closed_case _ _ _ _ _ C CL). }
      destruct D as [D|D].
      * destruct (V4 D) as [X|X]; auto. left. destruct (is_error (w_state w)); lia.
      * left. rewrite D. cbn. eauto.
    + intros j x X XE. destruct (Nat.eq_dec j i) as [->|N].
      * rewrite WS, (nth_set_same _ _ _ _ W) in X. injection X as <-.
        assert (w_state w = WError) as ->; [|cbn; lia].
        rewrite XE in C. exact (failed_case _ _ _ _ C).
      * rewrite WS, nth_set_other in X by auto. specialize (V5 _ _ X XE). destruct (is_error (w_state w)); lia.
    + intros b B. destruct (ND b B).
  - destruct V as [V1 V2 V3 V4 V5 V6].
    destruct (main_case _ _ _ _ L ST) as (W & ER & _ & _ & QC & MA & _ & _ & MM).
    assert (OLD : forall i w, nth_error (workers (io s')) i = Some w -> w_state w = WNew \/ nth_error (workers (io s)) i = Some w).
    { intros i w X. destruct W as [W|(_ & W)]; rewrite W in X; auto.
      destruct (Nat.lt_ge_cases i (length (workers (io s)))) as [LT|GE].
      - rewrite nth_error_app1 in X by auto. auto.
      - rewrite nth_error_app2 in X by auto. destruct (i - length (workers (io s)))%nat as [|[|]]; [|discriminate|discriminate].
        injection X as <-. auto. }
    rewrite Q. constructor; cbn; rewrite ?ER; auto.
    + intros i w n X XE. destruct (OLD _ _ X) as [Y|Y]; [congruence|eauto].
    + intros CL. destruct QC as [QC|QC].
      * rewrite QC in CL. destruct (V4 CL) as [X|X]; auto. right.
        destruct (main (io s)) as [| | | |[|]|[|]]; try discriminate.
        -- rewrite (MA eq_refl). reflexivity.
        -- destruct MM as (_ & _ & ->). reflexivity.
        -- destruct MM.
      * right. rewrite (MA QC). reflexivity.
    + intros i w X XE. destruct (OLD _ _ X) as [Y|Y]; [congruence|eauto].
    + intros b B. rewrite B. destruct (main (io s)) as [[|]| | | |ab|] eqn:MS; try (destruct MM as [MM|MM]; congruence).
      * destruct MM as (x & X & Y). rewrite B in X. subst x. destruct Y.
      * destruct MM as (x & X & Y). rewrite B in X. subst x. destruct Y.
      * rewrite (MA eq_refl) in B. discriminate.
      * destruct MM as (WD & W' & MD). rewrite B in MD. injection MD as ->. split; [|split].
        -- intros i w X. rewrite W' in X. apply nth_error_In in X. rewrite Forall_forall in WD. auto.
        -- destruct ab; cbn; [discriminate|]. intros X. now apply Nat.eqb_eq in X.
        -- eexists. split; [reflexivity|]. destruct ab; cbn.
           ++ split; [split; discriminate|discriminate].
           ++ rewrite V1. destruct (reported s) as [|x r] eqn:R; cbn.
              ** split; [tauto|discriminate].
              ** split; [split; discriminate|]. intros n [= ->]. apply V3. now left.
      * destruct MM.
Qed.

(* ---- success needs that no worker looks after the signal ---- *)

Definition doomed (s : state) : Prop :=
  flag s <> None /\
  ((0 < errors (io s))%nat \/ aborting (main (io s)) = true \/ (exists n, main (io s) = MStart (S n)) \/
   (exists i w, nth_error (workers (io s)) i = Some w /\ (w_state w = WError \/ ~ last_look s w i))).

Lemma doomed_fails s : inv s -> doomed s -> main (io s) <> MDone true.
Proof.
  intros V (_ & D) M. destruct (v_done s V true M) as (A & B & _).
  destruct D as [D|[D|[(n & D)|(i & w & W & D)]]].
  - rewrite B in D by auto. lia.
  - rewrite M in D. discriminate.
  - congruence.
  - specialize (A i w W). destruct D as [D|D]; [congruence|]. apply D. unfold last_look. rewrite A. exact I.
Qed.

Lemma step_doomed c e s s' : inv s -> doomed s -> step c e s = Some s' -> doomed s'.
Proof.
  intros V (FN & D) E. assert (V' := step_inv _ _ _ _ V E).
  destruct (step_case _ _ _ _ E) as [n Q|i ok w W H K F Q|i ok w w' n W H K F ST WS M WE C Q|i k a w w' W H ST WS M C Q|l L ST Q].
  - split; [rewrite Q; cbn; destruct (flag s); cbn; congruence|]. rewrite Q. cbn [io].
    destruct D as [D|[D|[D|(i & w & W & D)]]]; auto. do 3 right. exists i, w. split; auto.
  - congruence.
  - split; [rewrite Q; auto|]. do 3 right. exists i, w'. rewrite WS, (nth_set_same _ _ _ _ W). auto.
  - split; [rewrite Q; auto|]. pose proof (errors_case _ _ _ _ _ C) as ER. rewrite M.
    destruct D as [D|[D|[D|(j & x & X & D)]]]; auto.
    { left. rewrite ER. destruct (is_error (w_state w)); lia. }
    destruct (Nat.eq_dec j i) as [->|N].
    2:{ do 3 right. exists j, x. rewrite WS, nth_set_other by auto. split; auto. destruct D as [D|D]; auto. right.
        intros B. apply D. revert B. unfold last_look. destruct (w_state x); auto. rewrite Q. cbn [checked].
        destruct (has_request (w_state w)); auto. rewrite upd_other by auto. auto. }
    rewrite W in X. injection X as <-. destruct D as [D|D].
    { left. rewrite ER, D. cbn. lia. }
    assert (NEW : (0 < errors (io s'))%nat \/ aborting (main (io s)) = true \/ w_state w' = WError \/ ~ last_look s' w' i).
    { unfold last_look in *. remember (w_state w) as y eqn:Y. remember (w_state w') as y' eqn:Y'.
      destruct C as [?|CL ?|? ? ? ? ?|r ? ? ? ? ?|r n A1 A2 A3 A4 A5 A6|r sp dp todo d A1 A2 A3 A4 A5 A6
        |r sp dp todo d sp' dp' todo' A1 A2 A3 A4 A5 A6 A7|r sp dp todo d A1 A2 A3 A4 A5 A6 A7|?|y [-> | ->] ?|? ? ? ?|? ? ? ? ?]; auto;
        try match goal with |- context [a_ok a] => destruct (a_ok a); auto end; try (destruct D; exact I).
      - destruct (v_closed s V CL) as [X|X]; auto. left. cbn in ER. lia.
      - right. right. right. rewrite Q. cbn. unfold got. rewrite upd_same. destruct (r_op r); auto.
      - destruct D. auto. }
    destruct NEW as [NEW|[NEW|NEW]]; auto. do 3 right. exists i, w'. rewrite WS, (nth_set_same _ _ _ _ W). auto.
  - split; [rewrite Q; auto|].
    destruct (main_case _ _ _ _ L ST) as (W & ER & _ & _ & QC & MA & _ & _ & MM).
    assert (KEEP : forall i w, nth_error (workers (io s)) i = Some w -> nth_error (workers (io s')) i = Some w).
    { intros i w X. destruct W as [->|(_ & ->)]; auto. rewrite nth_error_app1; auto. apply nth_error_Some. congruence. }
    destruct D as [D|[D|[(n & D)|(i & w & X & D)]]].
    + left. lia.
    + right. left. destruct (main (io s)) as [| | | |[|]|[|]]; try discriminate.
      * rewrite (MA eq_refl). reflexivity.
      * destruct MM as (_ & _ & ->). reflexivity.
      * destruct MM.
    + rewrite D in MM. destruct MM as [MM|MM]; [|right; left; rewrite MM; reflexivity].
      destruct W as [W|(_ & W)].
      * exfalso. destruct L as [[k ->]| ->]; cbn in ST; destruct (blocked _ _); try discriminate.
        -- unfold main_step in ST. rewrite D in ST. injection ST as ST.
           apply (f_equal (fun x => length (workers x))) in ST. cbn in ST. rewrite app_length, W in ST. cbn in ST. lia.
        -- unfold main_fail in ST. rewrite D in ST. injection ST as ST. apply (f_equal main) in ST. cbn in ST. congruence.
      * do 3 right. exists (length (workers (io s))), (Wrk WNew (zeros (f_buffer c)) false). rewrite W, nth_error_app2, Nat.sub_diag by auto.
        split; auto.
    + do 3 right. exists i, w. split; auto. destruct D as [D|D]; auto. right. intros B. apply D. rewrite Q in B. exact B.
Qed.

(* ---- what is done after the signal ---- *)

Definition ends_with (s1 s : state) : Prop :=
  flag s <> None /\
  exists is l, done (io s) = done (io s1) ++ l /\ Forall2 (busy s1) is l /\ NoDup is /\
    (forall i r, busy s i r -> busy s1 i r /\ ~ In i is).

Lemma busy_request s i r : busy s i r -> exists w, nth_error (workers (io s)) i = Some w /\ has_request (w_state w) = true.
Proof. intros (_ & w & W & [X|(a & b & n & X)]); exists w; rewrite X; auto. Qed.

Lemma Forall2_snoc {A B} (P : A -> B -> Prop) l m x y : Forall2 P l m -> P x y -> Forall2 P (l ++ [x]) (m ++ [y]).
Proof. induction 1; cbn; auto. Qed.
Lemma NoDup_snoc {A} (l : list A) x : NoDup l -> ~ In x l -> NoDup (l ++ [x]).
Proof.
  intros N I. induction N as [|y l Y N IH]; cbn; [repeat constructor; auto|].
  constructor; [|apply IH; intros X; apply I; now right].
  intros X. apply in_app_or in X. destruct X as [X|[X|[]]]; [auto|]. apply I. now left.
Qed.

Lemma step_ends c s1 e s s' : ends_with s1 s -> step c e s = Some s' -> ends_with s1 s'.
Proof.
  intros (FN & is & l & DN & F2 & ND & BU) E.
  destruct (step_case _ _ _ _ E) as [n Q|i ok w W H K F Q|i ok w w' n W H K F ST WS M WE C Q|i k a w w' W H ST WS M C Q|lb L ST Q].
  - split; [rewrite Q; cbn; destruct (flag s); cbn; congruence|]. exists is, l. rewrite Q. auto.
  - congruence.
  - split; [rewrite Q; auto|]. exists is, l. destruct (nothing_case _ _ _ _ C H) as (_ & _ & _ & _ & ->).
    repeat (split; [now auto|]). intros j r (CK & x & X & R). rewrite Q in CK. cbn in CK.
    rewrite WS in X. destruct (Nat.eq_dec j i) as [->|N].
    + congruence.
    + rewrite nth_set_other in X by auto. apply BU. split; eauto.
  - split; [rewrite Q; auto|].
    assert (OTHER : forall j r, j <> i -> busy s' j r -> busy s j r).
    { intros j r N (CK & x & X & R). rewrite WS, nth_set_other in X by auto. split; eauto. rewrite Q in CK. cbn in CK.
      destruct (has_request (w_state w)); auto. now rewrite upd_other in CK by auto. }
    assert (SAME : (done (io s') = done (io s) /\ forall r, busy s' i r -> busy s i r) \/
                   (exists r, done (io s') = done (io s) ++ [r] /\ busy s i r /\ forall r, ~ busy s' i r)).
    { assert (BI : forall r, busy s' i r -> has_request (w_state w) = true /\ (w_state w' = WZero r \/ exists a b n, w_state w' = WCopy r a b n)).
      { intros r (CK & x & X & R). rewrite WS, (nth_set_same _ _ _ _ W) in X. injection X as <-. split; auto.
        rewrite Q in CK. cbn in CK. destruct (has_request (w_state w)); auto. now rewrite upd_same in CK. }
      remember (w_state w) as y eqn:Y. remember (w_state w') as y' eqn:Y'.
      destruct C as [?|CL ?|? ? ? ? ?|r ? ? ? ? ?|r n A1 A2 A3 A4 A5 A6|r sp dp todo d A1 A2 A3 A4 A5 A6
        |r sp dp todo d sp' dp' todo' A1 A2 A3 A4 A5 A6 A7|r sp dp todo d A1 A2 A3 A4 A5 A6 A7|?|y [-> | ->] ?|? ? ? ?|? ? ? ? ?];
        unfold kept in *;
        try (left; split; [tauto|]; intros r' B; destruct (BI r' B) as [X _]; discriminate).
      - destruct (a_ok a); [right|left].
        + exists r. split; auto. split; [split; [auto|]; exists w; auto|]. intros r' B. destruct (BI r' B) as [_ [X|(? & ? & ? & X)]]; discriminate.
        + split; auto. intros r' B. destruct (BI r' B) as [_ [X|(? & ? & ? & X)]]; discriminate.
      - right. exists r. split; auto. split; [split; [auto|]; exists w; split; eauto|]. 
        intros r' B. destruct (BI r' B) as [_ [X|(? & ? & ? & X)]]; discriminate.
      - left. split; auto. intros r' B. destruct (BI r' B) as [_ [X|(? & ? & ? & X)]]; [discriminate|]. injection X as <- _ _ _.
        split; [auto|]. exists w. split; eauto.
      - left. split; auto. intros r' B. destruct (BI r' B) as [_ [X|(? & ? & ? & X)]]; discriminate.
      - left. split; [tauto|]. intros r' B. destruct (BI r' B) as [_ [X|(? & ? & ? & X)]]; destruct (a_ok a); discriminate. }
    destruct SAME as [(DS & SM)|(r & DS & BR & NB)].
    + exists is, l. rewrite DS. repeat (split; [now auto|]). intros j r B. apply BU.
      destruct (Nat.eq_dec j i) as [->|N]; auto.
    + destruct (BU i r BR) as [B1 NI]. exists (is ++ [i]), (l ++ [r]). rewrite DS, DN, app_assoc. split; [auto|].
      split; [apply Forall2_snoc; auto|]. split; [apply NoDup_snoc; auto|].
      intros j r' B. destruct (Nat.eq_dec j i) as [->|N]; [destruct (NB _ B)|].
      destruct (BU j r' (OTHER _ _ N B)) as [B2 NI2]. split; auto. intros X. apply in_app_or in X. destruct X as [X|[X|[]]]; congruence.
  - split; [rewrite Q; auto|]. destruct (main_case _ _ _ _ L ST) as (W & _ & _ & DS & _).
    exists is, l. rewrite DS. repeat (split; [now auto|]). intros j r (CK & x & X & R). apply BU. rewrite Q in CK. split; [exact CK|].
    destruct W as [W|(_ & W)]; rewrite W in X; eauto.
    destruct (Nat.lt_ge_cases j (length (workers (io s)))) as [LT|GE].
    + rewrite nth_error_app1 in X by auto. eauto.
    + rewrite nth_error_app2 in X by auto. destruct (j - length (workers (io s)))%nat as [|[|]]; try discriminate.
      injection X as <-. destruct R as [R|(? & ? & ? & R)]; discriminate.
Qed.

Lemma ends_refl s : flag s <> None -> ends_with s s.
Proof. intros F. split; auto. exists [], []. rewrite app_nil_r. split; [auto|]. split; [constructor|]. split; [constructor|]. auto. Qed.

(* ---- the bytes written after the signal ---- *)

Definition sane (r : request) : Prop := 0 <= r_start r /\ 0 <= r_length r.
Record placed (s : st) : Prop := {
  p_items : forall r, In r (q_items (q s)) -> sane r;
  p_main : forall l r, main s = MRun l -> In (Put r) l -> sane r;
  p_worker : forall i w, nth_error (workers s) i = Some w ->
    match w_state w with
    | WZero r => sane r
    | WCopy r _ dp todo => sane r /\ r_start r <= dp /\ 0 <= todo /\ dp + todo <= r_start r + r_length r
    | _ => True
    end
}.

Section Placed.
Variable c : config.
Hypothesis plan_sane : forall r, In (Put r) (f_plan c) -> sane r.

Lemma init_placed depth n d : placed (ClientIoModel.init depth n d).
Proof. constructor; cbn; try contradiction; try discriminate. intros [|i]; discriminate. Qed.

Lemma step_placed l s s' : placed s -> ClientIoModel.step c l s = Some s' -> placed s'.
Proof.
  intros [P1 P2 P3] E.
  assert (LK : (exists i k a, l = LWorker i k a) \/ ((exists k, l = LMain k) \/ l = LMainFail)) by (destruct l; eauto 6).
  destruct LK as [(i & k & a & ->)|L].
  - destruct (worker_case _ _ _ _ _ _ E) as (w & w' & W & WS & M & C). specialize (P3 _ _ W) as PW. constructor.
    + intros r I. apply P1. destruct C; unfold kept in *; repeat match goal with H : _ /\ _ |- _ => destruct H end; try congruence.
      * match goal with H : q_items (q s) = _ |- _ => rewrite H end. now right.
      * match goal with H : q_items (q s') = [] |- _ => rewrite H in I end. destruct I.
    + rewrite M. auto.
    + intros j x X. rewrite WS in X. destruct (Nat.eq_dec j i) as [->|N]; [|rewrite nth_set_other in X by auto; exact (P3 _ _ X)].
      rewrite (nth_set_same _ _ _ _ W) in X. injection X as <-.
      remember (w_state w) as y eqn:Y. remember (w_state w') as y' eqn:Y'.
      destruct C as [?|CL ?|? ? ? ? ?|r ? IT ? ? ?|r n A1 A2 A3 A4 A5 A6|r sp dp todo d A1 A2 A3 A4 A5 A6
        |r sp dp todo d sp' dp' todo' A1 A2 A3 A4 A5 A6 A7|r sp dp todo d A1 A2 A3 A4 A5 A6 A7|?|y [-> | ->] ?|? ? ? ?|? ? ? ? ?];
        try exact I; try match goal with |- context [a_ok a] => destruct (a_ok a); exact I end.
      * assert (S : sane r) by (apply P1; rewrite IT; now left). unfold got. destruct (r_op r); auto. unfold sane in *. lia.
      * destruct PW as (S & B & T & U). specialize (A7 T). split; auto. lia.
  - destruct (main_case _ _ _ _ L E) as (W & _ & _ & _ & _ & _ & IT & RN & _). constructor.
    + intros r I. destruct (IT r I) as [X|[-> |(l0 & X)]]; auto; [unfold sane; cbn; lia|]. eapply P2; eauto. now left.
    + intros l0 r M I. destruct (RN l0 M) as [-> |(l1 & X & Y)]; auto. eapply P2; eauto.
    + intros i w X. destruct W as [W|(_ & W)]; rewrite W in X; [exact (P3 _ _ X)|].
      destruct (Nat.lt_ge_cases i (length (workers s))) as [LT|GE].
      * rewrite nth_error_app1 in X by auto. exact (P3 _ _ X).
      * rewrite nth_error_app2 in X by auto. destruct (i - length (workers s))%nat as [|[|]]; try discriminate.
        injection X as <-. exact I.
Qed.

Lemma exec_placed tr s s' : placed (io s) -> exec c tr s = Some s' -> placed (io s').
Proof.
  intros P E. destruct (exec_io _ _ _ _ E) as [tr' X]. revert P X. generalize (io s) (io s'). clear E.
  induction tr' as [|l tr' IH]; intros a b P X; cbn in X; [injection X as <-; auto|].
  destruct (ClientIoModel.step c l a) as [a'|] eqn:S; [|discriminate]. eapply IH; [|exact X]. eapply step_placed; eauto.
Qed.

Definition touched (s1 s : state) : Prop :=
  ends_with s1 s /\ placed (io s) /\
  forall b, getb (dst (io s)) b = getb (dst (io s1)) b \/
            exists i r, busy s1 i r /\ r_start r <= b < r_start r + r_length r.

Lemma step_touched s1 e s s' : touched s1 s -> step c e s = Some s' -> touched s1 s'.
Proof.
  intros (EW & PL & BY) E. assert (EW' := step_ends _ _ _ _ _ EW E).
  assert (PL' : placed (io s')) by (apply (exec_placed [e] s); auto; cbn; now rewrite E).
  split; [auto|]. split; [auto|]. destruct EW as (FN & is & l & _ & _ & _ & BU).
  destruct (step_case _ _ _ _ E) as [n Q|i ok w W H K F Q|i ok w w' n W H K F ST WS M WE C Q|i k a w w' W H ST WS M C Q|lb L ST Q].
  - rewrite Q. auto.
  - rewrite Q. auto.
  - destruct (nothing_case _ _ _ _ C H) as (_ & _ & _ & -> & _). auto.
  - pose proof (p_worker _ PL _ _ W) as PW. intros b.
    assert (B : dst (io s') = dst (io s) \/ exists r p d, busy s i r /\ dst (io s') = splice (dst (io s)) p d /\ 0 <= p /\
       r_start r <= p /\ p + zlen d <= r_start r + r_length r).
    { remember (w_state w) as y eqn:Y. remember (w_state w') as y' eqn:Y'.
      destruct C as [?|CL ?|? ? ? ? ?|r ? IT ? ? ?|r n A1 A2 A3 A4 A5 A6|r sp dp todo d A1 A2 A3 A4 A5 A6
        |r sp dp todo d sp' dp' todo' A1 A2 A3 A4 A5 A6 A7|r sp dp todo d A1 A2 A3 A4 A5 A6 A7|?|y [-> | ->] ?|? ? ? ?|? ? ? ? ?];
        unfold kept in *; try (left; tauto); right; unfold sane in *.
      - exists r, (r_start r), (zeros n). split; [split; [auto|]; exists w; auto|]. split; [auto|]. rewrite zlen_zeros. lia.
      - exists r, dp, d. split; [split; [auto|]; exists w; split; eauto|]. split; [auto|]. lia.
      - exists r, dp, d. split; [split; [auto|]; exists w; split; eauto|]. split; [auto|]. lia.
      - exists r, dp, d. split; [split; [auto|]; exists w; split; eauto|]. split; [auto|]. lia. }
    destruct B as [->|(r & p & d & BS & -> & P0 & PA & PB)]; auto.
    rewrite getb_splice by auto. destruct ((p <=? b) && (b <? p + zlen d)) eqn:IN; auto.
    right. exists i, r. split; [apply BU; auto|]. lia.
  - destruct (main_case _ _ _ _ L ST) as (_ & _ & -> & _). auto.
Qed.
End Placed.

(* ---- executions in which only check_terminated() raises ---- *)

Definition only_signals (s : state) : Prop :=
  (forall x, In x (reported s) -> exists n, x = Terminated n) /\
  (forall i w, nth_error (workers (io s)) i = Some w -> w_state w = WError -> exists n, raised s i = Terminated n) /\
  main (io s) <> MAbort /\ main (io s) <> MJoin true /\
  (forall b, main (io s) = MDone b -> exists r, result s = Some r /\ r <> inr Other).

Lemma fine_case s s' a x y : a_ok a = true -> wcase s s' a x y -> y = WError -> False.
Proof.
  intros O C Y. destruct C as [?|CL ?|? ? ? ? ?|r ? IT ? ? ?|r n A1 A2 A3 A4 A5 A6|r sp dp todo d A1 A2 A3 A4 A5 A6
        |r sp dp todo d sp' dp' todo' A1 A2 A3 A4 A5 A6 A7|r sp dp todo d A1 A2 A3 A4 A5 A6 A7|?|y [-> | ->] ?|? ? ? ?|? ? ? ? ?];
    try rewrite O in Y; try discriminate; try congruence.
  unfold got in Y. destruct (r_op r); discriminate.
Qed.

Lemma step_only c e s s' : quiet e -> inv s -> only_signals s -> step c e s = Some s' -> only_signals s'.
Proof.
  intros QT V (R1 & R2 & R3 & R4 & R5) E.
  destruct (step_case _ _ _ _ E) as [n Q|i ok w W H K F Q|i ok w w' n W H K F ST WS M WE C Q|i k a w w' W H ST WS M C Q|lb L ST Q].
  - rewrite Q. unfold only_signals. cbn. auto.
  - rewrite Q. unfold only_signals. cbn. auto.
  - cbn in QT. subst ok. rewrite Q. unfold only_signals. cbn. rewrite M. split; [auto|]. split; [|auto].
    intros j x X XE. rewrite WS in X. destruct (Nat.eq_dec j i) as [->|N]; [rewrite upd_same; eauto|].
    rewrite upd_other by auto. rewrite nth_set_other in X by auto. eauto.
  - cbn in QT. rewrite Q. unfold only_signals. cbn. rewrite M. split; [|split; [|auto]].
    + intros x I. destruct (is_error (w_state w)) eqn:IE; auto. apply in_app_or in I. destruct I as [I|[<-|[]]]; auto.
      apply R2 with (w := w); auto. destruct (w_state w); auto; discriminate.
    + intros j x X XE. rewrite WS in X. destruct (Nat.eq_dec j i) as [->|N].
      * rewrite (nth_set_same _ _ _ _ W) in X. injection X as <-. destruct (fine_case _ _ _ _ _ QT C XE).
      * rewrite nth_set_other in X by auto. destruct (R2 _ _ X XE) as [n RN]. exists n.
        destruct (negb _ && _); auto. now rewrite upd_other by auto.
  - cbn in QT. rewrite Q. unfold only_signals. cbn.
    destruct (main_case _ _ _ _ L ST) as (W & ER & _ & _ & _ & _ & _ & _ & MM).
    destruct L as [[k ->]| ->]; [|destruct QT].
    split; [auto|]. split.
    { intros i w X XE. destruct W as [W|(_ & W)]; rewrite W in X; eauto.
      destruct (Nat.lt_ge_cases i (length (workers (io s)))) as [LT|GE].
      - rewrite nth_error_app1 in X by auto. eauto.
      - rewrite nth_error_app2 in X by auto. destruct (i - length (workers (io s)))%nat as [|[|]]; try discriminate.
        injection X as <-. discriminate. }
    assert (NA : main (io s') <> MAbort).
    { intros X. cbn in ST. destruct (blocked _ _); [discriminate|]. unfold main_step in ST.
      destruct (main (io s)) as [[|n]|[|[r|n] l]|[|n]| |ab|b]; try discriminate;
        try (destruct (try_put _ _ _ _) as [q' [| |]]); try (destruct (forallb _ _); [|discriminate]);
        injection ST as ST; rewrite <- ST in X; discriminate. }
    split; [auto|]. split.
    { intros X. destruct (main (io s)) as [[|]| | | |[|]|]; try (destruct MM as [MM|MM]; congruence).
      - destruct MM as (x & Y & Z). rewrite X in Y. subst x. destruct Z.
      - destruct MM as (x & Y & Z). rewrite X in Y. subst x. destruct Z.
      - congruence.
      - destruct MM as (_ & _ & MM). congruence.
      - destruct MM as (_ & _ & MM). congruence.
      - destruct MM. }
    intros b B. rewrite B. eexists. split; [reflexivity|].
    destruct (main (io s)) as [| | | |[|]|]; try congruence;
      (destruct (reported s) as [|x r] eqn:RP; [discriminate|]; destruct (R1 x (or_introl eq_refl)) as [n ->]; discriminate).
Qed.

(* ---- some thread can run ---- *)

Lemma worker_enabled c i k a k' a' s s' : ClientIoModel.step c (LWorker i k a) s = Some s' ->
  exists s'', ClientIoModel.step c (LWorker i k' a') s = Some s''.
Proof.
  cbn. destruct (blocked _ _); [discriminate|]. unfold worker_step. destruct (nth_error (workers s) i) as [w|]; [|discriminate].
  destruct (w_state w); try (eexists; reflexivity).
  - intros _. destruct (try_get _ k' _) as [q' x]. eexists; reflexivity.
  - intros _. destruct (a_ok a'); eexists; reflexivity.
  - intros _. destruct (copy_chunk _ a' _ _ _ _ _) as [[[[? ?] ?] ?] ?]. destruct (a_ok a'); [destruct (_ =? 0)|]; eexists; reflexivity.
  - intros _. destruct (a_ok a'); eexists; reflexivity.
  - discriminate.
Qed.

Lemma enabled c l s io' : ClientIoModel.step c l (io s) = Some io' -> fine l ->
  exists e s', is_signal e = false /\ quiet e /\ step c e s = Some s'.
Proof.
  intros E FI. destruct l as [k| |i k a].
  - exists (Run (LMain k)). cbn [step]. rewrite E. eexists. split; [auto|]. split; [exact FI|]. reflexivity.
  - destruct FI.
  - destruct (has_request (wstate_of i (io s)) && negb (checked s i)) eqn:B.
    + exists (Check i true). cbn [step]. rewrite B. destruct (check_terminated (flag s)) as [x|].
      * destruct (worker_enabled _ _ _ _ 0%nat nothing _ _ E) as [s'' ->]. eexists. split; [auto|]. split; [reflexivity|]. reflexivity.
      * eexists. split; [auto|]. split; [reflexivity|]. reflexivity.
    + exists (Run (LWorker i k a)). cbn [step]. rewrite B, E. eexists. split; [auto|]. split; [exact FI|]. reflexivity.
Qed.

(* ---- the number of steps ---- *)

(* The steps of ClientIoModel, and the calls of check_terminated() that can come
   in addition: at most one for each request that was taken. *)
Fixpoint unlooked (k : nat) (ws : list worker) (ck : nat -> bool) : Z :=
  match ws with
  | [] => 0
  | w :: ws => (if has_request (w_state w) && negb (ck k) then 1 else 0) + unlooked (S k) ws ck
  end.
Lemma unlooked_nonneg k ws ck : 0 <= unlooked k ws ck.
Proof. revert k. induction ws as [|w ws IH]; intros k; cbn; [lia|]. specialize (IH (S k)). destruct (_ && _); lia. Qed.
Lemma unlooked_app k ws w ck : has_request (w_state w) = false -> unlooked k (ws ++ [w]) ck = unlooked k ws ck.
Proof. intros H. revert k. induction ws as [|x ws IH]; intros k; cbn; [rewrite H; reflexivity|]. rewrite IH. reflexivity. Qed.
Lemma unlooked_ext k ws ck ck' : (forall j, (k <= j)%nat -> ck j = ck' j) -> unlooked k ws ck = unlooked k ws ck'.
Proof.
  revert k. induction ws as [|w ws IH]; intros k H; cbn; [auto|]. rewrite (H k) by lia. f_equal. apply IH. intros j J. apply H. lia.
Qed.
Lemma unlooked_set k i ws w w' ck ck' : nth_error ws i = Some w -> (forall j, j <> (k + i)%nat -> ck' j = ck j) ->
  unlooked k (set_nth i w' ws) ck' =
  unlooked k ws ck - (if has_request (w_state w) && negb (ck (k + i)%nat) then 1 else 0)
                   + (if has_request (w_state w') && negb (ck' (k + i)%nat) then 1 else 0).
Proof.
  revert k i. induction ws as [|x ws IH]; intros k [|i] W H; try discriminate.
  - injection W as ->. cbn. rewrite Nat.add_0_r in *. rewrite (unlooked_ext (S k) ws ck' ck); [lia|]. intros j J. apply H. lia.
  - cbn [set_nth unlooked]. rewrite (IH (S k) i W) by (intros j J; apply H; lia).
    replace (S k + i)%nat with (k + S i)%nat by lia. rewrite (H k) by lia. lia.
Qed.

Definition looks (s : state) : Z := unlooked 0 (workers (io s)) (checked s).
Fixpoint others (tr : list event) : Z :=
  match tr with [] => 0 | e :: tr => (if is_signal e then 0 else 1) + others tr end.

Lemma exec_count c tr s s' : exec c tr s = Some s' ->
  exists tr', ClientIoModel.exec c tr' (io s) = Some (io s') /\ others tr + looks s' <= 2 * zlen tr' + looks s.
Proof.
  revert s. induction tr as [|e tr IH]; intros s E; cbn in E; [injection E as <-; exists []; split; [reflexivity|cbn; lia]|].
  destruct (step c e s) as [s1|] eqn:S; [|discriminate]. destruct (IH _ E) as (tr' & X & N). cbn [others].
  destruct (step_case _ _ _ _ S) as [n Q|i ok w W H K F Q|i ok w w' n W H K F ST WS M WE C Q|i k a w w' W H ST WS M C Q|l L ST Q]; cbn [is_signal].
  - exists tr'. rewrite Q in X, N. split; [exact X|]. exact N.
  - exists tr'. rewrite Q in X. split; [exact X|]. assert (LK : looks s1 = looks s - 1).
    { rewrite Q. unfold looks. cbn.
      pose proof (unlooked_set 0 i (workers (io s)) w w (checked s) (upd (checked s) i true) W (fun j J => upd_other _ _ _ _ J)) as U.
      change (0 + i)%nat with i in U. rewrite H, K, upd_same in U. cbn [andb negb] in U.
      assert (SN : set_nth i w (workers (io s)) = workers (io s)).
      { clear -W. revert i W. induction (workers (io s)) as [|y l IH]; intros [|i] W; cbn in *; try discriminate; auto.
        - now injection W as ->.
        - f_equal. auto. }
      rewrite SN in U. lia. }
    lia.
  - exists (LWorker i 0 nothing :: tr'). cbn [ClientIoModel.exec]. rewrite ST. split; [exact X|].
    rewrite zlen_cons. assert (LK : looks s1 <= looks s).
    { rewrite Q. unfold looks. cbn. rewrite WS.
      pose proof (unlooked_set 0 i (workers (io s)) w w' (checked s) (checked s) W (fun j J => eq_refl)) as U.
      rewrite U, WE. cbn. destruct (_ && _); lia. }
    lia.
  - exists (LWorker i k a :: tr'). cbn [ClientIoModel.exec]. rewrite ST. split; [exact X|].
    rewrite zlen_cons. assert (LK : looks s1 <= looks s + 1).
    { rewrite Q. unfold looks. cbn. rewrite WS.
      assert (J : forall j, j <> (0 + i)%nat -> (if has_request (w_state w) then checked s else upd (checked s) i false) j = checked s j).
      { intros j J. destruct (has_request (w_state w)); auto. apply upd_other. auto. }
      pose proof (unlooked_set 0 i (workers (io s)) w w' (checked s) _ W J) as U. rewrite U.
      repeat match goal with |- context [if ?b then 1 else 0] => destruct b end; lia. }
    lia.
  - exists (l :: tr'). cbn [ClientIoModel.exec]. rewrite ST. split; [exact X|]. rewrite zlen_cons.
    assert (LK : looks s1 = looks s).
    { rewrite Q. unfold looks. cbn. destruct (main_case _ _ _ _ L ST) as ([->|(_ & ->)] & _); auto. apply unlooked_app. reflexivity. }
    lia.
Qed.

(* A worker gives up only when the queue was closed. *)
Lemma cancel_closed c e s s' : step c e s = Some s' ->
  (forall i w, nth_error (workers (io s)) i = Some w -> w_state w = WCancel -> q_closed (q (io s)) = true) ->
  forall i w, nth_error (workers (io s')) i = Some w -> w_state w = WCancel -> q_closed (q (io s')) = true.
Proof.
  intros E P j x X XC.
  destruct (step_case _ _ _ _ E) as [n Q|i ok w W H K F Q|i ok w w' n W H K F ST WS M WE C Q|i k a w w' W H ST WS M C Q|l L ST Q].
  - rewrite Q in X |- *. eauto.
  - rewrite Q in X |- *. eauto.
  - destruct (nothing_case _ _ _ _ C H) as (_ & -> & _). rewrite WS in X. destruct (Nat.eq_dec j i) as [->|N].
    + rewrite (nth_set_same _ _ _ _ W) in X. congruence.
    + rewrite nth_set_other in X by auto. eauto.
  - rewrite WS in X. destruct (Nat.eq_dec j i) as [->|N].
    + rewrite (nth_set_same _ _ _ _ W) in X. injection X as <-. rewrite XC in C.
      remember WCancel as y. destruct C; try discriminate; try (destruct (a_ok a); discriminate).
      * destruct H1 as (-> & _). auto.
      * unfold got in Heqy. destruct (r_op r); discriminate.
    + rewrite nth_set_other in X by auto. specialize (P _ _ X XC).
      destruct C; unfold kept in *; repeat match goal with H : _ /\ _ |- _ => destruct H end; congruence.
  - destruct (main_case _ _ _ _ L ST) as (W & _ & _ & _ & QC & MA & _).
    assert (Y : nth_error (workers (io s)) j = Some x).
    { destruct W as [W|(_ & W)]; rewrite W in X; auto.
      destruct (Nat.lt_ge_cases j (length (workers (io s)))) as [LT|GE].
      - rewrite nth_error_app1 in X by auto. auto.
      - rewrite nth_error_app2 in X by auto. destruct (j - length (workers (io s)))%nat as [|[|]]; try discriminate.
        injection X as <-. discriminate. }
    destruct QC as [QC|QC]; [rewrite QC; eauto|].
    destruct L as [[k ->]| ->]; cbn in ST; destruct (blocked _ _); try discriminate.
    + unfold main_step in ST. rewrite QC in ST. injection ST as ST. rewrite <- ST. reflexivity.
    + unfold main_fail in ST. rewrite QC in ST. discriminate.
Qed.

(* ---- the first error ---- *)

Definition not_aborting (s : state) : Prop :=
  inv s /\ main (io s) <> MAbort /\ main (io s) <> MJoin true /\
  (forall b, main (io s) = MDone b -> result s = Some (match reported s with [] => inl tt | x :: _ => inr x end)).

Lemma init_not_aborting f depth n d : not_aborting (init f depth n d).
Proof. split; [apply init_inv|]. split; [discriminate|]. split; [discriminate|]. intros b X. discriminate X. Qed.

Lemma done_stays c l s s' b : main s = MDone b -> (exists k, l = LMain k) \/ l = LMainFail -> ClientIoModel.step c l s = Some s' -> False.
Proof.
  intros M [[k ->]| ->] E; cbn in E; destruct (blocked _ _); try discriminate;
    [unfold main_step in E|unfold main_fail in E]; rewrite M in E; discriminate.
Qed.

Lemma main_next c k s s' : ClientIoModel.step c (LMain k) s = Some s' -> main s <> MAbort -> main s <> MJoin true ->
  main s' <> MAbort /\ main s' <> MJoin true.
Proof.
  intros ST A J. cbn in ST. destruct (blocked _ _); [discriminate|]. unfold main_step in ST.
  destruct (main s) as [[|n]|[|[r|n] l]|[|n]| |ab|b]; try discriminate; try congruence;
    try (destruct (try_put _ _ _ _) as [q' [| |]]); try (destruct (forallb _ _); [|discriminate]);
    injection ST as ST; rewrite <- ST; split; discriminate.
Qed.

Lemma done_workers c i k a s s' b : inv s -> main (io s) = MDone b -> ClientIoModel.step c (LWorker i k a) (io s) = Some s' -> False.
Proof.
  intros V M E. destruct (worker_case _ _ _ _ _ _ E) as (w & w' & W & _ & _ & C).
  destruct (v_done s V b M) as (A & _). rewrite (A _ _ W) in C. exact (done_case _ _ _ _ C).
Qed.

Lemma exec_reported c tr s s' : exec c tr s = Some s' -> exists m, reported s' = reported s ++ m.
Proof.
  revert s. induction tr as [|e tr IH]; intros s E; cbn in E; [injection E as <-; exists []; now rewrite app_nil_r|].
  destruct (step c e s) as [s1|] eqn:S; [|discriminate]. destruct (IH _ E) as [m G].
  assert (X : exists m1, reported s1 = reported s ++ m1).
  { destruct (step_case _ _ _ _ S) as [n Q|i ok w W H K F Q|i ok w w' n W H K F ST WS M WE C Q|i k a w w' W H ST WS M C Q|l L ST Q]; rewrite Q; cbn [reported];
      try (exists []; now rewrite app_nil_r).
    destruct (is_error (w_state w)); [eexists; reflexivity|]. exists []. now rewrite app_nil_r. }
  destruct X as [m1 X]. exists (m1 ++ m). rewrite G, X, app_assoc. reflexivity.
Qed.

Lemma step_not_aborting c e s s' : e <> Run LMainFail -> not_aborting s -> step c e s = Some s' -> not_aborting s'.
Proof.
  intros NE (V & A & J & D) E. split; [eauto using step_inv|].
  destruct (step_case _ _ _ _ E) as [n Q|i ok w W H K F Q|i ok w w' n W H K F ST WS M WE C Q|i k a w w' W H ST WS M C Q|l L ST Q].
  - rewrite Q. cbn. auto.
  - rewrite Q. cbn. auto.
  - rewrite M. split; [auto|]. split; [auto|]. intros b B. destruct (done_workers _ _ _ _ _ _ _ V B ST).
  - rewrite M. split; [auto|]. split; [auto|]. intros b B. destruct (done_workers _ _ _ _ _ _ _ V B ST).
  - destruct L as [[k ->]| ->]; [|congruence]. destruct (main_next _ _ _ _ ST A J) as [A' J']. split; [auto|]. split; [auto|].
    intros b B. rewrite Q. cbn [result reported]. rewrite B. destruct (main (io s)) as [| | | |[|]|]; try reflexivity. congruence.
Qed.
