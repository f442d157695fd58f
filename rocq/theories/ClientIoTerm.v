(* Lemmas about the client copy: every execution is finite. *)
From Coq Require Import ZArith List Bool Lia.
From Coq.Strings Require Import Byte.
From Verif Require Import BytesLib OpsModel ExtentsModel ExtentsSpec ClientIoModel ClientIoSpec
  ClientIoProofs ClientIoSched ClientIoLive.
Import ListNotations.
Open Scope Z_scope.

Section Term.

Variable c : config.
Variable N : nat.
Variable depth : nat.

Hypothesis lengths : forall r, In r (requests (f_plan c)) -> 0 <= r_length r.
Hypothesis buffer : 0 < f_buffer c.

Definition K : Z := Z.of_nat N + 2.

Definition iw (r : request) : Z := 3 + Z.max 1 (r_length r).

Definition ww (x : wstate) : Z :=
  match x with
  | WDone => 0
  | WFailed => K
  | WError => K + 1
  | WCancel | WClosing => K + 2
  | WFlush => K + 3
  | WIdle => K + 4
  | WZero _ => K + 5
  | WCopy _ _ _ todo => K + 4 + Z.max 1 todo
  | WNew => K + 5
  end.

Fixpoint plan_weight (l : list action) : Z :=
  match l with
  | [] => 0
  | Put r :: l => iw r + 2 + plan_weight l
  | Skip _ :: l => 1 + plan_weight l
  end.

Definition base : Z := 3 + 6 * Z.of_nat N + K.

Definition mw (m : mstate) : Z :=
  match m with
  | MStart k => base + plan_weight (f_plan c) + 1 + Z.of_nat k * (K + 6)
  | MRun l => base + plan_weight l
  | MStop k => 2 + 6 * Z.of_nat k
  | MAbort => 2 + K
  | MJoin _ => 1
  | MDone _ => 0
  end.

Fixpoint items_weight (l : list request) : Z :=
  match l with [] => 0 | r :: l => iw r + items_weight l end.

Definition weight (s : st) : Z :=
  mw (main s) + sumw ww (workers s) + items_weight (q_items (q s)) - zlen (q_waiters (q s)).

Lemma iw_pos r : 4 <= iw r.
Proof. unfold iw. lia. Qed.

Lemma plan_weight_pos l : 0 <= plan_weight l.
Proof. induction l as [|[r|n] l IH]; cbn [plan_weight]; try lia. pose proof (iw_pos r). lia. Qed.

Lemma items_weight_pos l : 0 <= items_weight l.
Proof. induction l as [|r l IH]; cbn [items_weight]; try lia. pose proof (iw_pos r). lia. Qed.

Lemma items_weight_app l m : items_weight (l ++ m) = items_weight l + items_weight m.
Proof. induction l as [|r l IH]; cbn [items_weight app]; lia. Qed.

Lemma ww_pos x : 0 <= ww x.
Proof. unfold ww, K. destruct x; lia. Qed.

Lemma sumw_pos l : 0 <= sumw ww l.
Proof. induction l as [|w l IH]; cbn [sumw]; [lia|]. pose proof (ww_pos (w_state w)). lia. Qed.

Lemma mw_pos m : 0 <= mw m.
Proof.
  unfold mw, base, K. destruct m; try lia.
  - pose proof (plan_weight_pos (f_plan c)). nia.
  - pose proof (plan_weight_pos l). lia.
Qed.

Definition sane (w : worker) : Prop :=
  0 < zlen (w_buf w) /\
  match w_state w with WCopy _ _ _ todo => 0 <= todo | _ => True end.

Record tinv (s : st) : Prop := {
  t_nodup : NoDup (q_waiters (q s));
  t_range : forall t, In t (q_waiters (q s)) ->
    match t with Worker i => (i < length (workers s))%nat | Main => True end;
  t_count : match main s with
            | MStart k => (length (workers s) + k <= N)%nat
            | _ => (length (workers s) <= N)%nat
            end;
  t_workers : Forall sane (workers s);
  t_items : forall r, In r (q_items (q s)) -> 0 <= r_length r;
  t_plan : match main s with
           | MRun l => forall r, In r (requests l) -> 0 <= r_length r
           | _ => True
           end
}.

Lemma init_tinv n d : (1 + Z.to_nat (n - 1) = N)%nat -> tinv (init depth n d).
Proof.
  intros E. constructor; cbn; auto; try lia.
  - constructor.
Qed.

(* Waiting threads are different threads. *)
Lemma waiters_bound s : tinv s -> zlen (q_waiters (q s)) <= Z.of_nat N + 1.
Proof.
  intros [T1 T2 T3 _ _ _].
  assert (B : (length (workers s) <= N)%nat) by (destruct (main s); lia).
  assert (I : incl (q_waiters (q s)) (Main :: map Worker (seq 0 N))).
  { intros t I. specialize (T2 t I). destruct t as [|i]; [now left|]. right.
    apply in_map. apply in_seq. lia. }
  pose proof (NoDup_incl_length T1 I) as LE. cbn in LE. rewrite map_length, seq_length in LE.
  unfold zlen. lia.
Qed.

Lemma weight_lower s : tinv s -> - (Z.of_nat N + 1) <= weight s.
Proof.
  intros T. pose proof (waiters_bound s T). unfold weight.
  pose proof (mw_pos (main s)). pose proof (sumw_pos (workers s)).
  pose proof (items_weight_pos (q_items (q s))). lia.
Qed.

(* The weight of a state in which worker i moved to x, and the rest is as
   before. *)
Lemma weight_move s i w x buf dirty q' e d dn p :
  nth_error (workers s) i = Some w ->
  weight (St (main s) (set_nth i (Wrk x buf dirty) (workers s)) q' e d dn p) =
  weight s - ww (w_state w) + ww x
  + items_weight (q_items q') - items_weight (q_items (q s))
  + zlen (q_waiters (q s)) - zlen (q_waiters q').
Proof.
  intros NW. unfold weight. cbn [main workers q]. rewrite (sumw_set_nth _ _ _ _ _ NW).
  cbn [w_state]. lia.
Qed.

Lemma tinv_move s i w x buf dirty q' e d dn p :
  tinv s -> nth_error (workers s) i = Some w ->
  NoDup (q_waiters q') ->
  (forall t, In t (q_waiters q') -> In t (q_waiters (q s)) \/ t = Worker i) ->
  (forall r, In r (q_items q') -> In r (q_items (q s))) ->
  0 < zlen buf ->
  match x with WCopy _ _ _ todo => 0 <= todo | _ => True end ->
  tinv (St (main s) (set_nth i (Wrk x buf dirty) (workers s)) q' e d dn p).
Proof.
  intros [T1 T2 T3 T4 T5 T6] NW A B C D E.
  constructor; cbn; auto.
  - intros t I. rewrite length_set_nth. destruct (B t I) as [I'| ->].
    + apply (T2 t I').
    + apply nth_error_Some. congruence.
  - now rewrite length_set_nth.
  - apply Forall_set_nth; auto. split; auto.
Qed.

Lemma put_tinv k r s q' a m :
  tinv s -> try_put Main k r (q s) = (q', a) -> blocked Main (q s) = false -> 0 <= r_length r ->
  match m with MStart _ => False | MRun l => forall r, In r (requests l) -> 0 <= r_length r | _ => True end ->
  tinv (St m (workers s) q' (errors s) (dst s) (done s) (progress s)).
Proof.
  intros [T1 T2 T3 T4 T5 T6] T BL R M. apply blocked_not_in in BL.
  assert (B : (length (workers s) <= N)%nat) by (destruct (main s); lia).
  assert (MC : match m with
            | MStart k => (length (workers s) + k <= N)%nat
            | _ => (length (workers s) <= N)%nat
            end) by (destruct m; auto; contradiction).
  assert (MP : match m with
           | MRun l => forall r, In r (requests l) -> 0 <= r_length r
           | _ => True
           end) by (destruct m; auto).
  unfold try_put in T. destruct (q_closed (q s)); [|destruct (_ =? _)%nat]; injection T as <- <-;
    constructor; cbn [main workers q q_max q_closed q_waiters q_items q_put q_got]; auto.
  - apply NoDup_app_snoc; auto.
  - intros t I. apply in_app_iff in I. destruct I as [I|[<-|[]]]; auto. apply (T2 t I).
  - now apply notify_nodup.
  - intros t I. apply notify_in in I. apply (T2 t I).
  - intros x I. apply in_app_iff in I. destruct I as [I|[<-|[]]]; auto.
Qed.

Lemma put_weight k r s q' a :
  try_put Main k r (q s) = (q', a) ->
  items_weight (q_items q') - zlen (q_waiters q') <=
  items_weight (q_items (q s)) - zlen (q_waiters (q s)) +
  match a with Raised => 0 | Waiting => -1 | Got _ => iw r + 1 end.
Proof.
  intros T. unfold try_put in T.
  destruct (q_closed (q s)); [|destruct (_ =? _)%nat]; injection T as <- <-;
    cbn [q_items q_waiters].
  - lia.
  - rewrite zlen_app. change (zlen [Main]) with 1. lia.
  - rewrite items_weight_app, notify_length. cbn [items_weight].
    pose proof (zlen_nonneg (q_waiters (q s))). lia.
Qed.

Lemma main_step_term k s s' : tinv s -> blocked Main (q s) = false ->
  main_step c k s = Some s' -> tinv s' /\ weight s' < weight s.
Proof.
  intros T BL E. unfold main_step in E.
  assert (B : (length (workers s) <= N)%nat) by (destruct T as [_ _ T3 _ _ _]; destruct (main s); lia).
  destruct (main s) as [[|n]|[|[r|n] l]|[|n]| |ab|b] eqn:M; try discriminate.
  - injection E as <-. split.
    + destruct T as [T1 T2 T3 T4 T5 T6]. constructor; cbn; auto.
    + unfold weight. rewrite M. cbn. lia.
  - injection E as <-. split.
    + destruct T as [T1 T2 T3 T4 T5 T6]. rewrite M in *. constructor; cbn; auto.
      * intros t I. specialize (T2 t I). destruct t; auto. rewrite app_length. lia.
      * rewrite app_length. cbn. lia.
      * apply Forall_app. split; auto. constructor; auto. split; cbn; auto.
        rewrite zlen_zeros. lia.
    + unfold weight. rewrite M. cbn [main workers q mw]. rewrite sumw_app. cbn [sumw w_state ww].
      unfold K. lia.
  - injection E as <-. split.
    + destruct T as [T1 T2 T3 T4 T5 T6]. constructor; cbn; auto.
    + unfold weight. rewrite M. cbn [main workers q mw plan_weight]. unfold base, K. lia.
  - destruct (try_put Main k r (q s)) as [q' a] eqn:P. injection E as <-.
    pose proof (t_plan _ T) as TP. rewrite M in TP. cbn in TP. split.
    + eapply put_tinv; eauto. destruct a; auto.
    + pose proof (put_weight _ _ _ _ _ P) as W. unfold weight. rewrite M.
      cbn [main workers q]. pose proof (iw_pos r). pose proof (plan_weight_pos l).
      destruct a; cbn [mw plan_weight]; unfold base, K; lia.
  - injection E as <-. split.
    + destruct T as [T1 T2 T3 T4 T5 T6]. rewrite M in *. constructor; cbn; auto.
    + unfold weight. rewrite M. cbn [main workers q mw plan_weight]. lia.
  - injection E as <-. split.
    + destruct T as [T1 T2 T3 T4 T5 T6]. constructor; cbn; auto.
    + unfold weight. rewrite M. cbn [main workers q mw plan_weight]. lia.
  - destruct (try_put Main k (Request STOP 0 0) (q s)) as [q' a] eqn:P. injection E as <-. split.
    + eapply put_tinv; eauto; [cbn; lia|]. destruct a; auto.
    + pose proof (put_weight _ _ _ _ _ P) as W. unfold weight. rewrite M.
      cbn [main workers q]. change (iw (Request STOP 0 0)) with 4 in W.
      destruct a; cbn [mw]; lia.
  - injection E as <-. pose proof (waiters_bound s T) as WB. split.
    + destruct T as [T1 T2 T3 T4 T5 T6]. constructor; cbn; auto; try contradiction.
      constructor.
    + unfold weight. rewrite M. cbn [main workers q mw close q_items q_waiters items_weight].
      pose proof (items_weight_pos (q_items (q s))). change (zlen (@nil tid)) with 0. unfold K. lia.
  - destruct (forallb _ _); [|discriminate]. injection E as <-. split.
    + destruct T as [T1 T2 T3 T4 T5 T6]. constructor; cbn; auto.
    + unfold weight. rewrite M. cbn [main workers q mw]. lia.
Qed.

Lemma main_fail_term s s' : tinv s -> main_fail s = Some s' -> tinv s' /\ weight s' < weight s.
Proof.
  intros T E. unfold main_fail in E.
  assert (B : (length (workers s) <= N)%nat) by (destruct T as [_ _ T3 _ _ _]; destruct (main s); lia).
  destruct (main s) as [k|l| | | |] eqn:M; try discriminate; injection E as <-; split;
    try (destruct T as [T1 T2 T3 T4 T5 T6]; constructor; cbn; auto; fail).
  - unfold weight. rewrite M. cbn [main workers q mw].
    pose proof (plan_weight_pos (f_plan c)). unfold base, K. nia.
  - unfold weight. rewrite M. cbn [main workers q mw].
    pose proof (plan_weight_pos l). unfold base, K. lia.
Qed.

Lemma copy_chunk_less a sp dp todo buf d buf' sp' d' dp' todo' :
  0 < zlen buf -> 0 <= todo ->
  copy_chunk c a sp dp todo buf d = (buf', sp', d', dp', todo') ->
  0 < zlen buf' /\ 0 <= todo' /\ (todo' = 0 \/ (a_ok a = true -> todo' < todo)).
Proof.
  intros B T E. unfold copy_chunk in E. destruct (f_mode c).
  - injection E as <- <- <- <- <-. split.
    + rewrite zlen_splice by lia. match goal with |- context [sub ?x ?y ?z] => destruct (sub x y z); lia end.
    + destruct (Z.eq_dec todo 0); [lia|]. split; [lia|]. right. lia.
  - injection E as <- <- <- <- <-. split; auto.
    assert (C : Z.min 1 todo <= clamp (Z.min 1 todo) todo (a_chunk a) <= todo) by (unfold clamp; lia).
    destruct (a_ok a).
    + split; [lia|]. destruct (Z.eq_dec todo 0); [left; lia|]. right. lia.
    + unfold done_of. destruct (a_written a); unfold clamp in *; (split; [lia|]; right; discriminate).
Qed.

Lemma worker_step_term i k a s s' : tinv s -> blocked (Worker i) (q s) = false ->
  worker_step c i k a s = Some s' -> tinv s' /\ weight s' < weight s.
Proof.
  intros T BL E. unfold worker_step in E.
  destruct (nth_error (workers s) i) as [w|] eqn:NW; [|discriminate].
  pose proof (Forall_nth_error _ _ _ _ (t_workers _ T) NW) as [S1 S2].
  pose proof (t_nodup _ T) as ND.
  pose proof (waiters_bound s T) as WB.
  destruct (w_state w) as [| |r|r sp dp todo| | | | | |] eqn:WS; try discriminate.
  - injection E as <-. split.
    + eapply tinv_move; eauto. destruct (a_ok a); auto.
    + rewrite (weight_move _ _ _ _ _ _ _ _ _ _ _ NW), WS. destruct (a_ok a); cbn [ww]; lia.
  - unfold try_get in E. apply blocked_not_in in BL. destruct (q_closed (q s)) eqn:QC; [|].
    + injection E as <-. split.
      * eapply tinv_move; eauto.
      * rewrite (weight_move _ _ _ _ _ _ _ _ _ _ _ NW), WS. cbn [ww]. lia.
    + destruct (q_items (q s)) as [|r items] eqn:QI; injection E as <-.
      * split.
        -- eapply tinv_move; eauto; cbn.
           ++ apply NoDup_app_snoc; auto.
           ++ intros t I. apply in_app_iff in I. destruct I as [I|[I|[]]]; auto.
           ++ contradiction.
        -- rewrite (weight_move _ _ _ _ _ _ _ _ _ _ _ NW), WS, QI.
           cbn [q_items q_waiters items_weight ww]. rewrite zlen_app.
           change (zlen [Worker i]) with 1. lia.
      * set (ws := if (length items =? q_max (q s) - 1)%nat then notify k (q_waiters (q s))
                   else q_waiters (q s)).
        assert (IR : 0 <= r_length r) by (apply (t_items _ T); rewrite QI; now left).
        split.
        -- eapply tinv_move; eauto; cbn.
           ++ unfold ws. destruct (_ =? _)%nat; auto. now apply notify_nodup.
           ++ intros t I. left. unfold ws in I. destruct (_ =? _)%nat; auto.
              eapply notify_in; eauto.
           ++ intros x I. rewrite QI. now right.
           ++ destruct (r_op r); auto.
        -- rewrite (weight_move _ _ _ _ _ _ _ _ _ _ _ NW), WS, QI.
           cbn [q_items q_waiters items_weight].
           assert (zlen (q_waiters (q s)) - 1 <= zlen ws).
           { unfold ws. destruct (_ =? _)%nat; [rewrite notify_length|]; lia. }
           assert (ww match r_op r with ZERO => WZero r | COPY => WCopy r (r_start r) (r_start r) (r_length r) | STOP => WFlush end
                   <= K + 4 + Z.max 1 (r_length r)) by (destruct (r_op r); cbn [ww]; lia).
           unfold iw. cbn [ww]. lia.
  - destruct (a_ok a); injection E as <-; (split;
      [eapply tinv_move; eauto | rewrite (weight_move _ _ _ _ _ _ _ _ _ _ _ NW), WS; cbn [ww]; lia]).
  - destruct (copy_chunk c a sp dp todo (w_buf w) (dst s)) as [[[[buf sp'] dst'] dp'] todo'] eqn:CC.
    destruct (copy_chunk_less _ _ _ _ _ _ _ _ _ _ _ S1 S2 CC) as (C1 & C2 & C3).
    destruct (a_ok a); [destruct (Z.eqb_spec todo' 0)|]; injection E as <-; (split;
      [eapply tinv_move; eauto | rewrite (weight_move _ _ _ _ _ _ _ _ _ _ _ NW), WS; cbn [ww]; try lia]).
  - destruct (a_ok a); injection E as <-; (split;
      [eapply tinv_move; eauto | rewrite (weight_move _ _ _ _ _ _ _ _ _ _ _ NW), WS; cbn [ww]; lia]).
  - injection E as <-. split.
    + eapply tinv_move; eauto. destruct (a_ok a); auto.
    + rewrite (weight_move _ _ _ _ _ _ _ _ _ _ _ NW), WS. destruct (a_ok a); cbn [ww]; unfold K; lia.
  - injection E as <-. split.
    + eapply tinv_move; eauto. destruct (a_ok a); auto.
    + rewrite (weight_move _ _ _ _ _ _ _ _ _ _ _ NW), WS. destruct (a_ok a); cbn [ww]; unfold K; lia.
  - injection E as <-; (split;
      [eapply tinv_move; eauto | rewrite (weight_move _ _ _ _ _ _ _ _ _ _ _ NW), WS; cbn [ww]; lia]).
  - injection E as <-. split.
    + eapply tinv_move; eauto; cbn; [constructor|contradiction|contradiction].
    + rewrite (weight_move _ _ _ _ _ _ _ _ _ _ _ NW), WS. cbn [ww close q_items q_waiters items_weight].
      pose proof (items_weight_pos (q_items (q s))). change (zlen (@nil tid)) with 0. unfold K. lia.
Qed.

Lemma step_term l s s' : tinv s -> step c l s = Some s' -> tinv s' /\ weight s' < weight s.
Proof.
  intros T E. unfold step in E. destruct l as [k| |i k a].
  - destruct (blocked Main (q s)) eqn:B; [discriminate|]. eapply main_step_term; eauto.
  - destruct (blocked Main (q s)) eqn:B; [discriminate|]. eapply main_fail_term; eauto.
  - destruct (blocked (Worker i) (q s)) eqn:B; [discriminate|]. eapply worker_step_term; eauto.
Qed.

Lemma exec_term tr s s' : tinv s -> exec c tr s = Some s' ->
  tinv s' /\ zlen tr <= weight s - weight s'.
Proof.
  revert s. induction tr as [|l tr IH]; intros s T E; cbn in E.
  - injection E as ->. split; auto. unfold zlen. cbn. lia.
  - destruct (step c l s) as [s1|] eqn:ST; [|discriminate].
    destruct (step_term _ _ _ T ST) as [T1 W1]. destruct (IH s1 T1 E) as [T2 W2].
    split; auto. rewrite zlen_cons. lia.
Qed.

Lemma exec_bounded n d tr s : (1 + Z.to_nat (n - 1) = N)%nat ->
  exec c tr (init depth n d) = Some s ->
  zlen tr <= weight (init depth n d) + Z.of_nat N + 1.
Proof.
  intros E X. destruct (exec_term _ _ _ (init_tinv n d E) X) as [T W].
  pose proof (weight_lower _ T). lia.
Qed.

End Term.
