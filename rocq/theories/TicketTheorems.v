(* C04, C05, C06: cancellation and removal of a ticket, for every
   interleaving of connection threads and removing threads. *)
From Coq Require Import List Bool Arith Lia.
From Verif Require Import TicketModel TicketProofs.
Import ListNotations.

(* Specification vocabulary, on traces of visible events only. *)

(* Event e happens, and later event e' happens. *)
Definition happens_before (e e' : event) (tr : list event) : Prop :=
  exists tr1 tr2 tr3, tr = tr1 ++ e :: tr2 ++ e' :: tr3.

(* Connections whose operation has started and not ended in the trace. *)
Fixpoint ops_running_from (l : list nat) (tr : list event) : list nat :=
  match tr with
  | [] => l
  | EOpStart c :: tr' => ops_running_from (c :: l) tr'
  | EOpEnd c :: tr' => ops_running_from (filter (fun d => negb (d =? c)) l) tr'
  | _ :: tr' => ops_running_from l tr'
  end.
Definition ops_running (tr : list event) : list nat := ops_running_from [] tr.

Lemma ops_running_running l tr : ops_running_from l tr = running_from l tr.
Proof. revert l; induction tr as [|[] tr IH]; cbn; auto. Qed.

(* ---- C04 ---- *)

(* After the ticket was canceled by any thread k no operation starts, no
   context is attached, and no operation reports success; there is no way
   back, since [tr] is any execution, of any length. *)
Theorem no_operation_starts_after_cancel :
  forall tr s k c, exec tr s -> ~ happens_before (ECancel k) (EOpStart c) tr.
Proof. intros. eapply no_start_after_cancel; eauto. Qed.
Print Assumptions no_operation_starts_after_cancel.

Theorem no_context_attached_after_cancel :
  forall tr s k c x, exec tr s -> ~ happens_before (ECancel k) (EAttach c x) tr.
Proof. intros. eapply no_start_after_cancel; eauto 6. Qed.
Print Assumptions no_context_attached_after_cancel.

Theorem no_success_reported_after_cancel :
  forall tr s k c, exec tr s -> ~ happens_before (ECancel k) (EReport c true) tr.
Proof. intros. eapply no_start_after_cancel; eauto 6. Qed.
Print Assumptions no_success_reported_after_cancel.

(* ---- C05 ---- *)

(* When cancel() of any thread returns True (the ticket is then removed):
   no operation is running, every context attached to the ticket before was
   closed before the return, and later no operation starts, does I/O or ends,
   and no context is attached. *)
Theorem removal_releases_storage :
  forall tr s k tr1 tr2,
    exec tr s -> tr = tr1 ++ ECancelRet k true :: tr2 ->
    ops_running tr1 = [] /\
    (forall c x, In (EAttach c x) tr1 -> In (EClose x) tr1) /\
    (forall c x, ~ In (EOpStart c) tr2 /\ ~ In (EOpIO c x) tr2 /\
                 ~ In (EOpEnd c) tr2 /\ ~ In (EAttach c x) tr2).
Proof.
  intros tr s k tr1 tr2 E S.
  destruct (released_at_return _ _ _ _ _ E S) as (A & B).
  unfold ops_running. rewrite ops_running_running. split; [exact A|]. split; [exact B|].
  assert (N : forall e, In e tr2 -> before (ECancelRet k true) e tr).
  { intros e I. apply in_split in I as (l1 & l2 & ->). exists tr1, l1, l2. auto. }
  intros c x. repeat split; intros Q; apply N in Q; revert Q;
    eapply no_op_event_after_ret; eauto 8.
Qed.
Print Assumptions removal_releases_storage.

(* An operation only uses a context that was opened and not closed. *)
Theorem operations_use_open_contexts :
  forall tr s tr1 c x tr2,
    exec tr s -> tr = tr1 ++ EOpIO c x :: tr2 ->
    (exists d, In (EOpen d x) tr1) /\ ~ In (EClose x) tr1.
Proof.
  intros tr s tr1 c x tr2 E S. split; [eapply opened_before_io; eauto|].
  intros I. eapply (no_io_after_close x c tr s E).
  apply in_split in I as (l1 & l2 & ->). exists l1, l2, tr2.
  rewrite S, <- app_assoc. reflexivity.
Qed.
Print Assumptions operations_use_open_contexts.

(* The full English claim of C05 also speaks about backends that are being
   opened and about extents requests.  It does not hold for those: *)

(* Finding: a backend can stay open after the removal succeeded, when a
   connection is between opening the backend and attaching it. *)
Theorem removed_with_open_backend_refuted :
  exists tr s k c x,
    exec tr s /\ In (ECancelRet k true) tr /\ In (EOpen c x) tr /\ ~ In (EClose x) tr.
Proof.
  eexists _, _, 0, 0, 0. split.
  - eapply exec_step; [eapply exec_step; [eapply exec_step; [apply exec_init|]|]|].
    + apply (s_authorize init 0); reflexivity.
    + apply s_open with (c := 0); reflexivity.
    + apply s_cancel_idle with (k := 0); reflexivity.
  - cbn. intuition discriminate.
Qed.
Print Assumptions removed_with_open_backend_refuted.

(* Finding: an extents request is not run under Ticket.run, so a removal can
   succeed, and close the backend, in the middle of it. *)
Theorem removed_during_extents_refuted :
  exists tr s k c x,
    exec tr s /\ happens_before (ERawBegin c x) (ECancelRet k true) tr /\
    ~ In (ERawEnd c x) tr.
Proof.
  eexists _, _, 0, 0, 0. split.
  - eapply exec_step; [eapply exec_step; [eapply exec_step; [eapply exec_step;
      [eapply exec_step; [apply exec_init|]|]|]|]|].
    + apply (s_authorize init 0); reflexivity.
    + apply s_open with (c := 0); reflexivity.
    + apply s_attach with (c := 0) (x := 0); reflexivity.
    + apply s_raw_begin with (c := 0) (x := 0); reflexivity.
    + apply s_cancel_idle with (k := 0); reflexivity.
  - split.
    + cbn. exists [EOpen 0 0; EAttach 0 0], [ECancel 0; EClose 0], []. reflexivity.
    + cbn. intuition discriminate.
Qed.
Print Assumptions removed_during_extents_refuted.

(* ---- C06 ---- *)

(* No lost wakeup: if thread k waits and no operation is running, k can
   return without any action of other threads. *)
Theorem no_lost_wakeup :
  forall tr s k,
    exec tr s -> kp s k = KWait -> ops_running tr = [] ->
    unused s = true.
Proof.
  intros tr s k E W R. unfold ops_running in R. rewrite ops_running_running in R.
  destruct (i_wait s (inv_exec _ _ E) k W) as [U|U]; [exact U|].
  rewrite (t_running _ _ (tinv_exec _ _ E)) in R. congruence.
Qed.
Print Assumptions no_lost_wakeup.

(* From every reachable state where k waits there is a continuation in which
   cancel() of k returns True. *)
Theorem waiting_removal_can_finish :
  forall tr s k,
    exec tr s -> kp s k = KWait ->
    exists evs s', exec_from s evs s' /\ In (ECancelRet k true) evs.
Proof. intros. eapply waiting_can_return; eauto. Qed.
Print Assumptions waiting_removal_can_finish.

(* The event is never set while an operation is running, so a removal never
   returns early. *)
Theorem no_early_wakeup :
  forall tr s, exec tr s -> unused s = true -> ops_running tr = [].
Proof.
  intros tr s E U. unfold ops_running. rewrite ops_running_running.
  rewrite (t_running _ _ (tinv_exec _ _ E)). apply (i_unused s (inv_exec _ _ E)), U.
Qed.
Print Assumptions no_early_wakeup.

(* Every operation running after a cancellation has been told to stop, with
   or without a timeout, so it stops at its next check (see
   canceled_operation_stops in OpsTheorems). *)
Theorem running_operations_are_told_to_stop :
  forall tr s k c,
    exec tr s -> In (ECancel k) tr -> In c (ops_running tr) -> opflag s c = true.
Proof.
  intros tr s k c E K I. unfold ops_running in I. rewrite ops_running_running in I.
  rewrite (t_running _ _ (tinv_exec _ _ E)) in I.
  eapply flags_exec; eauto. eapply t_cancel; eauto. now apply tinv_exec.
Qed.
Print Assumptions running_operations_are_told_to_stop.

(* A concrete execution that meets the hypotheses: two connections run an
   operation, a removal waits for both, one ends; then the other ends and
   the removal returns True. *)
Ltac go E st :=
  eapply exec_step in E; [|eapply st; first [reflexivity|discriminate]];
  cbv [set_pc set_kp canceled ongoing opflag conns is_open next_ctx unused pc kp
       app init attached map snd del rem filter fst Nat.eqb negb] in E.

Example cancel_ex :
  exists tr s tr' s',
    exec tr s /\ kp s 7 = KWait /\ unused s = false /\ ops_running tr = [1] /\
    exec (tr ++ tr') s' /\ In (ECancelRet 7 true) tr' /\ In (EClose 1) tr'.
Proof.
  assert (E : exec [] init) by constructor.
  go E (fun s => s_authorize s 0). go E (fun s => s_open s 0).
  go E (fun s => s_attach s 0 0).
  go E (fun s => s_authorize s 1). go E (fun s => s_open s 1).
  go E (fun s => s_attach s 1 1).
  go E (fun s => s_add_operation s 0 0). go E (fun s => s_add_operation s 1 1).
  go E (fun s => s_op_io s 0 0).
  go E (fun s => s_cancel_wait s 7).
  go E (fun s => s_op_io s 1 1).
  go E (fun s => s_op_canceled s 0 0).
  go E (fun s => s_remove_operation_canceled s 0 0 WasCanceled).
  pose proof E as E0.
  go E (fun s => s_op_canceled s 1 1).
  go E (fun s => s_remove_operation_canceled s 1 1 WasCanceled).
  go E (fun s => s_wake s 7).
  go E (fun s => s_cancel_finish s 7).
  eexists _, _, (EOpEnd 1 :: EReport 1 false :: EClose 1 :: EClose 0 :: ECancelRet 7 true :: nil), _.
  split; [exact E0|]. split; [reflexivity|].
  split; [reflexivity|]. split; [reflexivity|]. split.
  - exact E.
  - cbn. tauto.
Qed.
