(** * Theorems: the resources of connections (C82). *)

From Coq Require Import List Bool ZArith Lia.
From Verif Require Import ResourceModel ResourceSpec ResourceProofs.
Import ListNotations.
Local Open Scope nat_scope.

Lemma swapped_replaced : forall l s c t k,
  run init l = Some s -> nth_error (s_tiks s) t = Some k ->
  swapped (s_tiks s) (s_log s) c t k -> replaced l (s_log s) c t.
Proof.
  intros l s c t k H HT (t' & x' & b & k' & A & B & C & D).
  pose proof (run_uuids _ _ _ H) as U. cbn in U.
  exists t', x', b, (t_uuid k). split; [auto|]. split; [auto|].
  rewrite <- U. split.
  - rewrite (nth_map_some _ _ t_uuid _ _ _ C). congruence.
  - apply nth_map_some. auto.
Qed.

(** Every execution, every connection that ended: what was opened for it was
    closed, once; or there was no buffer for it, or the socket did not take
    the timeout of the ticket, or closing it failed, or another ticket with
    the same uuid was used on the connection. *)
Theorem finished_connection : forall l log c t x,
  log_of l log -> In (EFinished c) log -> In (EOpened c t x) log ->
  closes log x = 1 \/
  (closes log x = 0 /\
   (In (ENoBuffer x) log \/ In (ENoTimeout x) log \/
    In (ECloseError x) log \/ replaced l log c t)).
Proof.
  intros l log c t x (s & R & <-) F O.
  pose proof (run_inv _ _ _ init_inv R) as I.
  apply (iB _ I) in O. destruct O as (b & Hb & B1 & B2).
  rewrite (iC _ I x), Hb.
  destruct (x_backend b) eqn:B; [|auto].
  right. split; [auto|].
  destruct (iD _ I _ _ Hb B) as [H|[H|(k & K1 & K2)]]; [auto|auto|].
  rewrite B1, B2 in *.
  destruct (iE _ I _ _ _ _ K1 K2) as (n & Hn & HH).
  destruct (iL _ I _ F) as (m & Hm & D).
  assert (m = n) by congruence. subst m.
  destruct HH as [HH|[HH|[HH|[HH|HH]]]].
  - congruence.
  - auto.
  - auto.
  - unfold registered in HH. rewrite D in HH. destruct HH.
  - right; right; right. eapply swapped_replaced; eauto.
Qed.
Print Assumptions finished_connection.

(** When nothing of that happened: closed exactly once. *)
Theorem smooth_connection : forall l log c,
  log_of l log -> In (EFinished c) log -> smooth l log c ->
  forall t x, In (EOpened c t x) log -> closes log x = 1.
Proof.
  intros l log c L F S t x O.
  destruct (finished_connection _ _ _ _ _ L F O) as [H|[_ H]]; [auto|].
  destruct (S _ _ O) as (A & B & C & D). tauto.
Qed.
Print Assumptions smooth_connection.

(** In terms of what goes in: tickets with different uuids and timeouts that
    a socket takes, no fault: everything opened for a connection that ended
    is closed, once. *)
Theorem no_faults : forall l log c t x,
  log_of l log -> forallb kind l = true ->
  NoDup (uuids l) -> (forall n, In n (timeouts l) -> sane n) ->
  In (EFinished c) log -> In (EOpened c t x) log ->
  closes log x = 1.
Proof.
  intros l log c t x L K U T F O.
  eapply smooth_connection; eauto.
  intros t' y O'. destruct L as (s & R & <-).
  pose proof (run_inv _ _ _ init_inv R) as I.
  split; [|split; [|split]].
  - intro H. destruct (run_kind _ _ _ _ R K H) as [D|[]]. discriminate.
  - intro H.
    assert (TI : tinv s).
    { eapply run_tinv; [apply init_inv| |eauto]. intros z []. }
    destruct (TI _ H) as (c0 & t0 & k & _ & HT & D).
    pose proof (run_timeouts _ _ _ R) as E. cbn in E.
    assert (IN : In (t_timeout k) (timeouts l)).
    { rewrite <- E. apply in_map. eapply nth_error_In; eauto. }
    apply T in IN. unfold sane in IN. unfold timeout_ok in D.
    apply andb_false_iff in D. destruct D as [D|D];
      apply Z.leb_gt in D; lia.
  - intro H. destruct (run_kind _ _ _ _ R K H) as [D|[]]. discriminate.
  - intros (t2 & x2 & b & u & N & _ & H1 & H2). apply N.
    rewrite NoDup_nth_error in U. apply U.
    + apply nth_lt in H1. auto.
    + congruence.
Qed.
Print Assumptions no_faults.

(** A file or socket is never closed twice, and only if it was opened. *)
Theorem closed_once : forall l log x,
  log_of l log ->
  closes log x <= 1 /\
  (closes log x = 1 -> exists c t, In (EOpened c t x) log).
Proof.
  intros l log x (s & R & <-).
  pose proof (run_inv _ _ _ init_inv R) as I.
  rewrite (iC _ I x).
  destruct (nth_error (s_ctxs s) x) as [b|] eqn:E.
  - split; [destruct (x_backend b); lia|].
    intros _. exists (x_con b), (x_tik b). apply (iB _ I). eauto.
  - split; [lia|]. discriminate.
Qed.
Print Assumptions closed_once.

(** A buffer is mapped exactly as long as its context was opened with it and
    nothing tried to close the context: also when closing the backend fails,
    the buffer is unmapped. *)
Theorem buffer_mapped : forall l log x,
  log_of l log ->
  (mapped l x <->
   (exists c t, In (EOpened c t x) log) /\ closes log x = 0 /\
   ~ In (ECloseError x) log /\ ~ In (ENoBuffer x) log).
Proof.
  intros l log x (s & R & <-).
  pose proof (run_inv _ _ _ init_inv R) as I.
  assert (BI : bufinv init).
  { split; cbn; [intros [|y] b H; discriminate H|intros y [[]|[]]]. }
  destruct (run_bufinv _ _ _ BI R) as [A _].
  rewrite (iC _ I x). split.
  - intros (s2 & b & R2 & HB & B). rewrite R in R2. injection R2 as <-.
    rewrite HB. apply (A _ _ HB) in B. destruct B as (-> & N1 & N2).
    split; [|auto]. exists (x_con b), (x_tik b). apply (iB _ I). eauto.
  - intros ((c & t & O) & C & N1 & N2). apply (iB _ I) in O.
    destruct O as (b & HB & _). rewrite HB in C. exists s, b.
    split; [auto|]. split; [auto|]. apply (A _ _ HB).
    destruct (x_backend b); [auto|discriminate].
Qed.
Print Assumptions buffer_mapped.

(** No mapped buffer is left of a connection that ended smoothly. *)
Theorem no_mapped_left : forall l log c t x,
  log_of l log -> In (EFinished c) log -> smooth l log c ->
  In (EOpened c t x) log -> ~ mapped l x.
Proof.
  intros l log c t x L F S O M.
  apply (buffer_mapped _ _ _ L) in M. destruct M as (_ & C & _).
  rewrite (smooth_connection _ _ _ L F S _ _ O) in C. discriminate.
Qed.
Print Assumptions no_mapped_left.

(** A request gets the context that was opened for its own connection and
    ticket, and the backend is open unless the ticket was canceled. *)
Theorem served_open : forall l log c t x b,
  log_of l log -> In (EServed c t x b) log ->
  In (EOpened c t x) log /\ (b = false -> In (ECanceled t) log).
Proof.
  intros l log c t x b (s & R & <-) H.
  pose proof (run_inv _ _ _ init_inv R) as I.
  split; [apply (iT _ I _ _ _ _ H)|]. intros ->. apply (iS _ I _ _ _ H).
Qed.
Print Assumptions served_open.

(** A connection has at most one open backend for a ticket, faults aside. *)
Theorem one_backend : forall l log c t x y,
  log_of l log -> In (EOpened c t x) log -> In (EOpened c t y) log ->
  closes log x = 0 -> closes log y = 0 ->
  x = y \/ In (ENoBuffer x) log \/ In (ENoBuffer y) log \/
  In (ECloseError x) log \/ In (ECloseError y) log.
Proof.
  intros l log c t x y (s & R & <-) OX OY CX CY.
  pose proof (run_inv _ _ _ init_inv R) as I.
  apply (iB _ I) in OX. destruct OX as (a & Ha & A1 & A2).
  apply (iB _ I) in OY. destruct OY as (b & Hb & B1 & B2).
  rewrite (iC _ I), Ha in CX. rewrite (iC _ I), Hb in CY.
  destruct (x_backend a) eqn:BA; [|discriminate].
  destruct (x_backend b) eqn:BB; [|discriminate].
  destruct (iD _ I _ _ Ha BA) as [H|[H|(k & K1 & K2)]]; [auto|auto|].
  destruct (iD _ I _ _ Hb BB) as [H|[H|(k' & K1' & K2')]]; [auto|tauto|].
  rewrite A1, A2, B1, B2 in *. assert (k' = k) by congruence. subst k'.
  apply (in_dget _ _ _ (iN _ I _ _ K1)) in K2, K2'. left. congruence.
Qed.
Print Assumptions one_backend.

(** The status of a ticket shows no connection once the connections that
    used it ended smoothly. *)
Theorem shows_none : forall l log t,
  log_of l log -> t < List.length (uuids l) ->
  (forall c x, In (EOpened c t x) log ->
     In (EFinished c) log /\ smooth l log c) ->
  shows l t 0.
Proof.
  intros l log t (s & R & <-) LT H.
  pose proof (run_inv _ _ _ init_inv R) as I.
  exists s. split; [auto|]. unfold connections.
  destruct (nth_error (s_tiks s) t) as [k|] eqn:HT; [|auto].
  destruct (t_conns k) as [|[c x] d] eqn:D; [auto|exfalso].
  assert (IN : In (c, x) (t_conns k)) by (rewrite D; left; auto).
  assert (O : In (EOpened c t x) (s_log s)).
  { apply (iB _ I). apply (iA _ I _ _ _ _ HT IN). }
  destruct (H _ _ O) as [F S].
  destruct (S _ _ O) as (S1 & S2 & S3 & S4).
  destruct (iE _ I _ _ _ _ HT IN) as (n & Hn & HH).
  destruct (iL _ I _ F) as (m & Hm & E).
  assert (m = n) by congruence. subst m.
  destruct HH as [HH|[HH|[HH|[HH|HH]]]].
  - congruence.
  - auto.
  - auto.
  - unfold registered in HH. rewrite E in HH. destruct HH.
  - apply S4. eapply swapped_replaced; eauto.
Qed.
Print Assumptions shows_none.

(** ** Cases *)

(** Two connections, two tickets, one ticket canceled while connection 1 has
    an idle context. *)
Definition demo : list action :=
  [AConnect; AConnect; AAdd 7 60%Z; AAdd 8 300%Z;
   AGet 0 0 (Oopened Cok); ARegister 0;
   AGet 1 0 (Oopened Cok); ARegister 1;
   AGet 0 1 (Oopened Cok); ARegister 0;
   AGet 0 0 Ofails;
   ACancel 0; ACancelClose 0 []; AGet 1 0 Ofails;
   AFinish 0; ACloser 0 Cok; ACloser 0 Cok; ACloser 0 Cok;
   AFinish 1; ACloser 1 Cok; ACloser 1 Cok].

Definition demo_log : list ev :=
  match run init demo with Some s => s_log s | None => [] end.

Ltac inlog := vm_compute; repeat (first [left; reflexivity | right]).

Example demo_case :
  log_of demo demo_log /\ forallb kind demo = true /\
  NoDup (uuids demo) /\ (forall n, In n (timeouts demo) -> sane n) /\
  In (EFinished 0) demo_log /\ In (EFinished 1) demo_log /\
  In (EOpened 0 0 0) demo_log /\ In (EOpened 1 0 1) demo_log /\
  In (EOpened 0 1 2) demo_log /\
  In (EServed 0 0 0 true) demo_log /\ In (EServed 1 0 1 false) demo_log /\
  map (closes demo_log) [0; 1; 2; 3] = [1; 1; 1; 0] /\
  shows demo 0 0 /\ shows demo 1 0.
Proof.
  split; [eexists; split; reflexivity|].
  split; [reflexivity|].
  split; [repeat constructor; cbn; lia|].
  split; [cbn; unfold sane; intros n [<-|[<-|[]]]; lia|].
  do 7 (split; [inlog|]).
  split; [reflexivity|].
  split; eexists; split; reflexivity.
Qed.

(** The hypothesis of [shows_none] for the demo. *)
Example demo_smooth : smooth demo demo_log 0 /\ smooth demo demo_log 1.
Proof.
  split; intros t x H; vm_compute in H;
    repeat (destruct H as [H|H];
      [first [discriminate H | injection H as <- <-]|]);
    try (destruct H; fail);
    (split; [|split; [|split]];
     [intro H; vm_compute in H;
      repeat (destruct H as [H|H]; [discriminate H|]); destruct H ..|]);
    intros (t' & x' & b & u & N & I & A & B); vm_compute in I;
    repeat (destruct I as [I|I];
      [first [discriminate I
             |injection I; intros; subst; vm_compute in A, B; congruence]|]);
    destruct I.
Qed.

(** The same before the end: ticket 1 shows its connection. *)
Example demo_open : shows (firstn 11 demo) 0 2 /\ shows (firstn 11 demo) 1 1.
Proof. split; eexists; split; reflexivity. Qed.

(** The buffers in the middle of that run and at its end. *)
Example demo_mapped : mapped (firstn 11 demo) 0 /\ ~ mapped demo 0.
Proof.
  split.
  - eexists. eexists. split; [reflexivity|]. split; reflexivity.
  - intros (s & b & R & H & B). vm_compute in R. injection R as <-.
    cbn in H. injection H as <-. discriminate.
Qed.

(** ** What does not hold *)

Definition leaks (l : list action) : Prop :=
  exists log c t x, log_of l log /\ In (EFinished c) log /\
    In (EOpened c t x) log /\ closes log x = 0.

(** There is no memory for the buffer: the backend that was just opened is
    forgotten. *)
Theorem no_buffer_refuted : exists l,
  NoDup (uuids l) /\ (forall n, In n (timeouts l) -> sane n) /\ leaks l /\
  shows l 0 0.
Proof.
  exists [AConnect; AAdd 7 60%Z; AGet 0 0 Onobuffer; AFinish 0;
          ACloser 0 Cok].
  split; [repeat constructor; cbn; tauto|].
  split; [cbn; unfold sane; intros n [<-|[]]; lia|].
  split; [|eexists; split; reflexivity].
  eexists _, 0, 0, 0. split; [eexists; split; reflexivity|].
  split; [inlog|]. split; [inlog|reflexivity].
Qed.
Print Assumptions no_buffer_refuted.

(** A ticket with a negative inactivity_timeout: the first request fails with
    the backend open, the second is served, and after the connection ended the
    backend is open and the ticket still shows the connection. *)
Theorem negative_timeout_refuted : exists l,
  forallb kind l = true /\ NoDup (uuids l) /\ leaks l /\ shows l 0 1 /\
  exists log, log_of l log /\ In (EServed 0 0 0 true) log.
Proof.
  exists [AConnect; AAdd 7 (-1)%Z; AGet 0 0 (Oopened Cok); ARegister 0;
          AGet 0 0 (Oopened Cok); AFinish 0; ACloser 0 Cok].
  split; [reflexivity|]. split; [repeat constructor; cbn; tauto|].
  split.
  { eexists _, 0, 0, 0. split; [eexists; split; reflexivity|].
    split; [inlog|]. split; [inlog|reflexivity]. }
  split; [eexists; split; reflexivity|].
  eexists. split; [eexists; split; reflexivity|]. inlog.
Qed.
Print Assumptions negative_timeout_refuted.

(** A ticket replaced by a ticket with the same uuid while a connection uses
    it: the closer of the new ticket takes the place of the closer of the old
    one. *)
Theorem replaced_ticket_refuted : exists l,
  forallb kind l = true /\ (forall n, In n (timeouts l) -> sane n) /\
  leaks l /\ shows l 0 1 /\ shows l 1 0.
Proof.
  exists [AConnect; AAdd 7 60%Z; AGet 0 0 (Oopened Cok); ARegister 0;
          AAdd 7 60%Z; AGet 0 1 (Oopened Cok); ARegister 0;
          AFinish 0; ACloser 0 Cok; ACloser 0 Cok].
  split; [reflexivity|].
  split; [cbn; unfold sane; intros n [<-|[<-|[]]]; lia|].
  split; [|split; eexists; split; reflexivity].
  eexists _, 0, 0, 0. split; [eexists; split; reflexivity|].
  split; [inlog|]. split; [inlog|reflexivity].
Qed.
Print Assumptions replaced_ticket_refuted.

(** Closing the file raises: the file is closed, but the ticket shows the
    connection for ever. *)
Theorem close_error_refuted : exists l log,
  log_of l log /\ In (EFinished 0) log /\ In (EOpened 0 0 0) log /\
  closes log 0 = 1 /\ shows l 0 1.
Proof.
  exists [AConnect; AAdd 7 60%Z; AGet 0 0 (Oopened Cok); ARegister 0;
          AFinish 0; ACloser 0 Cfailed; ACloser 0 Cok].
  eexists. split; [eexists; split; reflexivity|].
  split; [inlog|]. split; [inlog|]. split; [reflexivity|].
  eexists; split; reflexivity.
Qed.
Print Assumptions close_error_refuted.

(** Canceling a ticket: when closing one idle connection raises, the
    contexts of the connections after it are left open. *)
Theorem cancel_stops_refuted : exists l log,
  log_of l log /\ In (ECanceled 0) log /\
  In (EOpened 0 0 0) log /\ In (EOpened 1 0 1) log /\
  closes log 0 = 1 /\ closes log 1 = 0 /\ ~ In (ECloseError 1) log /\
  exists l0, l = l0 ++ [ACancelClose 0 [Cfailed; Cok]].
Proof.
  exists [AConnect; AConnect; AAdd 7 60%Z;
          AGet 0 0 (Oopened Cok); ARegister 0;
          AGet 1 0 (Oopened Cok); ARegister 1;
          ACancel 0; ACancelClose 0 [Cfailed; Cok]].
  eexists. split; [eexists; split; reflexivity|].
  do 3 (split; [inlog|]). do 2 (split; [reflexivity|]). split.
  - intro H. vm_compute in H.
    repeat (destruct H as [H|H]; [discriminate H|]). destruct H.
  - exists [AConnect; AConnect; AAdd 7 60%Z;
          AGet 0 0 (Oopened Cok); ARegister 0;
          AGet 1 0 (Oopened Cok); ARegister 1; ACancel 0]. reflexivity.
Qed.
Print Assumptions cancel_stops_refuted.
