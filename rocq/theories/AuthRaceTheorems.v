(* C53: overlapping control requests and transfers. *)
From Coq Require Import List Bool Arith Lia.
From Verif Require Import TicketModel TicketProofs TicketTheorems AuthRaceModel AuthRaceSpec.
Import ListNotations.

Lemma events_of_app o a b : events_of o (a ++ b) = events_of o a ++ events_of o b.
Proof.
  induction a as [|e a IH]; cbn; auto. destruct e; auto. destruct (o0 =? o); cbn; congruence.
Qed.
Lemma events_of_map o i evs : events_of o (map (GObj i) evs) = if i =? o then evs else [].
Proof.
  induction evs as [|e evs IH]; cbn; [destruct (i =? o); auto|].
  destruct (i =? o) eqn:E; cbn; rewrite IH; auto.
Qed.
Lemma stored_from_app x a b id : stored_from x (a ++ b) id = stored_from (stored_from x a id) b id.
Proof. revert x. induction a as [|e a IH]; cbn; auto. intros x. destruct e; auto. Qed.
Lemma stored_at_app a b id : stored_at (a ++ b) id = stored_from (stored_at a id) b id.
Proof. apply stored_from_app. Qed.
Lemma stored_from_obj x o evs id : stored_from x (map (GObj o) evs) id = x.
Proof. induction evs; cbn; auto. Qed.

Lemma upd_same {A} (f : nat -> A) i v : upd f i v i = v.
Proof. unfold upd. rewrite Nat.eqb_refl. auto. Qed.
Lemma upd_other {A} (f : nat -> A) i v j : j <> i -> upd f i v j = f j.
Proof. unfold upd. intros. destruct (Nat.eqb_spec j i); congruence. Qed.
Lemma eqb_swap a b : (a =? b) = (b =? a).
Proof. apply Nat.eqb_sym. Qed.

(* ---- Invariants ---- *)
Section Inv.
Variable zero : bool.

Record inv (tr : list gevent) (s : gst) : Prop := Inv {
  v_objs : forall o, exec (events_of o tr) (objs s o);
  v_store : forall id, store s id = stored_at tr id;
  v_fresh : forall id o, store s id = Some o -> o < next s;
  v_new : forall k id, dp s k = DNew -> ~ In (GDelStart k id) tr;
  v_end : forall k id code, In (GDelEnd k id code) tr -> dp s k = DDone;
  v_open : forall k id, (dp s k = DStart id \/ dp s k = DGot id \/ exists o, dp s k = DFound id o) ->
             In (GDelStart k id) tr;
  v_found : forall k id o, dp s k = DFound id o -> seen_during tr k id (Some o)
}.

Lemma seen_now tr k id : In (GDelStart k id) tr -> seen_during tr k id (stored_at tr id).
Proof.
  intros I. apply in_split in I as (l1 & l2 & ->). exists l1, l2, []. rewrite app_nil_r. auto.
Qed.
Lemma seen_app tr evs k id x : seen_during tr k id x -> seen_during (tr ++ evs) k id x.
Proof.
  intros (a & b & c & E & S). exists a, b, (c ++ evs). split; auto.
  rewrite E, <- !app_assoc. cbn. rewrite <- app_assoc. auto.
Qed.

Ltac dpk k k0 := unfold set_dp, upd in *; cbn [dp] in *; destruct (Nat.eqb_spec k0 k) as [->|]; try discriminate.
Ltac evs := repeat match goal with H : In _ (_ ++ _) |- _ => apply in_app_or in H as [H|H]
            | H : In _ (_ :: _) |- _ => cbn in H; destruct H as [H|H]; try discriminate; try tauto
            | H : In _ [] |- _ => destruct H end.

Lemma set_dp_inv tr s k p evs :
  inv tr s ->
  (forall o, events_of o evs = []) -> (forall x id, stored_from x evs id = x) ->
  (forall k' id, In (GDelStart k' id) evs -> k' = k /\ p = DStart id) ->
  (forall k' id c, In (GDelEnd k' id c) evs -> k' = k /\ p = DDone) ->
  p <> DNew -> dp s k <> DDone ->
  (forall id, (p = DStart id \/ p = DGot id \/ exists o, p = DFound id o) ->
      In (GDelStart k id) tr \/ In (GDelStart k id) evs) ->
  (forall id o, p = DFound id o -> store s id = Some o /\ In (GDelStart k id) tr) ->
  inv (tr ++ evs) (set_dp s k p).
Proof.
  intros V E1 E2 E3 E4 N ND O F. destruct V as [V1 V2 V3 V4 V5 V6 V7]. constructor; cbn [set_dp store next objs].
  - intros o. rewrite events_of_app, E1, app_nil_r. auto.
  - intros id. rewrite stored_at_app, E2. auto.
  - auto.
  - intros k0 id D I. unfold set_dp, upd in D. cbn [dp] in D. destruct (Nat.eqb_spec k0 k) as [->|NE]; [congruence|].
    apply in_app_or in I as [I|I]; [eapply V4; eauto|]. apply E3 in I as [-> _]. auto.
  - intros k0 id c I. unfold set_dp, upd. cbn [dp]. apply in_app_or in I as [I|I].
    + apply V5 in I. destruct (Nat.eqb_spec k0 k) as [->|NE]; [congruence|auto].
    + apply E4 in I as [-> ->]. rewrite Nat.eqb_refl. auto.
  - intros k0 id D. unfold set_dp, upd in D. cbn [dp] in D. apply in_or_app.
    destruct (Nat.eqb_spec k0 k) as [->|NE]; [auto|]. left. apply V6. auto.
  - intros k0 id o D. unfold set_dp, upd in D. cbn [dp] in D. apply seen_app.
    destruct (Nat.eqb_spec k0 k) as [->|NE]; [|auto]. destruct (F _ _ D) as [S I].
    rewrite <- S, V2. apply seen_now. auto.
Qed.

Lemma inv_step tr s evs s' : inv tr s -> gstep zero s evs s' -> inv (tr ++ evs) s'.
Proof.
  intros V G. pose proof V as V0. destruct V as [V1 V2 V3 V4 V5 V6 V7]. destruct G.
  - (* add *)
    constructor; cbn [store next objs dp].
    + intros o. rewrite events_of_app. cbn. rewrite app_nil_r. auto.
    + intros i. rewrite stored_at_app. cbn. unfold upd. rewrite (eqb_swap id i).
      destruct (i =? id); auto.
    + intros i o. unfold upd. destruct (i =? id); intros Q; [injection Q as <-; lia|].
      apply V3 in Q. lia.
    + intros k i D I. evs. eapply V4; eauto.
    + intros k i c I. evs. eauto.
    + intros k i D. apply in_or_app. left. auto.
    + intros k i o D. apply seen_app. auto.
  - (* clear *)
    constructor; cbn [store next objs dp].
    + intros o. rewrite events_of_app. cbn. rewrite app_nil_r. auto.
    + intros i. rewrite stored_at_app. auto.
    + discriminate.
    + intros k i D I. evs. eapply V4; eauto.
    + intros k i c I. evs. eauto.
    + intros k i D. apply in_or_app. left. auto.
    + intros k i o D. apply seen_app. auto.
  - (* lookup *)
    constructor; cbn [set_found store next objs dp]; auto.
    + intros o'. rewrite events_of_app. cbn. rewrite app_nil_r. auto.
    + intros i. rewrite stored_at_app. cbn. auto.
    + intros k i D I. evs. eapply V4; eauto.
    + intros k i c' I. evs. eauto.
    + intros k i D. apply in_or_app. left. auto.
    + intros k i o' D. apply seen_app. auto.
  - (* authorize *)
    rewrite app_nil_r. constructor; cbn [set_obj set_found store next objs dp]; auto.
    intros o'. unfold upd. destruct (Nat.eqb_spec o' o) as [->|]; auto.
    rewrite <- (app_nil_r (events_of o tr)). eapply exec_step; eauto. apply s_authorize; auto.
  - (* not authorized *)
    rewrite app_nil_r. constructor; cbn [set_found store next objs dp]; auto.
  - (* object *)
    constructor; cbn [set_obj store next objs dp]; auto.
    + intros o'. rewrite events_of_app, events_of_map, (eqb_swap o o'). unfold upd.
      destruct (Nat.eqb_spec o' o) as [->|]; [|rewrite app_nil_r; auto]. eapply exec_step; eauto.
    + intros i. rewrite stored_at_app, stored_from_obj. auto.
    + intros k i D I. apply in_app_or in I as [I|I]; [eapply V4; eauto|].
      apply in_map_iff in I as (? & ? & _). discriminate.
    + intros k i c' I. apply in_app_or in I as [I|I]; [eauto|].
      apply in_map_iff in I as (? & ? & _). discriminate.
    + intros k i D. apply in_or_app. left. auto.
    + intros k i o' D. apply seen_app. auto.
  - (* delete *)
    apply set_dp_inv; auto; try discriminate; try congruence; cbn [In].
    + intros k' i [Q|[]]. injection Q as <- <-. auto.
    + intros k' i c [Q|[]]. discriminate.
    + intros i [Q|[Q|[o Q]]]; try discriminate. injection Q as <-. auto.
  - apply set_dp_inv; auto; try discriminate; try congruence; cbn [In].
    + intros k' i [Q|[]]; discriminate.
    + intros k' i c [Q|[]]. injection Q as <- <- <-. auto.
    + intros i [Q|[Q|[o Q]]]; discriminate.
  - apply set_dp_inv; auto; try discriminate; try congruence; cbn [In]; try tauto.
    intros i [Q|[Q|[o' Q]]]; try discriminate. injection Q as <-. left. apply V6. auto.
  - apply set_dp_inv; auto; try discriminate; try congruence; cbn [In].
    + intros k' i [Q|[]]; discriminate.
    + intros k' i c [Q|[]]. injection Q as <- <- <-. auto.
    + intros i [Q|[Q|[o Q]]]; discriminate.
  - apply set_dp_inv; auto; try discriminate; try congruence; cbn [In]; try tauto.
    + intros i [Q|[Q|[o' Q]]]; try discriminate. injection Q as <- <-. left. apply V6. auto.
    + intros i o' Q. injection Q as <- <-. split; auto.
  - apply set_dp_inv; auto; try discriminate; try congruence; cbn [In].
    + intros k' i [Q|[]]; discriminate.
    + intros k' i c [Q|[]]. injection Q as <- <- <-. auto.
    + intros i [Q|[Q|[o' Q]]]; discriminate.
  - apply set_dp_inv; auto; try discriminate; try congruence; cbn [In].
    + intros k' i [Q|[]]; discriminate.
    + intros k' i c [Q|[]]. injection Q as <- <- <-. auto.
    + intros i [Q|[Q|[o' Q]]]; discriminate.
  - (* remove *)
    constructor; cbn [store next objs dp].
    + intros i. rewrite events_of_app. cbn. rewrite app_nil_r. auto.
    + intros i. rewrite stored_at_app. cbn. unfold upd. rewrite (eqb_swap id i).
      destruct (i =? id); auto.
    + intros i x. unfold upd. destruct (i =? id); [discriminate|]. apply V3.
    + intros k' i D I. unfold upd in D. destruct (Nat.eqb_spec k' k); [discriminate|].
      apply in_app_or in I as [I|[I|[I|[]]]]; try discriminate. eapply V4; eauto.
    + intros k' i c I. unfold upd. destruct (Nat.eqb_spec k' k) as [|NE]; auto.
      apply in_app_or in I as [I|[I|[I|[]]]]; try discriminate; [eauto|]. congruence.
    + intros k' i D. apply in_or_app. left. unfold upd in D. destruct (Nat.eqb_spec k' k); [|auto].
      destruct D as [Q|[Q|[? Q]]]; discriminate.
    + intros k' i x D. apply seen_app. unfold upd in D. destruct (Nat.eqb_spec k' k); [discriminate|auto].
  - apply set_dp_inv; auto; try discriminate; try congruence; cbn [In].
    + intros k' i [Q|[]]; discriminate.
    + intros k' i c [Q|[]]. injection Q as <- <- <-. auto.
    + intros i [Q|[Q|[o' Q]]]; discriminate.
Qed.

Lemma inv_exec tr s : gexec zero tr s -> inv tr s.
Proof.
  induction 1 as [|tr s evs s' E IH G].
  - constructor; cbn; try discriminate; try tauto; intros.
    + apply exec_init.
    + destruct H as [H|[H|[? H]]]; discriminate.
  - eapply inv_step; eauto.
Qed.

(* Every prefix of a trace, up to the events of one step, is a trace. *)
Lemma cut tr s : gexec zero tr s -> forall tr1 e tr2, tr = tr1 ++ e :: tr2 ->
  exists tr0 pre post s0 s1, gexec zero tr0 s0 /\ gstep zero s0 (pre ++ e :: post) s1
    /\ tr1 = tr0 ++ pre /\ gexec zero (tr0 ++ pre ++ e :: post) s1.
Proof.
  induction 1 as [|tr s evs s' E IH G]; intros tr1 e tr2 Q.
  - destruct tr1; discriminate.
  - assert ((exists l, tr = tr1 ++ e :: l) \/ (exists pre, tr1 = tr ++ pre /\ evs = pre ++ e :: tr2)) as [[l L]|(pre & P1 & P2)].
    { clear - Q. revert tr1 Q. induction tr as [|x tr IH]; intros tr1 Q; cbn in Q.
      - right. exists tr1. auto.
      - destruct tr1 as [|y tr1]; cbn in Q; injection Q as -> Q.
        + left. exists tr. auto.
        + destruct (IH _ Q) as [[l L]|(pre & P1 & P2)].
          * left. exists l. rewrite L. auto.
          * right. exists pre. rewrite P1. auto. }
    + eapply IH; eauto.
    + exists tr, pre, tr2, s, s'. subst. split; auto. split; auto. split; auto.
      econstructor; eauto.
Qed.
End Inv.

Lemma ret_event tr s k b : exec tr s -> kp s k = KRet b -> In (ECancelRet k b) tr.
Proof.
  induction 1 as [|tr s evs s' E IH ST]; [discriminate|]. intros K. apply in_or_app.
  destruct ST; cbn [set_pc set_kp kp] in K; auto; unfold upd in K;
    (destruct (Nat.eqb_spec k k0) as [->|]; [|auto]); try discriminate; injection K as <-; right.
  - cbn. right. apply in_or_app. right. cbn. auto.
  - cbn. auto.
  - apply in_or_app. right. cbn. auto.
Qed.
Lemma cancel_event tr s k : exec tr s -> kp s k <> KNew -> In (ECancel k) tr.
Proof.
  induction 1 as [|tr s evs s' E IH ST]; [cbn; congruence|]. intros K. apply in_or_app.
  destruct ST; cbn [set_pc set_kp kp] in K; auto; unfold upd in K;
    (destruct (Nat.eqb_spec k k0) as [->|]; [|auto]); try (right; cbn; auto; fail);
    left; apply IH; congruence.
Qed.

Lemma running_quiet l tr : (forall c, ~ In (EOpStart c) tr /\ ~ In (EOpEnd c) tr) -> ops_running_from l tr = l.
Proof.
  revert l. induction tr as [|e tr IH]; intros l N; auto.
  assert (forall c, ~ In (EOpStart c) tr /\ ~ In (EOpEnd c) tr) as N'.
  { intros c. destruct (N c). cbn in *. tauto. }
  destruct e; cbn [ops_running_from]; auto; destruct (N c); cbn in *; tauto.
Qed.
Lemma ops_running_app l a b : ops_running_from l (a ++ b) = ops_running_from (ops_running_from l a) b.
Proof. revert l. induction a as [|[] a IH]; cbn; auto. Qed.

(* When cancel() returned True the ticket is dead. *)
Lemma dead_ticket tr1 tr2 s k :
  exec (tr1 ++ tr2) s -> In (ECancelRet k true) tr1 ->
  ops_running tr1 = [] /\ (forall c x, In (EAttach c x) tr1 -> In (EClose x) tr1) /\ no_activity tr2.
Proof.
  intros E I. assert (In (ECancel k) (tr1 ++ tr2) -> True) as _ by auto.
  apply in_split in I as (a & b & ->).
  destruct (removal_releases_storage (((a ++ ECancelRet k true :: b) ++ tr2)) s k a (b ++ tr2) E) as (A & B & C).
  { rewrite <- app_assoc. auto. }
  split; [|split].
  - unfold ops_running in *. rewrite ops_running_app, A. cbn. apply running_quiet. intros c.
    destruct (C c 0) as (C1 & _ & C3 & _). rewrite !in_app_iff in *. tauto.
  - intros c x I. apply in_app_or in I as [I|I].
    + apply in_or_app. left. eauto.
    + cbn in I. destruct I as [I|I]; [discriminate|]. exfalso. destruct (C c x) as (_ & _ & _ & C4). apply C4.
      apply in_or_app. auto.
  - intros c x. destruct (C c x) as (C1 & C2 & C3 & C4). rewrite !in_app_iff in *.
    split; [tauto|]. split; [tauto|]. split; [tauto|]. split; [tauto|].
    intros I.
    assert (exists k', In (ECancel k') a) as [k' K].
    { clear - E. remember ((a ++ ECancelRet k true :: b) ++ tr2) as tr eqn:Q.
      assert (forall tr s, exec tr s -> forall a b, tr = a ++ ECancelRet k true :: b -> exists k', In (ECancel k') a) as L.
      { clear. induction 1 as [|tr s evs s' E IH ST]; intros a b Q; [destruct a; discriminate|].
        assert ((exists l, tr = a ++ ECancelRet k true :: l) \/ (exists pre l, a = tr ++ pre /\ evs = pre ++ ECancelRet k true :: l))
          as [[l L]|(pre & l & P1 & P2)].
        { clear - Q. revert a Q. induction tr as [|x tr IH]; intros a Q; cbn in Q.
          - right. exists a, b. auto.
          - destruct a as [|y a]; cbn in Q; injection Q as -> Q.
            + left. exists tr. auto.
            + destruct (IH _ Q) as [[l L]|(pre & l & P1 & P2)].
              * left. exists l. rewrite L. auto.
              * right. exists pre, l. rewrite P1. auto. }
        - eauto.
        - subst a. destruct ST; try (destruct pre as [|? [|? [|? ?]]]; discriminate P2).
          + exists k0. apply in_or_app. right. destruct pre; [discriminate|]. injection P2 as <- _. left. auto.
          + exists k0. apply in_or_app. left. eapply cancel_event; eauto. congruence. }
      apply (L tr s E a (b ++ tr2)). rewrite Q, <- app_assoc. auto. }
    apply (no_success_reported_after_cancel _ s k' c E).
    apply in_split in K as (a1 & a2 & ->).
    apply in_split in I as (t1 & t2 & ->).
    exists a1, (a2 ++ ECancelRet k true :: b ++ t1), t2. repeat (rewrite <- !app_assoc; cbn). auto.
Qed.

Lemma cancel_never_false tr s : gexec false tr s -> forall o k, kp (objs s o) k <> KRet false.
Proof.
  induction 1 as [|tr s evs s' E IH G]; [discriminate|].
  intros o k. destruct G; cbn [set_obj set_found set_dp objs]; auto.
  - unfold upd. destruct (Nat.eqb_spec o o0) as [->|]; cbn [set_pc kp]; auto.
  - unfold upd. destruct (Nat.eqb_spec o o0) as [->|]; auto.
    intros K. destruct (kp (objs s o0) k) as [| | | |b] eqn:KK.
    { specialize (H4 k KK K). discriminate. }
    4:{ destruct b; [|apply (IH o0 k); auto].
        revert KK K. clear - H0. intros KK K. destruct H0; cbn [set_pc set_kp kp] in K; try congruence;
            unfold upd in K; (destruct (Nat.eqb_spec k k0) as [->|]; congruence). }
    all: revert KK K; clear - H0; intros KK K; destruct H0; cbn [set_pc set_kp kp] in K; try congruence;
            unfold upd in K; (destruct (Nat.eqb_spec k k0) as [->|]; congruence).
Qed.

(* ---- C53 ---- *)

(* A DELETE that answers 204, with a timeout configured: either no ticket was
   stored at some time during the request, or a ticket which was stored during
   the request is dead: canceled, nothing running, backends closed, and nothing
   will ever run with it. *)
Theorem delete_204_ticket_dead :
  forall tr s tr1 tr2 k id,
  gexec false tr s -> tr = tr1 ++ GDelEnd k id 204 :: tr2 ->
  seen_during tr1 k id None
  \/ exists o, seen_during tr1 k id (Some o)
       /\ In (ECancel k) (events_of o tr1)
       /\ ops_running (events_of o tr1) = []
       /\ (forall c x, In (EAttach c x) (events_of o tr1) -> In (EClose x) (events_of o tr1))
       /\ no_activity (events_of o tr2).
Proof.
  intros tr s tr1 tr2 k id E Q.
  destruct (cut false tr s E _ _ _ Q) as (tr0 & pre & post & s0 & s1 & E0 & G & P & _).
  pose proof (inv_exec _ _ _ E0) as V. destruct V as [V1 V2 V3 V4 V5 V6 V7].
  assert (forall o, exec (events_of o tr) (objs s o)) as X1.
  { apply (v_objs tr s). eapply inv_exec; eauto. }
  assert (forall k' o id', kp (objs s0 o) k' = KRet true -> dp s0 k' = DFound id' o ->
     exists o, seen_during tr1 k' id' (Some o) /\ In (ECancel k') (events_of o tr1)
       /\ ops_running (events_of o tr1) = []
       /\ (forall c x, In (EAttach c x) (events_of o tr1) -> In (EClose x) (events_of o tr1))
       /\ no_activity (events_of o tr2)) as DEAD.
  { intros k' o id' K D. exists o. split; [subst tr1; apply seen_app; auto|].
    specialize (X1 o). rewrite Q, events_of_app in X1. cbn [events_of] in X1.
    split.
    - subst tr1. rewrite events_of_app. apply in_or_app. left. eapply cancel_event; [eauto|congruence].
    - eapply dead_ticket; eauto. subst tr1. rewrite events_of_app. apply in_or_app. left. eapply ret_event; eauto. }
  remember (pre ++ GDelEnd k id 204 :: post) as evs eqn:EV. destruct G;
    try (destruct pre as [|? [|? [|? ?]]]; discriminate EV).
  - (* object *)
    exfalso. assert (In (GDelEnd k id 204) (map (GObj o) evs)) as I.
    { rewrite EV. apply in_or_app. right. left. auto. }
    apply in_map_iff in I as (? & ? & _). discriminate.
  - (* missing *)
    assert (pre = [] /\ k0 = k /\ id0 = id) as (-> & -> & ->).
    { destruct pre as [|? [|? ?]]; try discriminate. injection EV as -> ->. auto. }
    left. subst tr1. rewrite app_nil_r. replace None with (stored_at tr0 id) by congruence. apply seen_now. auto.
  - assert (pre = [] /\ k0 = k /\ id0 = id) as (-> & -> & ->).
    { destruct pre as [|? [|? ?]]; try discriminate. injection EV as -> ->. auto. }
    left. subst tr1. rewrite app_nil_r. replace None with (stored_at tr0 id) by congruence. apply seen_now. auto.
  - (* cancel returned False *)
    exfalso. eapply cancel_never_false; eauto.
  - (* removed *)
    assert (k0 = k /\ id0 = id) as (-> & ->).
    { destruct pre as [|? [|? [|? ?]]]; try discriminate. injection EV as _ -> ->. auto. }
    right. eapply DEAD; eauto.
Qed.
Print Assumptions delete_204_ticket_dead.

(* ---- Requests that do not overlap ---- *)
Definition busy (p : dpc) (id : nat) : Prop := p = DStart id \/ p = DGot id \/ exists o, p = DFound id o.

Lemma sequential_prefix a b : sequential (a ++ b) -> sequential a.
Proof.
  intros S tr1 e tr2 id k Q C. apply (S tr1 e (tr2 ++ b) id k); auto. rewrite Q, <- app_assoc. auto.
Qed.
Lemma busy_opened z tr s k id : gexec z tr s -> busy (dp s k) id -> opened tr k id.
Proof.
  intros E B. pose proof (inv_exec _ _ _ E) as V. split.
  - eapply v_open; eauto.
  - intros code I. eapply v_end in I; eauto. destruct B as [Q|[Q|[o Q]]]; congruence.
Qed.

Lemma sequential_inv z tr s : gexec z tr s -> sequential tr ->
  (forall k1 k2 id, busy (dp s k1) id -> busy (dp s k2) id -> k1 = k2)
  /\ (forall k id o, dp s k = DFound id o -> store s id = Some o).
Proof.
  induction 1 as [|tr s evs s' E IH G]; intros S.
  - split; [|discriminate]. intros k1 k2 id [Q|[Q|[o Q]]]; discriminate.
  - destruct (IH (sequential_prefix _ _ S)) as [U F]. clear IH.
    assert (forall e r id k, evs = e :: r -> changes e id -> ~ busy (dp s k) id) as NB.
    { intros e r id k -> C B. apply (S tr e r id k); auto. eapply busy_opened; eauto. }
    assert (forall k id o, dp s k = DFound id o -> busy (dp s k) id) as FB.
    { intros k id o Q. right. right. eauto. }
    assert (forall k p, (forall id, busy p id -> busy (dp s k) id \/ forall k', ~ busy (dp s k') id) ->
              forall k1 k2 id, busy (upd (dp s) k p k1) id -> busy (upd (dp s) k p k2) id -> k1 = k2) as UU.
    { intros k p B k1 k2 id. unfold upd.
      destruct (Nat.eqb_spec k1 k) as [->|N1], (Nat.eqb_spec k2 k) as [->|N2]; intros B1 B2; auto.
      - destruct (B _ B1) as [X|X]; [eauto|]. exfalso. eapply X; eauto.
      - destruct (B _ B2) as [X|X]; [eauto|]. exfalso. eapply X; eauto.
      - eauto. }
    assert (forall id, ~ busy DDone id) as ND.
    { intros id [Q|[Q|[o Q]]]; discriminate. }
    assert (forall k p, (forall id o, p = DFound id o -> store s id = Some o) ->
              forall k' id o, upd (dp s) k p k' = DFound id o -> store s id = Some o) as FF.
    { intros k p B k' id o. unfold upd. destruct (k' =? k); eauto. }
    destruct G; cbn [set_obj set_found set_dp store dp]; auto.
    + split; auto. intros k i o Q. unfold upd. destruct (Nat.eqb_spec i id) as [->|]; eauto.
      exfalso. eapply NB; eauto. reflexivity.
    + split; auto. intros k i o Q. exfalso. eapply NB; eauto. exact I.
    + split; [|apply FF; discriminate]. apply UU. intros i B. right. intros k'. eapply NB; eauto.
      destruct B as [Q|[Q|[o Q]]]; try discriminate. injection Q as <-. reflexivity.
    + split; [|apply FF; discriminate]. apply UU. intros i B. exfalso. eapply ND; eauto.
    + split; [|apply FF; discriminate]. apply UU. intros i [Q|[Q|[o' Q]]]; try discriminate.
      injection Q as <-. left. left. auto.
    + split; [|apply FF; discriminate]. apply UU. intros i B. exfalso. eapply ND; eauto.
    + split.
      * apply UU. intros i [Q|[Q|[o' Q]]]; try discriminate. injection Q as <- <-. left. right. left. auto.
      * apply FF. intros i o' Q. injection Q as <- <-. auto.
    + split; [|apply FF; discriminate]. apply UU. intros i B. exfalso. eapply ND; eauto.
    + split; [|apply FF; discriminate]. apply UU. intros i B. exfalso. eapply ND; eauto.
    + split.
      * apply UU. intros i B. exfalso. eapply ND; eauto.
      * intros k' i x. unfold upd. destruct (Nat.eqb_spec k' k) as [|NE]; [discriminate|]. intros Q.
        destruct (Nat.eqb_spec i id) as [->|]; [|eauto]. exfalso. apply NE. eapply U; eauto.
    + split; [|apply FF; discriminate]. apply UU. intros i B. exfalso. eapply ND; eauto.
Qed.

(* C53: when control requests for the same ticket do not overlap, whatever
   transfers do: a DELETE answers 204 or 409, and removes the ticket it canceled,
   which is dead. *)
Theorem sequential_delete :
  forall zero tr s, gexec zero tr s -> sequential tr ->
  (forall k id code, In (GDelEnd k id code) tr -> code = 204 \/ code = 409)
  /\ (forall tr1 tr2 k id, tr = tr1 ++ GRemoved k id :: tr2 ->
      exists o, stored_at tr1 id = Some o /\ seen_during tr1 k id (Some o)
        /\ In (ECancelRet k true) (events_of o tr1)
        /\ ops_running (events_of o tr1) = []
        /\ (forall c x, In (EAttach c x) (events_of o tr1) -> In (EClose x) (events_of o tr1))
        /\ no_activity (events_of o tr2)).
Proof.
  intros zero tr s E S. split.
  - intros k id code I. apply in_split in I as (tr1 & tr2 & Q).
    destruct (cut zero tr s E _ _ _ Q) as (tr0 & pre & post & s0 & s1 & E0 & G & P & E1).
    assert (sequential tr0) as S0.
    { subst. rewrite <- app_assoc in S. eapply sequential_prefix; eauto. }
    destruct (sequential_inv _ _ _ E0 S0) as [_ F].
    remember (pre ++ GDelEnd k id code :: post) as evs eqn:EV. destruct G;
      try (destruct pre as [|? [|? [|? ?]]]; discriminate EV).
    + exfalso. assert (In (GDelEnd k id code) (map (GObj o) evs)) as I.
      { rewrite EV. apply in_or_app. right. left. auto. }
      apply in_map_iff in I as (? & ? & _). discriminate.
    + left. destruct pre as [|? [|? ?]]; try discriminate. injection EV as _ _ -> _. auto.
    + left. destruct pre as [|? [|? ?]]; try discriminate. injection EV as _ _ -> _. auto.
    + right. destruct pre as [|? [|? ?]]; try discriminate. injection EV as _ _ -> _. auto.
    + left. destruct pre as [|? [|? ?]]; try discriminate. injection EV as _ _ -> _. auto.
    + left. destruct pre as [|? [|? [|? ?]]]; try discriminate. injection EV as _ _ _ -> _. auto.
    + exfalso. apply F in H. congruence.
  - intros tr1 tr2 k id Q.
    destruct (cut zero tr s E _ _ _ Q) as (tr0 & pre & post & s0 & s1 & E0 & G & P & E1).
    assert (sequential tr0) as S0.
    { subst. rewrite <- app_assoc in S. eapply sequential_prefix; eauto. }
    destruct (sequential_inv _ _ _ E0 S0) as [_ F].
    pose proof (inv_exec _ _ _ E0) as V. destruct V as [V1 V2 V3 V4 V5 V6 V7].
    assert (forall o, exec (events_of o tr) (objs s o)) as X1.
    { apply (v_objs tr s). eapply inv_exec; eauto. }
    remember (pre ++ GRemoved k id :: post) as evs eqn:EV. destruct G;
      try (destruct pre as [|? [|? [|? ?]]]; discriminate EV).
    + exfalso. assert (In (GRemoved k id) (map (GObj o) evs)) as I.
      { rewrite EV. apply in_or_app. right. left. auto. }
      apply in_map_iff in I as (? & ? & _). discriminate.
    + assert (pre = [] /\ k0 = k /\ id0 = id) as (-> & -> & ->).
      { destruct pre as [|? [|? [|? ?]]]; try discriminate. injection EV as -> -> _. auto. }
      rewrite app_nil_r in P. subst tr0. exists o. split; [rewrite <- V2; eauto|]. split; [eauto|].
      assert (In (ECancelRet k true) (events_of o tr1)) as I by (eapply ret_event; eauto).
      split; auto. specialize (X1 o). rewrite Q, events_of_app in X1. cbn [events_of] in X1.
      eapply dead_ticket; eauto.
Qed.
Print Assumptions sequential_delete.

(* A ticket that was added is stored, dead, or was replaced or cleared. *)
Definition lost (tr : list gevent) (id o : nat) : Prop :=
  exists tr1 e tr2, tr = tr1 ++ e :: tr2 /\ stored_at tr1 id = Some o
                    /\ (e = GClear \/ exists o', e = GAdd id o').

Lemma change_point x tr id :
  stored_from x tr id <> x ->
  exists tr1 e tr2, tr = tr1 ++ e :: tr2 /\ stored_from x tr1 id = x
    /\ (e = GClear \/ (exists o', e = GAdd id o') \/ exists k, e = GRemoved k id).
Proof.
  induction tr as [|e tr IH] using rev_ind; cbn; [congruence|]. intros N.
  assert ({stored_from x tr id = x} + {stored_from x tr id <> x}) as [Q|Q].
  { repeat decide equality. }
  - exists tr, e, []. split; auto. split; auto. rewrite stored_from_app, Q in N.
    destruct e; cbn in N; try congruence; eauto.
    + destruct (Nat.eqb_spec id0 id) as [->|]; [eauto|congruence].
    + destruct (Nat.eqb_spec id0 id) as [->|]; [eauto|congruence].
  - destruct (IH Q) as (a & b & c & -> & S & C). exists a, b, (c ++ [e]). rewrite <- app_assoc. auto.
Qed.

Theorem no_ticket_forgotten :
  forall zero tr s id o, gexec zero tr s -> sequential tr -> In (GAdd id o) tr ->
  stored_at tr id = Some o \/ lost tr id o
  \/ exists tr1 tr2 k, tr = tr1 ++ tr2 /\ In (ECancelRet k true) (events_of o tr1)
       /\ ops_running (events_of o tr1) = [] /\ no_activity (events_of o tr2).
Proof.
  intros zero tr s id o E S I. apply in_split in I as (a & b & Q).
  assert ({stored_at tr id = Some o} + {stored_at tr id <> Some o}) as [T|N] by repeat decide equality; auto.
  right. rewrite Q, stored_at_app in N. cbn in N. rewrite Nat.eqb_refl in N.
  destruct (change_point _ _ _ N) as (t1 & e & t2 & -> & T & C).
  assert (stored_at (a ++ GAdd id o :: t1) id = Some o) as T1.
  { rewrite stored_at_app. cbn. rewrite Nat.eqb_refl. auto. }
  assert (tr = (a ++ GAdd id o :: t1) ++ e :: t2) as Q'. { rewrite Q, <- app_assoc. auto. }
  destruct C as [->|[[o' ->]|[k ->]]].
  - left. eexists _, _, _. split; [exact Q'|]. auto.
  - left. eexists _, _, _. split; [exact Q'|]. eauto.
  - right. destruct (sequential_delete zero tr s E S) as [_ R].
    destruct (R _ _ _ _ Q') as (o' & R1 & _ & R2 & R3 & _ & R4). assert (o' = o) as -> by congruence.
    eexists _, _, k. split; [exact Q'|]. auto.
Qed.
Print Assumptions no_ticket_forgotten.

(* ---- Refutations and examples ---- *)

(* Executions are computed from scripts. *)
Inductive act :=
| AAdd (id : nat) | AClear | ALookup (c id : nat) | AAuthorize (c : nat)
| AOpen (o c : nat) | AAttach (o c : nat) | AStart (o c : nat) | ACanceled (o c : nat) | AEnd (o c : nat)
| ACancel (o k : nat) | AWake (o k : nat) | AFinish (o k : nat)
| ADelete (k id : nat) | ADel (k : nat).

(* cancel() called by thread k *)
Definition cancel_now (zero : bool) (t : st) (k : nat) : option (list event * st) :=
  match kp t k, ongoing t with
  | KNew, [] =>
      Some (ECancel k :: map EClose (attached t) ++ [ECancelRet k true],
            St true (ongoing t) (opflag t) (conns t) (close_ctxs (attached t) (is_open t)) (next_ctx t) (unused t)
               (pc t) (upd (kp t) k (KRet true)))
  | KNew, _ =>
      let flags := fun c => if existsb (Nat.eqb c) (ongoing t) then true else opflag t c in
      if zero
      then Some ([ECancel k; ECancelRet k false],
                 St true (ongoing t) flags (conns t) (is_open t) (next_ctx t) (unused t) (pc t) (upd (kp t) k (KRet false)))
      else Some ([ECancel k],
                 St true (ongoing t) flags (conns t) (is_open t) (next_ctx t) (unused t) (pc t) (upd (kp t) k KWait))
  | _, _ => None
  end.
Definition obj_act (zero : bool) (t : st) (a : act) : option (list event * st) :=
  match a with
  | AOpen _ c =>
      match pc t c, lookup c (conns t) with
      | Authorized, None =>
          Some ([EOpen c (next_ctx t)],
                St (canceled t) (ongoing t) (opflag t) (conns t) (upd (is_open t) (next_ctx t) true) (S (next_ctx t))
                   (unused t) (upd (pc t) c (Opened (next_ctx t))) (kp t))
      | _, _ => None
      end
  | AAttach _ c =>
      match pc t c, canceled t with
      | Opened x, false =>
          Some ([EAttach c x],
                St (canceled t) (ongoing t) (opflag t) ((c, x) :: del c (conns t)) (is_open t) (next_ctx t) (unused t)
                   (upd (pc t) c (HasCtx x)) (kp t))
      | _, _ => None
      end
  | AStart _ c =>
      match pc t c, canceled t with
      | HasCtx x, false =>
          Some ([EOpStart c],
                St (canceled t) (c :: ongoing t) (upd (opflag t) c false) (conns t) (is_open t) (next_ctx t) (unused t)
                   (upd (pc t) c (Running x)) (kp t))
      | _, _ => None
      end
  | ACanceled _ c =>
      match pc t c, opflag t c with
      | Running x, true => Some ([], set_pc t c (Finished x WasCanceled))
      | _, _ => None
      end
  | AEnd _ c =>
      match pc t c, canceled t with
      | Finished x o, true =>
          Some ([EOpEnd c; EReport c false],
                St (canceled t) (rem c (ongoing t)) (opflag t) (conns t) (is_open t) (next_ctx t)
                   (match rem c (ongoing t) with [] => true | _ => unused t end) (upd (pc t) c Idle) (kp t))
      | _, _ => None
      end
  | ACancel _ k => cancel_now zero t k
  | AWake _ k =>
      match kp t k, unused t with
      | KWait, true => Some ([], set_kp t k KWoken)
      | _, _ => None
      end
  | AFinish _ k =>
      match kp t k with
      | KWoken =>
          Some (map EClose (attached t) ++ [ECancelRet k true],
                St (canceled t) (ongoing t) (opflag t) (conns t) (close_ctxs (attached t) (is_open t)) (next_ctx t) (unused t)
                   (pc t) (upd (kp t) k (KRet true)))
      | _ => None
      end
  | _ => None
  end.
Definition acts (zero : bool) (s : gst) (a : act) : option (list gevent * gst) :=
  let on o := if o <? next s
              then match obj_act zero (objs s o) a with
                   | Some (evs, t) => Some (map (GObj o) evs, set_obj s o t)
                   | None => None
                   end
              else None in
  let by_thread o k := match dp s k with
                       | DFound _ o' => if o' =? o then on o else None
                       | _ => None
                       end in
  match a with
  | AAdd id => Some ([GAdd id (next s)],
                     Gst (upd (store s) id (Some (next s))) (S (next s)) (objs s) (found s) (dp s))
  | AClear => Some ([GClear], Gst (fun _ => None) (next s) (objs s) (found s) (dp s))
  | ALookup c id => match store s id with
                    | Some o => Some ([GLookup c id o], set_found s c (Some o))
                    | None => None
                    end
  | AAuthorize c =>
      match found s c with
      | Some o => match pc (objs s o) c, canceled (objs s o) with
                  | Idle, false => Some ([], set_obj (set_found s c None) o (set_pc (objs s o) c Authorized))
                  | _, _ => None
                  end
      | None => None
      end
  | AOpen o _ | AAttach o _ | AStart o _ | ACanceled o _ | AEnd o _ => on o
  | ACancel o k | AWake o k | AFinish o k => by_thread o k
  | ADelete k id => match dp s k with DNew => Some ([GDelStart k id], set_dp s k (DStart id)) | _ => None end
  | ADel k =>
      match dp s k with
      | DStart id => match store s id with
                     | None => Some ([GDelEnd k id 204], set_dp s k DDone)
                     | Some _ => Some ([], set_dp s k (DGot id))
                     end
      | DGot id => match store s id with
                   | None => Some ([GDelEnd k id 204], set_dp s k DDone)
                   | Some o => Some ([], set_dp s k (DFound id o))
                   end
      | DFound id o =>
          match kp (objs s o) k, store s id with
          | KRet true, Some _ => Some ([GRemoved k id; GDelEnd k id 204],
                 Gst (upd (store s) id None) (next s) (objs s) (found s) (upd (dp s) k DDone))
          | KRet true, None => Some ([GDelEnd k id 500], set_dp s k DDone)
          | KRet false, _ => Some ([GDelEnd k id 204], set_dp s k DDone)
          | KTimedOut, _ => Some ([GDelEnd k id 409], set_dp s k DDone)
          | _, _ => None
          end
      | _ => None
      end
  end.

Ltac quiet :=
  intros; unfold upd in *;
  repeat match goal with
  | H : context [Nat.eqb ?a ?b] |- _ => destruct (Nat.eqb_spec a b); subst
  | |- context [Nat.eqb ?a ?b] => destruct (Nat.eqb_spec a b); subst
  end; try congruence; try discriminate; eauto.

Definition thread_of (a : act) : option nat :=
  match a with ACancel _ k | AWake _ k | AFinish _ k => Some k | _ => None end.
Lemma obj_act_sound zero t a evs t' : obj_act zero t a = Some (evs, t') ->
  step t evs t' /\ (forall c, pc t c = Idle -> pc t' c <> Authorized)
  /\ (forall k, kp t k <> kp t' k -> thread_of a = Some k)
  /\ (forall k, kp t k = KNew -> kp t' k = KWait -> zero = false)
  /\ (forall k, kp t k = KNew -> kp t' k = KRet false -> zero = true).
Proof.
  destruct a; cbn [obj_act]; try discriminate.
  - destruct (pc t c) eqn:P; try discriminate. destruct (lookup c (conns t)) eqn:L; try discriminate.
    intros Q. injection Q as <- <-. split; [apply s_open; auto|]. cbn [pc kp]. repeat split; quiet.
  - destruct (pc t c) eqn:P; try discriminate. destruct (canceled t) eqn:L; try discriminate.
    intros Q. injection Q as <- <-. split; [pose proof (s_attach t c x P L) as X; rewrite L in X; exact X|]. cbn [pc kp]. repeat split; quiet.
  - destruct (pc t c) eqn:P; try discriminate. destruct (canceled t) eqn:L; try discriminate.
    intros Q. injection Q as <- <-. split; [pose proof (s_add_operation t c x P L) as X; rewrite L in X; exact X|]. cbn [pc kp]. repeat split; quiet.
  - destruct (pc t c) eqn:P; try discriminate. destruct (opflag t c) eqn:L; try discriminate.
    intros Q. injection Q as <- <-. split; [eapply s_op_canceled; eauto|]. cbn [set_pc pc kp]. repeat split; quiet.
  - destruct (pc t c) eqn:P; try discriminate. destruct (canceled t) eqn:L; try discriminate.
    intros Q. injection Q as <- <-. split; [pose proof (s_remove_operation_canceled t c x o0 P L) as X; rewrite L in X; exact X|].
    cbn [pc kp]. repeat split; quiet.
  - unfold cancel_now. destruct (kp t k) eqn:K; try discriminate. destruct (ongoing t) as [|x l] eqn:O.
    + intros Q. injection Q as <- <-. split; [rewrite <- O; apply s_cancel_idle; auto|].
      cbn [pc kp thread_of]. repeat split; quiet.
    + destruct zero; intros Q; injection Q as <- <-.
      * split.
        { pose proof (s_cancel_nowait t k K) as X. rewrite O in X. apply X. discriminate. }
        cbn [pc kp thread_of]. repeat split; quiet.
      * split.
        { pose proof (s_cancel_wait t k K) as X. rewrite O in X. apply X. discriminate. }
        cbn [pc kp thread_of]. repeat split; quiet.
  - destruct (kp t k) eqn:K; try discriminate. destruct (unused t) eqn:O; try discriminate.
    intros Q. injection Q as <- <-. split; [apply s_wake; auto|]. cbn [set_kp pc kp thread_of]. repeat split; quiet.
  - destruct (kp t k) eqn:K; try discriminate.
    intros Q. injection Q as <- <-. split; [apply s_cancel_finish; auto|]. cbn [pc kp thread_of]. repeat split; quiet.
Qed.

Lemma on_sound zero s o a evs s' :
  (forall k, thread_of a = Some k -> exists id, dp s k = DFound id o) ->
  (if o <? next s
   then match obj_act zero (objs s o) a with
        | Some (evs, t) => Some (map (GObj o) evs, set_obj s o t)
        | None => None
        end
   else None) = Some (evs, s') -> gstep zero s evs s'.
Proof.
  intros T. destruct (Nat.ltb_spec o (next s)); [|discriminate].
  destruct (obj_act zero (objs s o) a) as [[e t]|] eqn:A; [|discriminate]. intros Q. injection Q as <- <-.
  apply obj_act_sound in A as (A1 & A2 & A3 & A4 & A5). apply g_obj; auto.
Qed.

Lemma acts_sound zero s a evs s' : acts zero s a = Some (evs, s') -> gstep zero s evs s'.
Proof.
  destruct a; cbn [acts];
    try match goal with |- context [obj_act zero (objs s ?o) ?a] =>
          intros Q; apply (on_sound zero s o a evs s'); [cbn [thread_of]; discriminate|exact Q] end.
  - intros Q. injection Q as <- <-. constructor.
  - intros Q. injection Q as <- <-. constructor.
  - destruct (store s id) eqn:S; [|discriminate]. intros Q. injection Q as <- <-. constructor. auto.
  - destruct (found s c) eqn:F; [|discriminate]. destruct (pc (objs s n) c) eqn:P; try discriminate.
    destruct (canceled (objs s n)) eqn:C; [discriminate|]. intros Q. injection Q as <- <-. constructor; auto.
  - destruct (dp s k) as [| | |i x|] eqn:D; try discriminate. destruct (Nat.eqb_spec x o) as [->|]; [|discriminate].
    intros Q. apply (on_sound zero s o (ACancel o k) evs s'); auto. cbn. clear Q. intros k' Q. injection Q as <-. eauto.
  - destruct (dp s k) as [| | |i x|] eqn:D; try discriminate. destruct (Nat.eqb_spec x o) as [->|]; [|discriminate].
    intros Q. apply (on_sound zero s o (AWake o k) evs s'); auto. cbn. clear Q. intros k' Q. injection Q as <-. eauto.
  - destruct (dp s k) as [| | |i x|] eqn:D; try discriminate. destruct (Nat.eqb_spec x o) as [->|]; [|discriminate].
    intros Q. apply (on_sound zero s o (AFinish o k) evs s'); auto. cbn. clear Q. intros k' Q. injection Q as <-. eauto.
  - destruct (dp s k) eqn:D; try discriminate. intros Q. injection Q as <- <-. constructor. auto.
  - destruct (dp s k) as [|i|i|i o|] eqn:D; try discriminate.
    + destruct (store s i) eqn:S; intros Q; injection Q as <- <-; [eapply g_get|eapply g_get_missing]; eauto.
    + destruct (store s i) eqn:S; intros Q; injection Q as <- <-; [eapply g_remove_found|eapply g_remove_missing]; eauto.
    + destruct (kp (objs s o) k) as [| | | |[]] eqn:K; try discriminate.
      * intros Q. injection Q as <- <-. eapply g_timeout; eauto.
      * destruct (store s i) eqn:S; intros Q; injection Q as <- <-; [eapply g_remove|eapply g_remove_key_error]; eauto.
      * intros Q. injection Q as <- <-. eapply g_not_removed; eauto.
Qed.

Fixpoint script (zero : bool) (l : list act) (tr : list gevent) (s : gst) : option (list gevent * gst) :=
  match l with
  | [] => Some (tr, s)
  | a :: r => match acts zero s a with
              | Some (evs, s') => script zero r (tr ++ evs) s'
              | None => None
              end
  end.
Lemma script_sound zero l tr s tr' s' :
  gexec zero tr s -> script zero l tr s = Some (tr', s') -> gexec zero tr' s'.
Proof.
  revert tr s. induction l as [|a l IH]; cbn; intros tr s E Q; [congruence|].
  destruct (acts zero s a) as [[evs s1]|] eqn:A; [|discriminate].
  eapply IH; [|exact Q]. eapply gexec_step; eauto. eapply acts_sound; eauto.
Qed.
Definition trace_of (zero : bool) (l : list act) : option (list gevent) := option_map fst (script zero l [] ginit).
Lemma trace_of_sound zero l tr : trace_of zero l = Some tr -> exists s, gexec zero tr s.
Proof.
  unfold trace_of. destruct (script zero l [] ginit) as [[tr' s]|] eqn:Q; [|discriminate].
  intros H. injection H as <-. exists s. eapply script_sound; eauto. constructor.
Qed.

(* Whether requests overlap can be computed. *)
Definition is_open_in (tr : list gevent) (k id : nat) : bool :=
  existsb (fun e => match e with GDelStart k' i => (k' =? k) && (i =? id) | _ => false end) tr
  && negb (existsb (fun e => match e with GDelEnd k' i _ => (k' =? k) && (i =? id) | _ => false end) tr).
Definition open_deletes (tr : list gevent) : list (nat * nat) :=
  flat_map (fun e => match e with GDelStart k i => if is_open_in tr k i then [(k, i)] else [] | _ => [] end) tr.
Fixpoint seq_check (before after : list gevent) : bool :=
  match after with
  | [] => true
  | e :: r =>
      (match e with
       | GAdd i _ | GDelStart _ i => forallb (fun p => negb (snd p =? i)) (open_deletes before)
       | GClear => match open_deletes before with [] => true | _ => false end
       | _ => true
       end) && seq_check (before ++ [e]) r
  end.
Lemma opened_in tr k id : opened tr k id -> In (k, id) (open_deletes tr).
Proof.
  intros [I N]. unfold open_deletes. apply in_flat_map. exists (GDelStart k id). split; auto.
  replace (is_open_in tr k id) with true; [left; auto|]. symmetry. unfold is_open_in. apply andb_true_iff. split.
  - apply existsb_exists. exists (GDelStart k id). split; auto. rewrite !Nat.eqb_refl. auto.
  - apply negb_true_iff. destruct (existsb _ tr) eqn:X; auto. apply existsb_exists in X as (e & Ie & Q).
    destruct e; try discriminate. apply andb_true_iff in Q as [Q1 Q2].
    apply Nat.eqb_eq in Q1, Q2. subst. exfalso. eapply N; eauto.
Qed.
Lemma seq_check_sound before after :
  seq_check before after = true ->
  forall tr1 e tr2 id k, after = tr1 ++ e :: tr2 -> changes e id -> ~ opened (before ++ tr1) k id.
Proof.
  revert before. induction after as [|x r IH]; intros before C tr1 e tr2 id k Q Ch O; [destruct tr1; discriminate|].
  cbn [seq_check] in C. apply andb_true_iff in C as [C1 C2]. destruct tr1 as [|y tr1]; cbn in Q; injection Q as -> Q.
  - rewrite app_nil_r in O. apply opened_in in O. destruct e; cbn in Ch; try tauto; subst.
    + rewrite forallb_forall in C1. specialize (C1 _ O). cbn in C1. rewrite Nat.eqb_refl in C1. discriminate.
    + destruct (open_deletes before); [destruct O|discriminate].
    + rewrite forallb_forall in C1. specialize (C1 _ O). cbn in C1. rewrite Nat.eqb_refl in C1. discriminate.
  - eapply IH; eauto. rewrite <- app_assoc. exact O.
Qed.
Lemma sequential_check tr : seq_check [] tr = true -> sequential tr.
Proof. intros C tr1 e tr2 id k Q Ch. apply (seq_check_sound [] tr C tr1 e tr2 id k Q Ch). Qed.

Ltac run_script z l :=
  let t := eval vm_compute in (trace_of z l) in
  match t with
  | Some ?tr =>
      let s := fresh "s" in let E := fresh "E" in
      assert (exists s, gexec z tr s) as [s E]
        by (apply (trace_of_sound z l); vm_compute; reflexivity)
  end.

(* An operation of connection c with ticket o, stored under id. *)
Definition operation (o id c : nat) : list act := [ALookup c id; AAuthorize c; AOpen o c; AAttach o c; AStart o c].

(* Two DELETE requests of the same ticket: the second one fails with 500. *)
Theorem concurrent_delete_refuted :
  exists tr s k id, gexec false tr s /\ In (GDelEnd k id 500) tr.
Proof.
  run_script false ([AAdd 7; ADelete 0 7; ADelete 1 7; ADel 0; ADel 1; ADel 0; ADel 1;
    ACancel 0 0; ACancel 0 1; ADel 0; ADel 1]).
  eexists _, _, 1, 7. split; [exact E|]. cbn. auto 20.
Qed.
Print Assumptions concurrent_delete_refuted.

(* A ticket added again while the old one is being removed: the new ticket is
   removed, although it was not canceled and is used. *)
Theorem delete_removes_new_ticket_refuted :
  exists tr1 s k id o,
    gexec false (tr1 ++ [GRemoved k id; GDelEnd k id 204]) s
    /\ stored_at tr1 id = Some o
    /\ ops_running (events_of o tr1) <> [] /\ forall k', ~ In (ECancel k') (events_of o tr1).
Proof.
  run_script false (([AAdd 7] ++ operation 0 7 0 ++ [ADelete 0 7; ADel 0; ADel 0; ACancel 0 0]
    ++ [AAdd 7] ++ operation 1 7 1 ++ [ACanceled 0 0; AEnd 0 0; AWake 0 0; AFinish 0 0; ADel 0])).
  match type of E with gexec _ ?t _ => exists (removelast (removelast t)) end.
  exists s, 0, 7, 1. split; [exact E|]. split; [reflexivity|]. split; [vm_compute; discriminate|].
  intros k'. vm_compute. intuition discriminate.
Qed.
Print Assumptions delete_removes_new_ticket_refuted.

(* A PUT replacing a ticket, and DELETE /tickets/, leave the operations of the old
   tickets running, not even told to stop; nothing refers to these tickets any
   more. *)
Theorem lost_ticket_in_use_refuted :
  exists tr s id o, gexec false tr s /\ sequential tr /\ lost tr id o
     /\ (forall i, stored_at tr i <> Some o)
     /\ ops_running (events_of o tr) <> [] /\ (forall k, ~ In (ECancel k) (events_of o tr))
     /\ In (GAdd id (S o)) tr.
Proof.
  run_script false (([AAdd 7] ++ operation 0 7 0 ++ [AAdd 7])).
  eexists _, s, 7, 0. split; [exact E|]. split; [apply sequential_check; reflexivity|]. split.
  { match type of E with gexec _ ?t _ => exists (removelast t), (GAdd 7 1), [] end.
    split; [reflexivity|]. split; [reflexivity|]. eauto. }
  split; [|split; [vm_compute; discriminate|split]].
  - intros i. unfold stored_at. cbn -[Nat.eqb]. destruct (7 =? i); discriminate.
  - intros k'. vm_compute. intuition discriminate.
  - cbn. auto 20.
Qed.
Print Assumptions lost_ticket_in_use_refuted.
Theorem cleared_ticket_in_use_refuted :
  exists tr s id o, gexec false tr s /\ sequential tr /\ lost tr id o
     /\ (forall i, stored_at tr i = None)
     /\ ops_running (events_of o tr) <> [] /\ (forall k, ~ In (ECancel k) (events_of o tr)).
Proof.
  run_script false (([AAdd 7] ++ operation 0 7 0 ++ [AClear])).
  eexists _, s, 7, 0. split; [exact E|]. split; [apply sequential_check; reflexivity|]. split.
  { match type of E with gexec _ ?t _ => exists (removelast t), GClear, [] end.
    split; [reflexivity|]. split; [reflexivity|]. auto. }
  split; [reflexivity|split; [vm_compute; discriminate|]]. intros k'. vm_compute. intuition discriminate.
Qed.
Print Assumptions cleared_ticket_in_use_refuted.

(* With remove_timeout = 0, 204 does not mean anything. *)
Theorem delete_204_without_timeout_refuted :
  exists tr s k id o, gexec true tr s /\ sequential tr /\ In (GDelEnd k id 204) tr
    /\ stored_at tr id = Some o /\ ops_running (events_of o tr) <> [].
Proof.
  run_script true (([AAdd 7] ++ operation 0 7 0 ++ [ADelete 0 7; ADel 0; ADel 0; ACancel 0 0; ADel 0])).
  eexists _, s, 0, 7, 0. split; [exact E|]. split; [apply sequential_check; reflexivity|].
  split; [cbn; auto 20|]. split; [reflexivity|vm_compute; discriminate].
Qed.
Print Assumptions delete_204_without_timeout_refuted.

(* The hypotheses of the theorems: a removal that waits for an operation, then
   the ticket is added again. *)
Example delete_case :
  exists tr1 tr2 s, gexec false (tr1 ++ GDelEnd 0 7 204 :: tr2) s
    /\ In (GRemoved 0 7) tr1 /\ In (EOpStart 0) (events_of 0 tr1) /\ In (GAdd 7 1) tr2
    /\ sequential (tr1 ++ GDelEnd 0 7 204 :: tr2).
Proof.
  run_script false (([AAdd 7] ++ operation 0 7 0 ++ [ADelete 0 7; ADel 0; ADel 0; ACancel 0 0]
    ++ [ACanceled 0 0; AEnd 0 0; AWake 0 0; AFinish 0 0; ADel 0; AAdd 7])).
  match type of E with gexec _ ?t _ => exists (removelast (removelast t)), [GAdd 7 1], s end.
  split; [exact E|]. split; [cbn; auto 30|]. split; [cbn; auto 30|]. split; [cbn; auto|].
  apply sequential_check. reflexivity.
Qed.
