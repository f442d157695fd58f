(* Theorems about the idle time: C90. *)
From Coq Require Import ZArith List Bool Lia.
From Verif Require Import IdleModel IdleSpec IdleProofs.
Import ListNotations.
Open Scope Z_scope.

(* A ticket that is in use when idle_time looks for operations is reported as
   idle for 0 seconds. *)
Theorem in_use_is_not_idle : forall delay s s' seen at_tick n t,
  reader s = RIdle -> threads s t = TRun -> step delay s s' ->
  reports s' <> reports s -> told s' seen at_tick n -> n = 0 /\ seen = clock s.
Proof.
  intros delay s s' seen at_tick n t R T S N (l & E).
  inversion S; subst; clear S; cbn [reports] in *; try contradiction.
  - injection E as <- <- <- _. auto.
  - congruence.
Qed.

(* Any other idle time is told only when nothing was using the ticket when
   idle_time looked. *)
Theorem idle_was_inactive : forall delay tick s, reachable delay tick s ->
  Forall (fun '(seen, at_tick, n) => seen <= at_tick <= clock s /\
            (n <> 0 -> was_inactive delay tick seen s)) (reports s).
Proof.
  intros delay tick s R.
  enough (Forall (fun '(seen, at_tick, n) => seen <= at_tick <= clock s /\
            (n <> 0 -> was_inactive delay tick seen s)) (reports s) /\
          match reader s with
          | RIdle => True
          | RInactive seen | RTime seen _ _ => seen <= clock s /\ was_inactive delay tick seen s
          end) by tauto.
  assert (K : forall s1 s2 x, step delay s1 s2 -> was_inactive delay tick x s1 -> was_inactive delay tick x s2).
  { intros s1 s2 x S (s0 & A & B & C & D). exists s0. split; [auto|]. split; [|auto]. eapply l_step; eauto. }
  assert (M : forall s1 s2, step delay s1 s2 -> clock s1 <= clock s2).
  { intros s1 s2 S. inversion S; cbn [clock]; lia. }
  induction R as [|s s' R [IH1 IH2] S]; [split; [constructor|exact I]|].
  assert (F : Forall (fun '(seen, at_tick, n) => seen <= at_tick <= clock s' /\
            (n <> 0 -> was_inactive delay tick seen s')) (reports s)).
  { eapply Forall_impl; [|exact IH1]. intros [[a b] n] [A B]. pose proof (M _ _ S).
    split; [lia|]. eauto. }
  assert (Q : match reader s with
          | RIdle => True
          | RInactive seen | RTime seen _ _ => seen <= clock s' /\ was_inactive delay tick seen s'
          end).
  { pose proof (M _ _ S). destruct (reader s); auto; destruct IH2; split; eauto; lia. }
  inversion S; subst; cbn [reports reader] in *; try (split; assumption).
  - split; auto. destruct (reader s); auto.
  - split; auto. constructor; auto. split; [cbn [clock]; lia|]. intros N. congruence.
  - split; auto. split; [cbn [clock]; lia|]. exists s. split; [auto|]. split; [eapply l_step; [apply l_same|auto]|].
    split; auto. intros t E. apply H0. exists t. auto.
  - rewrite H in Q. auto.
  - split; auto. rewrite H in Q, IH2. constructor; auto. cbn [clock] in *. destruct Q, IH2. split; [lia|auto].
Qed.

(* Partial: when the operations that ended have been recorded, and recording
   the end of one takes at most the given ticks (1/100 s), the idle time is
   right up to that delay, the rounding to seconds and the duration of the
   call.  Missing: operations that ended, but were not recorded yet
   (end_race_refuted). *)
Theorem idle_time_right_partial : forall delay tick s s' seen n k,
  0 <= delay -> reachable delay tick s -> settled s ->
  reports_idle delay s s' seen n -> unused_for s k ->
  k - 99 - delay - (clock s - seen) <= 100 * n <= k + 99 + delay.
Proof.
  intros delay tick s s' seen n k DP R ST RP (U1 & U2).
  destruct (inv_reachable _ _ _ R) as [A B C D P N I T].
  destruct (report_reader _ _ _ _ _ RP) as (now & touched & RE & ->).
  destruct (T _ _ _ RE) as (T1 & T2 & _).
  destruct P as (e & P1 & P2). apply U2 in P1.
  destruct (D _ U1) as [D1|(t & D1)]; [lia|].
  exfalso. apply pending_not in D1. destruct (ST t); tauto.
Qed.

(* Partial: the idle time is not negative when no use was recorded between
   reading the time and reading the time of the last use.  Missing:
   negative_refuted. *)
Theorem idle_not_negative_partial : forall delay tick s s' seen now n,
  reachable delay tick s -> reader s = RTime seen now false ->
  reports_idle delay s s' seen n -> 0 <= n.
Proof.
  intros delay tick s s' seen now n R RE RP.
  destruct (inv_reachable _ _ _ R) as [A B C D P N I T].
  destruct (report_reader _ _ _ _ _ RP) as (now' & touched & RE' & ->).
  rewrite RE in RE'. injection RE' as <- <-.
  destruct (T _ _ _ RE) as (_ & _ & T3). specialize (T3 eq_refl). lia.
Qed.

(* Without the condition the bound from above holds only with the time before
   the last use: the idle time is never longer than the time since adding the
   ticket. *)
Theorem idle_since_added : forall delay tick s s' seen n,
  reachable delay tick s -> reports_idle delay s s' seen n ->
  100 * n <= clock s - tick + 99.
Proof.
  intros delay tick s s' seen n R RP.
  assert (AC : tick <= 100 * access s + 99 /\
               forall t e now, threads s t = TRead e now -> tick <= 100 * now + 99).
  { clear RP. induction R as [|s s1 R IH S].
    - cbn [start access threads]. split; [|discriminate]. pose proof (seconds_spec tick). lia.
    - pose proof (inv_reachable _ _ _ R) as IV. destruct IH as [IH1 IH2].
      assert (K : forall u x, (forall e now, x <> TRead e now) ->
                  forall t e now, set_thread s u x t = TRead e now -> tick <= 100 * now + 99).
      { intros u x X t e now H1. destruct (Nat.eq_dec t u) as [->|NE].
        - rewrite set_same in H1. apply X in H1. contradiction.
        - rewrite set_other in H1 by auto. eauto. }
      inversion S; subst; clear S; cbn [access threads]; (split; [solve [eauto]|]); eauto;
        try (apply K; discriminate).
      intros u e' now H1. destruct (Nat.eq_dec u t) as [->|NE].
      + rewrite set_same in H1. injection H1 as <- <-.
        pose proof (seconds_spec (clock s)).
        assert (In e (ended s)) as E by (apply (i_thread _ _ _ IV t); left; auto).
        pose proof (i_ended _ _ _ IV _ E). lia.
      + rewrite set_other in H1 by auto. eauto. }
  destruct (inv_reachable _ _ _ R) as [A B C D P N I T].
  destruct (report_reader _ _ _ _ _ RP) as (now' & touched & RE & ->).
  destruct (T _ _ _ RE) as (_ & T2 & _). lia.
Qed.

Ltac walk H st := let K := fresh "K" in pose proof (r_step _ _ _ _ H st) as K; cbn in K; clear H; rename K into H.

(* An operation ran for 10 minutes and was removed just now; the engine asks,
   before the ticket is touched: the ticket is inactive and unused for 600
   seconds. *)
Theorem end_race_refuted : exists s s' seen,
  reachable 1 0 s /\ unused_for s 0 /\ reports_idle 1 s s' seen 600.
Proof.
  pose proof (r_start 1 0) as H.
  walk H (s_start 1 (start 0) 0%nat eq_refl).
  match type of H with reachable _ _ ?s => walk H (s_tick 1 s 60000 ltac:(lia)) end.
  match type of H with reachable _ _ ?s => walk H (s_remove 1 s 0%nat eq_refl) end.
  match type of H with reachable _ _ ?s =>
    assert (NA : ~ active s) by (intros [[|t] E]; discriminate);
    walk H (s_inactive 1 s eq_refl NA) end.
  match type of H with reachable _ _ ?s => walk H (s_time 1 s 60000 eq_refl) end.
  match type of H with reachable _ _ ?s =>
    exists s; eexists; exists 60000; split; [exact H|]; split;
      [split; cbn; [auto|intros e [<-|[<-|[]]]; lia]|] end.
  split; [eapply s_report; reflexivity|]. split; [reflexivity|discriminate].
Qed.

(* The time is read just before the end of a second, then the end of an
   operation is recorded in the next one: idle for -1 seconds. *)
Theorem negative_refuted : exists s s' seen,
  reachable 1 0 s /\ settled s /\ reports_idle 1 s s' seen (-1).
Proof.
  pose proof (r_start 1 0) as H.
  match type of H with reachable _ _ ?s => walk H (s_tick 1 s 99 ltac:(lia)) end.
  match type of H with reachable _ _ ?s =>
    assert (NA : ~ active s) by (intros [t E]; discriminate);
    walk H (s_inactive 1 s eq_refl NA) end.
  match type of H with reachable _ _ ?s => walk H (s_time 1 s 99 eq_refl) end.
  match type of H with reachable _ _ ?s => walk H (s_start 1 s 0%nat eq_refl) end.
  match type of H with reachable _ _ ?s => walk H (s_tick 1 s 1 ltac:(lia)) end.
  match type of H with reachable _ _ ?s => walk H (s_remove 1 s 0%nat eq_refl) end.
  match type of H with reachable _ _ ?s => walk H (s_now 1 s 0%nat 100 eq_refl) end.
  match type of H with reachable _ _ ?s => walk H (s_touch 1 s 0%nat 100 1 eq_refl ltac:(cbn; lia)) end.
  match type of H with reachable _ _ ?s =>
    exists s; eexists; exists 99; split; [exact H|]; split; [intros [|t]; cbn; auto|] end.
  split; [eapply s_report; reflexivity|]. split; [reflexivity|discriminate].
Qed.

(* touch() does not hold the lock: a thread delayed between reading the time
   and writing it moves the time of the last use back.  With delays up to 10
   seconds, a ticket used now is idle for 9 seconds, although all ends of
   operations have been recorded. *)
Theorem old_touch_refuted : exists s s' seen,
  reachable 1000 0 s /\ settled s /\ unused_for s 0 /\ reports_idle 1000 s s' seen 9.
Proof.
  pose proof (r_start 1000 0) as H.
  match type of H with reachable _ _ ?s => walk H (s_start 1000 s 0%nat eq_refl) end.
  match type of H with reachable _ _ ?s => walk H (s_remove 1000 s 0%nat eq_refl) end.
  match type of H with reachable _ _ ?s => walk H (s_now 1000 s 0%nat 0 eq_refl) end.
  match type of H with reachable _ _ ?s => walk H (s_tick 1000 s 900 ltac:(lia)) end.
  match type of H with reachable _ _ ?s => walk H (s_start 1000 s 1%nat eq_refl) end.
  match type of H with reachable _ _ ?s => walk H (s_remove 1000 s 1%nat eq_refl) end.
  match type of H with reachable _ _ ?s => walk H (s_now 1000 s 1%nat 900 eq_refl) end.
  match type of H with reachable _ _ ?s => walk H (s_touch 1000 s 1%nat 900 9 eq_refl ltac:(cbn; lia)) end.
  match type of H with reachable _ _ ?s => walk H (s_touch 1000 s 0%nat 0 0 eq_refl ltac:(cbn; lia)) end.
  match type of H with reachable _ _ ?s =>
    assert (NA : ~ active s) by (intros [[|[|t]] E]; discriminate);
    walk H (s_inactive 1000 s eq_refl NA) end.
  match type of H with reachable _ _ ?s => walk H (s_time 1000 s 900 eq_refl) end.
  match type of H with reachable _ _ ?s =>
    exists s; eexists; exists 900; split; [exact H|]; split; [intros [|[|t]]; cbn; auto|]; split;
      [split; cbn; [auto|intros e K; repeat destruct K as [<-|K]; try lia; contradiction]|] end.
  split; [eapply s_report; reflexivity|]. split; [reflexivity|discriminate].
Qed.

(* The hypotheses are met: an operation, recorded at once, then 5 seconds. *)
Example idle_ex : exists s s',
  reachable 1 0 s /\ settled s /\ unused_for s 500 /\ reader s = RTime 620 6 false /\
  reports_idle 1 s s' 620 5.
Proof.
  pose proof (r_start 1 0) as H.
  match type of H with reachable _ _ ?s => walk H (s_start 1 s 0%nat eq_refl) end.
  match type of H with reachable _ _ ?s => walk H (s_tick 1 s 120 ltac:(lia)) end.
  match type of H with reachable _ _ ?s => walk H (s_remove 1 s 0%nat eq_refl) end.
  match type of H with reachable _ _ ?s => walk H (s_now 1 s 0%nat 120 eq_refl) end.
  match type of H with reachable _ _ ?s => walk H (s_touch 1 s 0%nat 120 1 eq_refl ltac:(cbn; lia)) end.
  match type of H with reachable _ _ ?s => walk H (s_tick 1 s 500 ltac:(lia)) end.
  match type of H with reachable _ _ ?s =>
    assert (NA : ~ active s) by (intros [[|t] E]; discriminate);
    walk H (s_inactive 1 s eq_refl NA) end.
  match type of H with reachable _ _ ?s => walk H (s_time 1 s 620 eq_refl) end.
  match type of H with reachable _ _ ?s =>
    exists s; eexists; split; [exact H|]; split; [intros [|t]; cbn; auto|]; split;
      [split; cbn; [auto|intros e K; repeat destruct K as [<-|K]; try lia; contradiction]|] end.
  split; [reflexivity|].
  split; [eapply s_report; reflexivity|]. split; [reflexivity|discriminate].
Qed.

(* A ticket in use is told to be idle for 0 seconds. *)
Example in_use_ex : exists s s',
  reachable 1 0 s /\ reader s = RIdle /\ threads s 0%nat = TRun /\ step 1 s s' /\
  reports s' <> reports s /\ told s' 700 700 0.
Proof.
  pose proof (r_start 1 0) as H.
  match type of H with reachable _ _ ?s => walk H (s_start 1 s 0%nat eq_refl) end.
  match type of H with reachable _ _ ?s => walk H (s_tick 1 s 700 ltac:(lia)) end.
  match type of H with reachable _ _ ?s => exists s; eexists; split; [exact H|] end.
  split; [reflexivity|]. split; [reflexivity|].
  split; [apply s_active; [reflexivity|exists 0%nat; reflexivity]|].
  cbn. split; [discriminate|]. eexists. reflexivity.
Qed.

Print Assumptions in_use_is_not_idle.
Print Assumptions idle_was_inactive.
Print Assumptions idle_time_right_partial.
Print Assumptions idle_not_negative_partial.
Print Assumptions idle_since_added.
Print Assumptions end_race_refuted.
Print Assumptions negative_refuted.
Print Assumptions old_touch_refuted.
