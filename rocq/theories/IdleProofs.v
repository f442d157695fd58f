(* Proofs about the idle time. *)
From Coq Require Import ZArith List Bool Lia.
From Verif Require Import IdleModel IdleSpec.
Import ListNotations.
Open Scope Z_scope.

Definition pending (x : tstate) (e : Z) : Prop :=
  x = TEnded e \/ exists now, x = TRead e now.

Record inv (delay tick : Z) (s : state) : Prop := {
  i_thread : forall t e, pending (threads s t) e -> In e (ended s);
  i_read : forall t e now, threads s t = TRead e now -> e <= 100 * now + 99 /\ 100 * now <= clock s;
  i_ended : forall e, In e (ended s) -> tick <= e <= clock s;
  i_access : forall e, In e (ended s) ->
    e <= 100 * access s + 99 + Z.max 0 delay \/ exists t, pending (threads s t) e;
  i_recent : exists e, In e (ended s) /\ 100 * access s <= e + Z.max 0 delay;
  i_now : 100 * access s <= clock s;
  i_inactive : forall seen, reader s = RInactive seen -> seen <= clock s;
  i_time : forall seen now touched, reader s = RTime seen now touched ->
    seen <= 100 * now + 99 /\ 100 * now <= clock s /\ (touched = false -> access s <= now)
}.

Lemma seconds_spec x : 100 * seconds x <= x <= 100 * seconds x + 99.
Proof. unfold seconds. pose proof (Z.div_mod x 100). pose proof (Z.mod_pos_bound x 100). lia. Qed.

Lemma set_same s t x : set_thread s t x t = x.
Proof. unfold set_thread. rewrite Nat.eqb_refl. auto. Qed.
Lemma set_other s t x u : u <> t -> set_thread s t x u = threads s u.
Proof. intros N. unfold set_thread. destruct (Nat.eqb_spec u t); auto. contradiction. Qed.

Lemma pending_not x e : pending x e -> x <> TIdle /\ x <> TRun.
Proof. intros [->|[now ->]]; split; discriminate. Qed.

Lemma inv_start delay tick : inv delay tick (start tick).
Proof.
  pose proof (seconds_spec tick).
  split; cbn [start clock threads access reader ended].
  - intros t e [P|[now P]]; discriminate.
  - discriminate.
  - intros e [<-|[]]. lia.
  - intros e [<-|[]]. left. lia.
  - exists tick. cbn [In]. split; [auto|lia].
  - lia.
  - discriminate.
  - discriminate.
Qed.

Lemma inv_step delay tick s s' : inv delay tick s -> step delay s s' -> inv delay tick s'.
Proof.
  intros [A B C D R N I T] S. inversion S; subst; clear S.
  - (* tick *) split; cbn [clock threads access reader ended]; auto.
    + intros t e now H1. destruct (B t e now H1). lia.
    + intros e H1. apply C in H1. lia.
    + lia.
    + intros seen H1. apply I in H1. lia.
    + intros seen now touched H1. destruct (T _ _ _ H1) as (T1 & T2 & T3). split; [auto|split; [lia|auto]].
  - (* start *) split; cbn [clock threads access reader ended]; auto.
    + intros u e H1. destruct (Nat.eq_dec u t) as [->|NE]; [rewrite set_same in H1; destruct (pending_not _ _ H1); congruence|].
      rewrite set_other in H1 by auto. eauto.
    + intros u e now H1. destruct (Nat.eq_dec u t) as [->|NE]; [rewrite set_same in H1; discriminate|].
      rewrite set_other in H1 by auto. eauto.
    + intros e H1. apply D in H1 as [H1|[u H1]]; auto. right. exists u.
      rewrite set_other; auto. intros ->. destruct (pending_not _ _ H1). congruence.
  - (* remove *) split; cbn [clock threads access reader ended]; auto.
    + intros u e H1. destruct (Nat.eq_dec u t) as [->|NE].
      * rewrite set_same in H1. destruct H1 as [H1|[now H1]]; [injection H1 as <-; left; auto|discriminate].
      * rewrite set_other in H1 by auto. right. eauto.
    + intros u e now H1. destruct (Nat.eq_dec u t) as [->|NE]; [rewrite set_same in H1; discriminate|].
      rewrite set_other in H1 by auto. eauto.
    + intros e [<-|H1]; [|auto]. destruct R as (r & R1 & _). apply C in R1. lia.
    + intros e [<-|H1]; [right; exists t; rewrite set_same; left; auto|].
      apply D in H1 as [H1|[u H1]]; auto. right. exists u.
      rewrite set_other; auto. intros ->. destruct (pending_not _ _ H1). congruence.
    + destruct R as (r & R1 & R2). exists r. split; [right; auto|auto].
  - (* options *) split; cbn [clock threads access reader ended]; auto.
    + intros u e H1. destruct (Nat.eq_dec u t) as [->|NE].
      * rewrite set_same in H1. destruct H1 as [H1|[now H1]]; [injection H1 as <-; left; auto|discriminate].
      * rewrite set_other in H1 by auto. right. eauto.
    + intros u e now H1. destruct (Nat.eq_dec u t) as [->|NE]; [rewrite set_same in H1; discriminate|].
      rewrite set_other in H1 by auto. eauto.
    + intros e [<-|H1]; [|auto]. destruct R as (r & R1 & _). apply C in R1. lia.
    + intros e [<-|H1]; [right; exists t; rewrite set_same; left; auto|].
      apply D in H1 as [H1|[u H1]]; auto. right. exists u.
      rewrite set_other; auto. intros ->. destruct (pending_not _ _ H1). congruence.
    + destruct R as (r & R1 & R2). exists r. split; [right; auto|auto].
  - (* now *) pose proof (seconds_spec (clock s)) as SC.
    assert (E : In e (ended s)) by (apply (A t); left; auto).
    split; cbn [clock threads access reader ended]; auto.
    + intros u e' H1. destruct (Nat.eq_dec u t) as [->|NE].
      * rewrite set_same in H1. destruct H1 as [H1|[now H1]]; [discriminate|injection H1 as <- <-; auto].
      * rewrite set_other in H1 by auto. eauto.
    + intros u e' now H1. destruct (Nat.eq_dec u t) as [->|NE].
      * rewrite set_same in H1. injection H1 as <- <-. apply C in E. lia.
      * rewrite set_other in H1 by auto. eauto.
    + intros e' H1. apply D in H1 as [H1|[u H1]]; auto. right. exists u.
      destruct (Nat.eq_dec u t) as [->|NE]; [|rewrite set_other; auto].
      rewrite set_same. rewrite H in H1. destruct H1 as [H1|[now H1]]; [injection H1 as <-; right; eauto|discriminate].
  - (* touch *) destruct (B _ _ _ H) as [B1 B2].
    assert (E : In e (ended s)) by (apply (A t); right; eauto).
    pose proof (C _ E) as CE.
    split; cbn [clock threads access reader ended].
    + intros u e' H1. destruct (Nat.eq_dec u t) as [->|NE]; [rewrite set_same in H1; destruct (pending_not _ _ H1); congruence|].
      rewrite set_other in H1 by auto. eauto.
    + intros u e' now' H1. destruct (Nat.eq_dec u t) as [->|NE]; [rewrite set_same in H1; discriminate|].
      rewrite set_other in H1 by auto. eauto.
    + auto.
    + intros e' H1. pose proof (C _ H1). left. lia.
    + exists e. split; auto. lia.
    + auto.
    + intros seen H1. unfold touch_reader in H1. destruct (reader s) eqn:RE; try discriminate. injection H1 as <-. apply I; auto.
    + intros seen now' touched H1. unfold touch_reader in H1. destruct (reader s) eqn:RE; try discriminate.
      injection H1 as <- <- <-. destruct (T _ _ _ eq_refl) as (T1 & T2 & _). repeat split; auto. discriminate.
  - (* active *) split; cbn [clock threads access reader ended]; auto; discriminate.
  - (* inactive *) split; cbn [clock threads access reader ended]; auto; [|discriminate].
    intros seen [= <-]. lia.
  - (* time *) pose proof (seconds_spec (clock s)) as SC. split; cbn [clock threads access reader ended]; auto; [discriminate|].
    intros seen' now touched [= <- <- <-]. apply I in H. repeat split; try lia.
  - (* report *) split; cbn [clock threads access reader ended]; auto; discriminate.
Qed.

Lemma inv_reachable delay tick s : reachable delay tick s -> inv delay tick s.
Proof. induction 1; [apply inv_start|eapply inv_step; eauto]. Qed.

Lemma report_reader delay s s' seen n : reports_idle delay s s' seen n ->
  exists now touched, reader s = RTime seen now touched /\ n = now - access s.
Proof.
  intros (S & E & N).
  assert (L : forall x (l : list (Z * Z * Z)), x :: l <> l).
  { intros x l H. apply (f_equal (@List.length _)) in H. cbn in H. lia. }
  inversion S; subst; clear S; cbn [reports] in E; try (symmetry in E; exfalso; eapply L; exact E).
  - contradiction.
  - injection E as -> <-. eauto.
Qed.
