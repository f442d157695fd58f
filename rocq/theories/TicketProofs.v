From Coq Require Import List Bool Arith Lia.
From Verif Require Import TicketModel.
Import ListNotations.

(* -- small facts -- *)

Lemma upd_same {A} (f : nat -> A) i v : upd f i v i = v.
Proof. unfold upd. now rewrite Nat.eqb_refl. Qed.
Lemma upd_other {A} (f : nat -> A) i j v : j <> i -> upd f i v j = f j.
Proof. unfold upd. intros H. apply Nat.eqb_neq in H. now rewrite H. Qed.

Lemma in_rem c d l : In d (rem c l) <-> In d l /\ d <> c.
Proof.
  unfold rem. rewrite filter_In, negb_true_iff, Nat.eqb_neq. tauto.
Qed.
Lemma in_del c p l : In p (del c l) <-> In p l /\ fst p <> c.
Proof.
  unfold del. rewrite filter_In, negb_true_iff, Nat.eqb_neq. tauto.
Qed.

Lemma lookup_in c x l : lookup c l = Some x -> In (c, x) l.
Proof.
  induction l as [|[d y] l IH]; cbn; [discriminate|].
  destruct (d =? c) eqn:E; [|auto].
  apply Nat.eqb_eq in E. intros H; inversion H; subst; auto.
Qed.

Lemma in_lookup c x l : NoDup (map fst l) -> In (c, x) l -> lookup c l = Some x.
Proof.
  induction l as [|[d y] l IH]; cbn; [tauto|].
  intros N [H|H]; inversion N; subst.
  - inversion H; subst. now rewrite Nat.eqb_refl.
  - destruct (d =? c) eqn:E; [|auto].
    apply Nat.eqb_eq in E; subst. exfalso. apply H2.
    apply (in_map fst) in H; auto.
Qed.

Lemma close_in xs f x : In x xs -> close_ctxs xs f x = false.
Proof.
  intros H. unfold close_ctxs.
  replace (existsb (Nat.eqb x) xs) with true; auto.
  symmetry. apply existsb_exists. exists x. now rewrite Nat.eqb_refl.
Qed.
Lemma close_notin xs f x : ~ In x xs -> close_ctxs xs f x = f x.
Proof.
  intros H. unfold close_ctxs.
  destruct (existsb (Nat.eqb x) xs) eqn:E; auto.
  apply existsb_exists in E as (y & I & Q). apply Nat.eqb_eq in Q; subst; tauto.
Qed.
Lemma close_mono xs f x : close_ctxs xs f x = true -> f x = true.
Proof. unfold close_ctxs. destruct existsb; [discriminate|auto]. Qed.

(* context used by a thread that got it from the ticket *)
Definition holds (p : cpc) : option nat :=
  match p with
  | HasCtx x | RawIO x | Running x | Finished x _ => Some x
  | _ => None
  end.
Definition in_op (p : cpc) : bool :=
  match p with Running _ | Finished _ _ => true | _ => false end.

Record inv (s : st) : Prop := {
  i_nodup : NoDup (ongoing s);
  i_ongoing : forall c, In c (ongoing s) <-> in_op (pc s c) = true;
  i_unused : unused s = true -> canceled s = true /\ ongoing s = [];
  i_wait : forall k, kp s k = KWait -> unused s = true \/ ongoing s <> [];
  i_woken : forall k, kp s k = KWoken -> unused s = true;
  i_kcancel : forall k, kp s k <> KNew -> canceled s = true;
  i_keys : NoDup (map fst (conns s));
  i_vals : NoDup (map snd (conns s));
  i_lt : forall c x, In (c, x) (conns s) -> x < next_ctx s;
  i_holds : forall c x, holds (pc s c) = Some x -> lookup c (conns s) = Some x;
  i_opened : forall c x, pc s c = Opened x ->
      x < next_ctx s /\ ~ In x (map snd (conns s)) /\ is_open s x = true;
  i_opened_inj : forall c d x, pc s c = Opened x -> pc s d = Opened x -> c = d;
  i_running_open : forall c x, pc s c = Running x \/ (exists o, pc s c = Finished x o) ->
      is_open s x = true;
  i_fresh : forall x, next_ctx s <= x -> is_open s x = false;
  i_ret : forall k, kp s k = KRet true ->
      ongoing s = [] /\ forall x, In x (map snd (conns s)) -> is_open s x = false;
  i_nokey : forall c x, pc s c = Opened x -> lookup c (conns s) = None;
  i_att : canceled s = false -> forall x, In x (map snd (conns s)) -> is_open s x = true
}.

Lemma inv_init : inv init.
Proof.
  constructor; cbn; intros; try discriminate; try tauto; auto using NoDup_nil.
  - split; [tauto|discriminate].
  - destruct H as [H|[o H]]; discriminate.
Qed.

Ltac updcase i j :=
  destruct (Nat.eq_dec i j) as [->|?];
  [rewrite ?upd_same in *|rewrite ?upd_other in * by assumption].

Lemma attached_in (l : list (nat*nat)) x : In x (map snd l) <-> exists c, In (c, x) l.
Proof.
  rewrite in_map_iff. split.
  - intros ([c y] & H & I). cbn in H; subst. eauto.
  - intros [c I]. exists (c, x). auto.
Qed.

Lemma NoDup_map_del {B} (g : nat * nat -> B) c l :
  NoDup (map g l) -> NoDup (map g (del c l)).
Proof.
  induction l as [|p l IH]; cbn; auto. intros N; inversion N; subst.
  destruct (negb (fst p =? c)); cbn; auto. constructor; auto.
  rewrite in_map_iff in *. intros (q & Hq & I). apply H1. exists q; split; auto.
  apply in_del in I. tauto.
Qed.
Lemma NoDup_rem c l : NoDup l -> NoDup (rem c l).
Proof. apply NoDup_filter. Qed.

Lemma lookup_del_other c d l : d <> c -> lookup d (del c l) = lookup d l.
Proof.
  intros H. induction l as [|[e y] l IH]; cbn; auto.
  destruct (e =? c) eqn:E; cbn.
  - apply Nat.eqb_eq in E; subst. destruct (c =? d) eqn:E2; auto.
    apply Nat.eqb_eq in E2; subst; tauto.
  - destruct (e =? d); auto.
Qed.

Lemma nil_dec {A} (l : list A) : {l = []} + {l <> []}.
Proof. destruct l; [left|right]; congruence. Qed.

(* pc update that neither enters nor leaves an operation *)
Lemma inv_set_pc s c p :
  inv s -> in_op p = in_op (pc s c) ->
  (forall x, holds p = Some x -> lookup c (conns s) = Some x) ->
  (forall x, p <> Opened x) ->
  (forall x o, p = Finished x o -> exists o', pc s c = Running x \/ pc s c = Finished x o') ->
  (forall x, p = Running x -> pc s c = Running x) ->
  inv (set_pc s c p).
Proof.
  intros I Hop Hh Hno Hfin Hrun. destruct I. constructor; cbn; intros; try solve [eauto].
  - updcase c0 c; auto. rewrite Hop. auto.
  - updcase c0 c; eauto.
  - updcase c0 c; [exfalso; eapply Hno; eauto|eauto].
  - updcase c0 c; [exfalso; eapply Hno; eauto|].
    updcase d c; [exfalso; eapply Hno; eauto|eauto].
  - updcase c0 c; [|eauto]. destruct H as [H|[o H]].
    + apply (i_running_open0 c). left; auto.
    + destruct (Hfin _ _ H) as (o' & [Q|Q]); apply (i_running_open0 c); eauto.
  - updcase c0 c; [exfalso; eapply Hno; eauto|eauto].
Qed.

Lemma inv_set_kp s k p :
  inv s -> (p = KWait -> False) -> (p = KWoken -> unused s = true) ->
  canceled s = true -> (p = KRet true -> False) ->
  inv (set_kp s k p).
Proof.
  intros I Hw Hk Hc Hr. destruct I. constructor; cbn; intros; try solve [eauto].
  - updcase k0 k; [tauto|eauto].
  - updcase k0 k; eauto.
  - updcase k0 k; [tauto|eauto].
Qed.

Lemma running_in_ongoing s c x :
  inv s -> pc s c = Running x \/ (exists o, pc s c = Finished x o) -> In c (ongoing s).
Proof.
  intros I H. apply (i_ongoing s I). destruct H as [H|[o H]]; rewrite H; auto.
Qed.

Lemma holds_attached s c x : inv s -> holds (pc s c) = Some x -> In x (map snd (conns s)).
Proof.
  intros I H. apply attached_in. exists c. apply lookup_in. eapply i_holds; eauto.
Qed.

Lemma attached_inj s c d x :
  inv s -> In (c, x) (conns s) -> In (d, x) (conns s) -> c = d.
Proof.
  intros I. pose proof (i_vals s I) as N. revert N.
  induction (conns s) as [|[e y] l IH]; cbn; [tauto|].
  intros N. inversion N; subst.
  intros [H|H] [H'|H'].
  - congruence.
  - inversion H; subst. exfalso; apply H1. apply (in_map snd) in H'; auto.
  - inversion H'; subst. exfalso; apply H1. apply (in_map snd) in H; auto.
  - auto.
Qed.



Lemma inv_step s evs s' : inv s -> step s evs s' -> inv s'.
Proof.
  intros I St. destruct St.
  - (* authorize *) apply inv_set_pc; auto; try (rewrite H); try easy.
  - apply inv_set_pc; auto; try (rewrite H); cbn; try easy. congruence.
  - (* open *) pose proof I as J. destruct I. constructor; cbn; intros; try solve [eauto].
    + updcase c0 c; auto. rewrite i_ongoing0, H. cbn. tauto.
    + apply i_lt0 in H1. lia.
    + updcase c0 c; [discriminate|auto].
    + updcase c0 c.
      * inversion H1; subst. rewrite upd_same. split; [lia|]. split; auto.
        intros A. apply attached_in in A as (d & A). apply i_lt0 in A. lia.
      * apply i_opened0 in H1 as (A & B & C). split; [lia|]. split; auto.
        rewrite upd_other by lia. auto.
    + updcase c0 c; updcase d c; auto.
      * inversion H1; subst. apply i_opened0 in H2. lia.
      * inversion H2; subst. apply i_opened0 in H1. lia.
      * eauto.
    + updcase c0 c; [destruct H1 as [H1|[o H1]]; discriminate|].
      assert (x <> next_ctx s).
      { assert (In x (map snd (conns s))).
        { apply (holds_attached s c0 x J). destruct H1 as [H1|[o H1]]; now rewrite H1. }
        apply attached_in in H2 as (d & H2). apply i_lt0 in H2. lia. }
      rewrite upd_other by assumption. eauto.
    + rewrite upd_other by lia. apply i_fresh0. lia.
    + apply i_ret0 in H1 as (A & B). split; auto. intros x Hx.
      rewrite upd_other; auto. apply attached_in in Hx as (d & Hx).
      apply i_lt0 in Hx. lia.
    + updcase c0 c; [auto|eauto].
    + rewrite upd_other; auto. apply attached_in in H2 as (d & Hx).
      apply i_lt0 in Hx. lia.
  - apply inv_set_pc; auto; try (rewrite H); easy.
  - (* attach *) destruct (i_opened s I c x H) as (L & NA & Op).
    pose proof I as J. destruct I. constructor; cbn; intros; try solve [eauto].
    + updcase c0 c; auto. rewrite i_ongoing0, H. cbn. tauto.
    + constructor; [|apply NoDup_map_del; auto].
      rewrite in_map_iff. intros ([e y] & E & Q). cbn in E; subst.
      apply in_del in Q as (_ & Q). cbn in Q; congruence.
    + constructor; [|apply NoDup_map_del; auto].
      rewrite in_map_iff. intros ([e y] & E & Q). cbn in E; subst.
      apply in_del in Q as (Q & _). apply NA, attached_in. eauto.
    + destruct H1 as [H1|H1]; [inversion H1; subst; auto|].
      apply in_del in H1 as (H1 & _). eauto.
    + updcase c0 c.
      * inversion H1; subst. rewrite Nat.eqb_refl. auto.
      * destruct (c =? c0) eqn:E; [apply Nat.eqb_eq in E; congruence|].
        rewrite lookup_del_other by auto. auto.
    + updcase c0 c; [discriminate|].
      destruct (i_opened0 _ _ H1) as (A & B & C). split; auto. split; auto.
      cbn. intros [Q|Q].
      * subst. apply n. eapply i_opened_inj0; eauto.
      * apply in_map_iff in Q as ([e y] & E & Q). cbn in E; subst.
        apply in_del in Q as (Q & _). apply B, attached_in; eauto.
    + updcase c0 c; [discriminate|]. updcase d c; [discriminate|]. eauto.
    + updcase c0 c; [destruct H1 as [H1|[o H1]]; discriminate|]. eauto.
    + exfalso. assert (canceled s = true) by (apply (i_kcancel0 k); rewrite H1; discriminate).
      congruence.
    + updcase c0 c; [discriminate|].
      destruct (c =? c0) eqn:E; [apply Nat.eqb_eq in E; congruence|].
      rewrite lookup_del_other by auto. eauto.
    + cbn in H2. destruct H2 as [Q|Q]; [subst; auto|].
      apply in_map_iff in Q as ([e y] & E & Q). cbn in E; subst.
      apply in_del in Q as (Q & _). apply i_att0; auto. apply attached_in; eauto.
  - (* attach rejected *) destruct (i_opened s I c x H) as (L & NA & Op).
    pose proof I as J. destruct I. constructor; cbn; intros; try solve [eauto].
    + updcase c0 c; auto. rewrite i_ongoing0, H. cbn. tauto.
    + updcase c0 c; [discriminate|eauto].
    + updcase c0 c; [discriminate|].
      destruct (i_opened0 _ _ H1) as (A & B & C). split; auto. split; auto.
      rewrite close_notin; auto. cbn. intros [Q|[]]; subst. apply n.
      eapply i_opened_inj0; eauto.
    + updcase c0 c; [discriminate|]. updcase d c; [discriminate|]. eauto.
    + updcase c0 c; [destruct H1 as [H1|[o H1]]; discriminate|].
      rewrite close_notin; eauto. cbn. intros [Q|[]]; subst. apply NA.
      eapply holds_attached; eauto. destruct H1 as [H1|[o H1]]; rewrite H1; reflexivity.
    + destruct (close_ctxs [x] (is_open s) x0) eqn:E; auto.
      apply close_mono in E. rewrite i_fresh0 in E; auto.
    + destruct (i_ret0 _ H1) as (A & B). split; auto. intros y Hy.
      destruct (close_ctxs [x] (is_open s) y) eqn:E; auto.
      apply close_mono in E. rewrite B in E; auto.
    + updcase c0 c; [discriminate|eauto].
    + congruence.
  - apply inv_set_pc; auto; try (rewrite H); easy.
  - apply inv_set_pc; auto; try (rewrite H); try easy. cbn. intros y Hy; inversion Hy; subst.
    apply (i_holds s I). rewrite H; auto.
  - apply inv_set_pc; auto; try (rewrite H); easy.
  - (* add operation *) assert (Hh : lookup c (conns s) = Some x).
    { apply (i_holds s I). rewrite H; auto. }
    pose proof I as J. destruct I.
    assert (~ In c (ongoing s)) by (rewrite i_ongoing0, H; cbn; congruence).
    assert (NK : forall k, kp s k = KNew).
    { intros k. destruct (kp s k) eqn:E; auto;
      assert (canceled s = true) by (apply (i_kcancel0 k); congruence); congruence. }
    constructor; cbn; intros; try solve [eauto].
    + constructor; auto.
    + updcase c0 c; [cbn; tauto|]. rewrite <- i_ongoing0. intuition congruence.
    + destruct (i_unused0 H2); congruence.
    + right; discriminate.
    + updcase c0 c; [inversion H2; subst; auto|auto].
    + updcase c0 c; [discriminate|eauto].
    + updcase c0 c; [discriminate|]. updcase d c; [discriminate|eauto].
    + updcase c0 c.
      * assert (x0 = x) by (destruct H2 as [H2|[o H2]]; inversion H2; auto). subst.
        apply i_att0; auto. apply attached_in. exists c. now apply lookup_in.
      * eauto.
    + rewrite NK in H2; discriminate.
    + updcase c0 c; [discriminate|eauto].
  - apply inv_set_pc; auto; try (rewrite H); easy.
  - auto.
  - (* op done *) apply inv_set_pc; auto; try (rewrite H); try easy.
    + cbn. intros y Hy; inversion Hy; subst. apply (i_holds s I). rewrite H; auto.
    + intros y o' Hy; inversion Hy; subst. exists o'; auto.
  - apply inv_set_pc; auto; try (rewrite H); try easy.
    + cbn. intros y Hy; inversion Hy; subst. apply (i_holds s I). rewrite H; auto.
    + intros y o' Hy; inversion Hy; subst. exists WasCanceled; auto.
  - (* remove op, live *)
    assert (NK : forall k, kp s k = KNew).
    { intros k. destruct (kp s k) eqn:E; auto;
      assert (canceled s = true) by (apply (i_kcancel s I k); congruence); congruence. }
    destruct I. constructor; cbn; intros; try solve [eauto using NoDup_rem].
    + rewrite in_rem. updcase c0 c; [cbn; intuition congruence|].
      rewrite i_ongoing0. tauto.
    + destruct (i_unused0 H1); congruence.
    + rewrite NK in H1; discriminate.
    + updcase c0 c; [discriminate|eauto].
    + updcase c0 c; [discriminate|eauto].
    + updcase c0 c; [discriminate|]. updcase d c; [discriminate|eauto].
    + updcase c0 c; [destruct H1 as [H1|[o' H1]]; discriminate|eauto].
    + rewrite NK in H1; discriminate.
    + updcase c0 c; [discriminate|eauto].
  - (* remove op, canceled *)
    destruct I. constructor; cbn; intros; try solve [eauto using NoDup_rem].
    + rewrite in_rem. updcase c0 c; [cbn; intuition congruence|].
      rewrite i_ongoing0. tauto.
    + destruct (rem c (ongoing s)) eqn:E; auto. split; auto.
      destruct (i_unused0 H1) as (_ & Q). rewrite Q in E. discriminate.
    + destruct (rem c (ongoing s)) eqn:E; auto. right; discriminate.
    + destruct (rem c (ongoing s)) eqn:E; eauto.
    + updcase c0 c; [discriminate|eauto].
    + updcase c0 c; [discriminate|eauto].
    + updcase c0 c; [discriminate|]. updcase d c; [discriminate|eauto].
    + updcase c0 c; [destruct H1 as [H1|[o' H1]]; discriminate|eauto].
    + destruct (i_ret0 _ H1) as (Q & R). rewrite Q. auto.
    + updcase c0 c; [discriminate|eauto].
  - (* disconnect *)
    pose proof I as J. destruct I. constructor; cbn; intros; try solve [eauto using NoDup_map_del].
    + updcase c0 c; auto. rewrite i_ongoing0, H. cbn. tauto.
    + apply in_del in H1 as (H1 & _). eauto.
    + updcase c0 c; [discriminate|]. rewrite lookup_del_other by auto. auto.
    + updcase c0 c; [discriminate|]. destruct (i_opened0 _ _ H1) as (A & B & C).
      split; auto. split.
      * cbn. intros Q.
        apply in_map_iff in Q as ([e y] & E & Q). cbn in E; subst.
        apply in_del in Q as (Q & _). apply B, attached_in; eauto.
      * rewrite close_notin; auto. cbn. intros [Q|[]]; subst.
        apply B, attached_in. exists c. now apply lookup_in.
    + updcase c0 c; [discriminate|]. updcase d c; [discriminate|eauto].
    + updcase c0 c; [destruct H1 as [H1|[o' H1]]; discriminate|].
      rewrite close_notin; eauto. cbn. intros [Q|[]]; subst.
      apply n. eapply (attached_inj s); eauto.
      * apply lookup_in. apply i_holds0.
        destruct H1 as [H1|[o' H1]]; rewrite H1; reflexivity.
      * now apply lookup_in.
    + destruct (close_ctxs [x] (is_open s) x0) eqn:E; auto.
      apply close_mono in E. rewrite i_fresh0 in E; auto.
    + destruct (i_ret0 _ H1) as (A & B). split; auto. intros y Hy.
      destruct (close_ctxs [x] (is_open s) y) eqn:E; auto.
      apply close_mono in E. rewrite B in E; auto.
      cbn in Hy. apply in_map_iff in Hy as ([e z] & E' & Q).
      cbn in E'; subst. apply in_del in Q as (Q & _). apply attached_in; eauto.
    + updcase c0 c; [discriminate|]. rewrite lookup_del_other by auto. eauto.
    + cbn in H2. apply in_map_iff in H2 as ([e z] & E' & Q).
      cbn in E'; subst. apply in_del in Q as (Q & Ne). cbn in Ne.
      rewrite close_notin; [apply i_att0; auto; apply attached_in; eauto|].
      cbn. intros [W|[]]; subst. apply Ne. eapply (attached_inj s); eauto.
      now apply lookup_in.
  - apply inv_set_pc; auto; try (rewrite H); easy.
  - (* cancel idle *)
    pose proof I as J. destruct I. constructor; cbn; unfold attached in *; intros; try solve [eauto]; try congruence.
    + updcase k0 k; [discriminate|eauto].
    + updcase k0 k; [discriminate|eauto].
    + destruct (i_opened0 _ _ H1) as (A & B & C). split; auto. split; auto.
      rewrite close_notin; auto.
    + exfalso. assert (In c (ongoing s)) by (eapply running_in_ongoing; eauto).
      rewrite H0 in H2. destruct H2.
    + destruct (close_ctxs (map snd (conns s)) (is_open s) x) eqn:E; auto.
      apply close_mono in E. rewrite i_fresh0 in E; auto.
    + split; auto. intros x Hx. apply close_in, Hx.
  - (* cancel wait *)
    destruct I. constructor; cbn; unfold attached in *; intros; try solve [eauto]; try discriminate.
    + destruct (i_unused0 H1); auto.
    + updcase k0 k; [discriminate|eauto].
    + updcase k0 k; [discriminate|eauto].
  - (* cancel nowait *)
    destruct I. constructor; cbn; unfold attached in *; intros; try solve [eauto]; try discriminate.
    + destruct (i_unused0 H1); auto.
    + updcase k0 k; [discriminate|eauto].
    + updcase k0 k; [discriminate|eauto].
  - (* wake *)
    apply inv_set_kp; auto; try discriminate. destruct (i_unused s I H0); auto.
  - apply inv_set_kp; auto; try discriminate.
    apply (i_kcancel s I k). congruence.
  - (* cancel finish *)
    pose proof I as J. destruct I.
    assert (U : unused s = true) by eauto.
    destruct (i_unused0 U) as (Cn & On).
    constructor; cbn; unfold attached in *; intros; try solve [eauto]; try congruence.
    + destruct (i_opened0 _ _ H0) as (A & B & C). split; auto. split; auto.
      rewrite close_notin; auto.
    + exfalso. assert (In c (ongoing s)) by (eapply running_in_ongoing; eauto).
      rewrite On in H1. destruct H1.
    + destruct (close_ctxs (map snd (conns s)) (is_open s) x) eqn:E; auto.
      apply close_mono in E. rewrite i_fresh0 in E; auto.
    + split; auto. intros x Hx. apply close_in, Hx.
Qed.

Lemma inv_exec tr s : exec tr s -> inv s.
Proof. induction 1; eauto using inv_init, inv_step. Qed.

(* -- traces -- *)

(* operations running after a trace *)
Fixpoint running_from (l : list nat) (tr : list event) : list nat :=
  match tr with
  | [] => l
  | EOpStart c :: tr' => running_from (c :: l) tr'
  | EOpEnd c :: tr' => running_from (rem c l) tr'
  | _ :: tr' => running_from l tr'
  end.

Lemma running_from_app tr1 : forall l tr2,
  running_from l (tr1 ++ tr2) = running_from (running_from l tr1) tr2.
Proof. induction tr1 as [|e tr1 IH]; cbn; auto. destruct e; intros; auto. Qed.

Lemma running_from_close xs l tr :
  running_from l (map EClose xs ++ tr) = running_from l tr.
Proof. induction xs; cbn; auto. Qed.

Definition before (e e' : event) (tr : list event) : Prop :=
  exists tr1 tr2 tr3, tr = tr1 ++ e :: tr2 ++ e' :: tr3.

Lemma app_split {A} (t u p q : list A) e :
  t ++ u = p ++ e :: q ->
  (exists q', t = p ++ e :: q' /\ q = q' ++ u) \/
  (exists p', p = t ++ p' /\ u = p' ++ e :: q).
Proof.
  revert p. induction t as [|a t IH]; cbn; intros p H.
  - right. exists p. auto.
  - destruct p as [|b p]; cbn in H; inversion H; subst.
    + left. exists t. auto.
    + destruct (IH _ H2) as [(q' & -> & ->)|(p' & -> & ->)].
      * left. exists q'. auto.
      * right. exists p'. auto.
Qed.

Lemma before_app e e' tr evs :
  before e e' (tr ++ evs) ->
  before e e' tr \/ (In e tr /\ In e' evs) \/ before e e' evs.
Proof.
  intros (t1 & t2 & t3 & H). apply app_split in H as [(q & -> & H)|(p & -> & ->)].
  - assert (H' : q ++ evs = t2 ++ e' :: t3) by (symmetry; exact H). clear H.
    apply app_split in H' as [(q' & -> & ->)|(p' & -> & ->)].
    + left. exists t1, t2, q'. auto.
    + right; left. rewrite !in_app_iff. cbn. auto.
  - right; right. exists p, t2, t3. auto.
Qed.

Lemma before_in1 e e' tr : before e e' tr -> In e tr.
Proof. intros (a & b & c & ->). rewrite in_app_iff. cbn. auto. Qed.
Lemma before_in2 e e' tr : before e e' tr -> In e' tr.
Proof. intros (a & b & c & ->). rewrite in_app_iff. cbn. rewrite in_app_iff. cbn. auto. Qed.

Record tinv (tr : list event) (s : st) : Prop := {
  t_running : running_from [] tr = ongoing s;
  t_open : forall c x, In (EOpen c x) tr -> x < next_ctx s;
  t_open2 : forall x, x < next_ctx s -> exists c, In (EOpen c x) tr;
  t_close : forall x, In (EClose x) tr <-> (x < next_ctx s /\ is_open s x = false);
  t_cancel : forall k, In (ECancel k) tr -> canceled s = true;
  t_ret : forall k, In (ECancelRet k true) tr -> kp s k = KRet true;
  t_att : forall c x, In (EAttach c x) tr ->
      x < next_ctx s /\ (In (c, x) (conns s) \/ is_open s x = false)
}.

Lemma tinv_quiet tr s s' evs :
  tinv tr s ->
  running_from (ongoing s) evs = ongoing s' ->
  next_ctx s' = next_ctx s ->
  is_open s' = is_open s ->
  (canceled s = true -> canceled s' = true) ->
  (forall k, In (ECancel k) evs -> canceled s' = true) ->
  (forall k, In (ECancelRet k true) evs -> kp s' k = KRet true) ->
  (forall k, kp s k = KRet true -> kp s' k = KRet true) ->
  conns s' = conns s ->
  (forall x, ~ In (EClose x) evs) ->
  (forall c x, ~ In (EOpen c x) evs) ->
  (forall c x, ~ In (EAttach c x) evs) ->
  tinv (tr ++ evs) s'.
Proof.
  intros T R N O Hc Hc2 Hr Hk C E1 E2 E3. destruct T.
  constructor; intros; rewrite ?in_app_iff in *; rewrite ?N, ?O, ?C in *.
  - rewrite running_from_app, t_running0. auto.
  - destruct H as [H|H]; [eauto|exfalso; eapply E2; eauto].
  - destruct (t_open3 _ H) as (c & Q). exists c. rewrite in_app_iff; auto.
  - rewrite <- t_close0. split; [intros [H|H]; auto; exfalso; eapply E1; eauto|auto].
  - destruct H; eauto.
  - destruct H; eauto.
  - destruct H as [H|H]; [eauto|exfalso; eapply E3; eauto].
Qed.

Lemma tinv_pc tr s c p evs :
  tinv tr s -> running_from (ongoing s) evs = ongoing s ->
  (forall k, ~ In (ECancel k) evs) -> (forall k, ~ In (ECancelRet k true) evs) ->
  (forall x, ~ In (EClose x) evs) ->
  (forall c x, ~ In (EOpen c x) evs) ->
  (forall c x, ~ In (EAttach c x) evs) ->
  tinv (tr ++ evs) (set_pc s c p).
Proof.
  intros. eapply tinv_quiet; eauto; cbn; auto; intros k Q; exfalso;
    [eapply H1|eapply H2]; eauto.
Qed.

Lemma in_map_close x xs : In (EClose x) (map EClose xs) <-> In x xs.
Proof.
  rewrite in_map_iff. split; [intros (y & H & I); inversion H; subst; auto|eauto].
Qed.

Lemma not_in_map_close e xs : (forall x, e <> EClose x) -> ~ In e (map EClose xs).
Proof. intros H. rewrite in_map_iff. intros (y & Q & _). eapply H; eauto. Qed.

Ltac evcases :=
  repeat match goal with
  | H : False |- _ => contradiction
  | H : _ \/ _ |- _ => destruct H; try discriminate
  | H : In (EOpIO _ _) (map EClose _) |- _ => exfalso; eapply not_in_map_close; [|exact H]; discriminate
  | H : In (EOpStart _) (map EClose _) |- _ => exfalso; eapply not_in_map_close; [|exact H]; discriminate
  | H : In (EOpEnd _) (map EClose _) |- _ => exfalso; eapply not_in_map_close; [|exact H]; discriminate
  | H : In (EAttach _ _) (map EClose _) |- _ => exfalso; eapply not_in_map_close; [|exact H]; discriminate
  | H : In (EReport _ _) (map EClose _) |- _ => exfalso; eapply not_in_map_close; [|exact H]; discriminate
  | H : In (ECancel _) (map EClose _) |- _ => exfalso; eapply not_in_map_close; [|exact H]; discriminate
  | H : In (ECancelRet _ _) (map EClose _) |- _ => exfalso; eapply not_in_map_close; [|exact H]; discriminate
  end; try discriminate.
Ltac noev := cbn; intuition congruence.

Lemma lookup_none_notin c x l : lookup c l = None -> ~ In (c, x) l.
Proof.
  induction l as [|[d y] l IH]; cbn; [tauto|].
  destruct (d =? c) eqn:E; [discriminate|]. apply Nat.eqb_neq in E.
  intros H [Q|Q]; [congruence|]. apply IH; auto.
Qed.

Lemma tinv_step tr s evs s' :
  inv s -> tinv tr s -> step s evs s' -> tinv (tr ++ evs) s'.
Proof.
  intros I T St. destruct St;
    try (apply tinv_pc; auto; noev).
  - (* open *) destruct T. constructor; cbn; intros; rewrite ?in_app_iff in *; cbn in *.
    + rewrite running_from_app, t_running0. reflexivity.
    + destruct H1 as [H1|[H1|[]]]; [apply t_open0 in H1; lia|inversion H1; lia].
    + destruct (Nat.eq_dec x (next_ctx s)) as [->|Ne].
      * exists c. rewrite in_app_iff. cbn; auto.
      * destruct (t_open3 x) as (d & Q); [lia|]. exists d. rewrite in_app_iff; auto.
    + destruct (Nat.eq_dec x (next_ctx s)) as [->|Ne].
      * rewrite upd_same. rewrite t_close0. intuition (try lia; try congruence).
      * rewrite upd_other by auto. rewrite t_close0. intuition (try lia; try congruence).
    + destruct H1 as [H1|[H1|[]]]; [eauto|discriminate].
    + destruct H1 as [H1|[H1|[]]]; [eauto|discriminate].
    + destruct H1 as [H1|[H1|[]]]; [|discriminate]. apply t_att0 in H1 as (A & B).
      split; [lia|]. rewrite upd_other by lia. auto.
  - (* attach *)
    destruct (i_opened s I c x H) as (L & NA & Op).
    destruct T. constructor; cbn; intros; rewrite ?in_app_iff in *; cbn in *.
    + rewrite running_from_app, t_running0. reflexivity.
    + destruct H1 as [H1|[H1|[]]]; [eauto|discriminate].
    + destruct (t_open3 _ H1) as (d & Q). exists d. rewrite in_app_iff; auto.
    + rewrite <- t_close0. intuition congruence.
    + destruct H1 as [H1|[H1|[]]]; [eauto|discriminate].
    + destruct H1 as [H1|[H1|[]]]; [eauto|discriminate].
    + destruct H1 as [H1|[H1|[]]]; [|inversion H1; subst; auto].
      apply t_att0 in H1 as (A & [B|B]); split; auto.
      destruct (Nat.eq_dec c0 c) as [->|Ne].
      * exfalso. eapply lookup_none_notin; [|exact B]. eapply (i_nokey s I); eauto.
      * left. right. apply in_del. auto.
  - (* attach rejected *)
    destruct (i_opened s I c x H) as (L & NA & Op).
    destruct T. constructor; cbn; intros; rewrite ?in_app_iff in *; cbn in *.
    + rewrite running_from_app, t_running0. reflexivity.
    + destruct H1 as [H1|[H1|[]]]; [eauto|discriminate].
    + destruct (t_open3 _ H1) as (d & Q). exists d. rewrite in_app_iff; auto.
    + rewrite t_close0. destruct (Nat.eq_dec x0 x) as [->|Ne].
      * rewrite close_in by (cbn; auto). intuition.
      * rewrite close_notin by (cbn; intuition congruence). intuition congruence.
    + auto.
    + destruct H1 as [H1|[H1|[]]]; [eauto|discriminate].
    + destruct H1 as [H1|[H1|[]]]; [|discriminate].
      apply t_att0 in H1 as (A & [B|B]); split; auto.
      right. destruct (close_ctxs [x] (is_open s) x0) eqn:E; auto.
      apply close_mono in E. congruence.
  - (* add op *) eapply tinv_quiet; eauto; cbn; auto; noev.
  - eapply tinv_quiet; eauto; cbn; auto; noev.
  - (* remove op *) eapply tinv_quiet; eauto; cbn; auto; noev.
  - eapply tinv_quiet; eauto; cbn; auto; noev.
  - (* disconnect *)
    assert (L : x < next_ctx s) by (eapply (i_lt s I); apply lookup_in; eauto).
    destruct T. constructor; cbn; intros; rewrite ?in_app_iff in *; cbn in *.
    + rewrite running_from_app, t_running0. reflexivity.
    + destruct H1 as [H1|[H1|[]]]; [eauto|discriminate].
    + destruct (t_open3 _ H1) as (d & Q). exists d. rewrite in_app_iff; auto.
    + rewrite t_close0. destruct (Nat.eq_dec x0 x) as [->|Ne].
      * rewrite close_in by (cbn; auto). intuition.
      * rewrite close_notin by (cbn; intuition congruence). intuition congruence.
    + destruct H1 as [H1|[H1|[]]]; [eauto|discriminate].
    + destruct H1 as [H1|[H1|[]]]; [eauto|discriminate].
    + destruct H1 as [H1|[H1|[]]]; [|discriminate].
      apply t_att0 in H1 as (A & [B|B]); split; auto.
      * destruct (Nat.eq_dec c0 c) as [->|Ne]; [|left; apply in_del; auto].
        right. apply (in_lookup c x0) in B; [|apply (i_keys s I)].
        rewrite B in H0; inversion H0; subst. apply close_in. cbn; auto.
      * right. destruct (close_ctxs [x] (is_open s) x0) eqn:E; auto.
        apply close_mono in E. congruence.
  - (* cancel idle *)
    destruct T. constructor; cbn [canceled ongoing next_ctx is_open kp conns]; intros;
      rewrite ?in_app_iff in *; cbn in *; rewrite ?in_app_iff in *; cbn in *.
    + rewrite running_from_app, t_running0. cbn. now rewrite running_from_close.
    + destruct H1 as [H1|[H1|[H1|[H1|[]]]]]; eauto; try discriminate.
      exfalso; eapply not_in_map_close; [|exact H1]; discriminate.
    + destruct (t_open3 _ H1) as (d & Q). exists d. rewrite in_app_iff; auto.
    + rewrite t_close0, in_map_close. unfold attached in *.
      destruct (in_dec Nat.eq_dec x (map snd (conns s))) as [Ix|Ix].
      * rewrite close_in by auto.
        assert (x < next_ctx s).
        { apply attached_in in Ix as (d & Ix). eapply (i_lt s I); eauto. }
        intuition.
      * rewrite close_notin by auto. intuition congruence.
    + auto.
    + destruct H1 as [H1|[H1|[H1|[H1|[]]]]]; try discriminate.
      * updcase k0 k; auto.
      * exfalso; eapply not_in_map_close; [|exact H1]; discriminate.
      * inversion H1; subst. apply upd_same.
    + destruct H1 as [H1|[H1|[H1|[H1|[]]]]]; try discriminate.
      * apply t_att0 in H1 as (A & [B|B]); split; auto.
        right. destruct (close_ctxs (attached s) (is_open s) x) eqn:E; auto.
        apply close_mono in E. congruence.
      * exfalso; eapply not_in_map_close; [|exact H1]; discriminate.
  - (* cancel wait *) eapply tinv_quiet; eauto; cbn; auto; try noev.
    intros k0 Q. updcase k0 k; congruence.
  - (* cancel nowait *) eapply tinv_quiet; eauto; cbn; auto; try noev.
    intros k0 Q. updcase k0 k; congruence.
  - (* wake *) eapply tinv_quiet; eauto; cbn; auto; try noev.
    intros k0 Q. updcase k0 k; congruence.
  - eapply tinv_quiet; eauto; cbn; auto; try noev.
    intros k0 Q. updcase k0 k; congruence.
  - (* cancel finish *)
    destruct T. constructor; cbn [canceled ongoing next_ctx is_open kp conns]; intros;
      rewrite ?in_app_iff in *; cbn in *; rewrite ?in_app_iff in *; cbn in *.
    + rewrite running_from_app, t_running0. cbn. now rewrite running_from_close.
    + destruct H0 as [H1|[H1|[H1|[]]]]; eauto; try discriminate.
      exfalso; eapply not_in_map_close; [|exact H1]; discriminate.
    + destruct (t_open3 _ H0) as (d & Q). exists d. rewrite in_app_iff; auto.
    + rewrite t_close0, in_map_close. unfold attached in *.
      destruct (in_dec Nat.eq_dec x (map snd (conns s))) as [Ix|Ix].
      * rewrite close_in by auto.
        assert (x < next_ctx s).
        { apply attached_in in Ix as (d & Ix). eapply (i_lt s I); eauto. }
        intuition.
      * rewrite close_notin by auto. intuition congruence.
    + destruct H0 as [H1|[H1|[H1|[]]]]; eauto; try discriminate.
      exfalso; eapply not_in_map_close; [|exact H1]; discriminate.
    + destruct H0 as [H1|[H1|[H1|[]]]]; try discriminate.
      * updcase k0 k; auto.
      * exfalso; eapply not_in_map_close; [|exact H1]; discriminate.
      * inversion H1; subst. apply upd_same.
    + destruct H0 as [H1|[H1|[H1|[]]]]; try discriminate.
      * apply t_att0 in H1 as (A & [B|B]); split; auto.
        right. destruct (close_ctxs (attached s) (is_open s) x) eqn:E; auto.
        apply close_mono in E. congruence.
      * exfalso; eapply not_in_map_close; [|exact H1]; discriminate.
Qed.

Lemma tinv_exec tr s : exec tr s -> tinv tr s.
Proof.
  induction 1; [|eapply tinv_step; eauto using inv_exec].
  constructor; cbn; auto; try tauto; intros; try lia.
Qed.

(* Pairs of events that cannot occur in this order *)
Lemma never_before e e' :
  (forall s evs s', step s evs s' -> ~ before e e' evs) ->
  (forall tr s evs s', exec tr s -> step s evs s' -> In e tr -> ~ In e' evs) ->
  forall tr s, exec tr s -> ~ before e e' tr.
Proof.
  intros H1 H2 tr s E. induction E; intros B.
  - destruct B as (a & b & c & Q). destruct a; discriminate.
  - apply before_app in B as [B|[[B1 B2]|B]]; eauto.
    + eapply H2; eauto.
    + eapply H1; eauto.
Qed.

Lemma in_step_canceled s evs s' :
  step s evs s' -> canceled s = true ->
  (forall c, ~ In (EOpStart c) evs) /\ (forall c x, ~ In (EAttach c x) evs) /\
  (forall c, ~ In (EReport c true) evs).
Proof.
  intros St C. destruct St; cbn; try congruence; repeat split; intros;
  rewrite ?in_app_iff; cbn; try (intuition congruence);
  intros Q; repeat (destruct Q as [Q|Q]; try discriminate; try contradiction);
  try (eapply not_in_map_close; [|exact Q]; discriminate).
Qed.

Lemma no_start_after_cancel k e tr s :
  ((exists c, e = EOpStart c) \/ (exists c x, e = EAttach c x) \/ (exists c, e = EReport c true)) ->
  exec tr s -> ~ before (ECancel k) e tr.
Proof.
  intros He. revert tr s. apply never_before.
  - intros s evs s' St B.
    pose proof (before_in1 _ _ _ B) as B1. pose proof (before_in2 _ _ _ B) as B2.
    destruct He as [(c & ->)|[(c & x & ->)|(c & ->)]];
    destruct St; cbn in B1, B2; rewrite ?in_app_iff in *; cbn in *;
    evcases.
  - intros tr s evs s' E St Ic Ie.
    assert (C : canceled s = true) by (eapply t_cancel; eauto using tinv_exec).
    destruct (in_step_canceled _ _ _ St C) as (A1 & A2 & A3).
    destruct He as [(c & ->)|[(c & x & ->)|(c & ->)]]; [eapply A1|eapply A2|eapply A3]; eauto.
Qed.

Lemma close_step_no_io s evs s' x c :
  step s evs s' -> ~ before (EClose x) (EOpIO c x) evs.
Proof.
  intros St B.
  pose proof (before_in1 _ _ _ B) as B1. pose proof (before_in2 _ _ _ B) as B2.
  destruct St; cbn in B1, B2; rewrite ?in_app_iff in *; cbn in *;
    evcases.
Qed.

Lemma no_io_after_close x c tr s : exec tr s -> ~ before (EClose x) (EOpIO c x) tr.
Proof.
  revert tr s. apply never_before; [intros; eapply close_step_no_io; eauto|].
  intros tr s evs s' E St Ic Io.
  pose proof (tinv_exec _ _ E) as T. pose proof (inv_exec _ _ E) as I.
  apply (t_close _ _ T) in Ic as (L & C).
  destruct St; cbn in Io; rewrite ?in_app_iff in Io; cbn in Io;
    evcases.
  inversion H0; subst. rewrite (i_running_open s I c x) in C; [discriminate|auto].
Qed.

(* nothing of an operation happens after a successful return of cancel *)
Lemma no_op_event_after_ret k e tr s :
  (exists c, e = EOpStart c \/ (exists x, e = EOpIO c x) \/ e = EOpEnd c \/
             (exists x, e = EAttach c x)) ->
  exec tr s -> ~ before (ECancelRet k true) e tr.
Proof.
  intros He. revert tr s. apply never_before.
  - intros s evs s' St B.
    pose proof (before_in1 _ _ _ B) as B1. pose proof (before_in2 _ _ _ B) as B2.
    destruct He as (c & [->|[(x & ->)|[->|(x & ->)]]]);
    destruct St; cbn in B1, B2; rewrite ?in_app_iff in *; cbn in *;
    evcases.
  - intros tr s evs s' E St Ir Ie.
    pose proof (tinv_exec _ _ E) as T. pose proof (inv_exec _ _ E) as I.
    apply (t_ret _ _ T) in Ir.
    assert (C : canceled s = true) by (apply (i_kcancel s I k); congruence).
    destruct (i_ret s I k Ir) as (O & _).
    assert (NR : forall c x, pc s c <> Running x).
    { intros c x Q. assert (In c (ongoing s)) by (apply (i_ongoing s I); rewrite Q; auto).
      rewrite O in H; destruct H. }
    assert (NF : forall c x o, pc s c <> Finished x o).
    { intros c x o Q. assert (In c (ongoing s)) by (apply (i_ongoing s I); rewrite Q; auto).
      rewrite O in H; destruct H. }
    destruct (in_step_canceled _ _ _ St C) as (A1 & A2 & _).
    destruct He as (c & [->|[(x & ->)|[->|(x & ->)]]]); [eapply A1; eauto| | |eapply A2; eauto];
    destruct St; cbn in Ie; rewrite ?in_app_iff in Ie; cbn in Ie;
    evcases; solve [eapply NR; eauto | eapply NF; eauto].
Qed.

(* prefix properties of single events *)
Lemma prefix_prop (Q : list event -> event -> Prop) :
  (forall tr s evs s' a e b, exec tr s -> step s evs s' -> evs = a ++ e :: b -> Q (tr ++ a) e) ->
  forall tr s, exec tr s -> forall a e b, tr = a ++ e :: b -> Q a e.
Proof.
  intros H tr s E. induction E; intros a e b S.
  - destruct a; discriminate.
  - apply app_split in S as [(q & -> & ->)|(p & -> & ->)]; eauto.
Qed.

Lemma split_last (xs : list event) l a e b :
  xs ++ [l] = a ++ e :: b -> ~ In e xs -> a = xs /\ e = l /\ b = [].
Proof.
  intros H N. apply app_split in H as [(q & -> & _)|(p & -> & H)].
  - exfalso. apply N. rewrite in_app_iff. cbn; auto.
  - destruct p; cbn in H; inversion H; subst.
    + now rewrite app_nil_r.
    + destruct p; discriminate.
Qed.

Lemma released_at_return tr s a k b :
  exec tr s -> tr = a ++ ECancelRet k true :: b ->
  running_from [] a = [] /\
  forall c x, In (EAttach c x) a -> In (EClose x) a.
Proof.
  intros E S.
  apply (prefix_prop (fun a e => e = ECancelRet k true ->
     running_from [] a = [] /\ forall c x, In (EAttach c x) a -> In (EClose x) a))
    with (tr := tr) (s := s) (e := ECancelRet k true) (b := b); auto.
  clear. intros tr s evs s' a e b E St Sp ->.
  pose proof (tinv_exec _ _ E) as T. pose proof (inv_exec _ _ E) as I.
  assert (Fin : forall l, (forall x, In x (attached s) -> In (EClose x) l) ->
     forall c x, In (EAttach c x) tr -> In (EClose x) (tr ++ l)).
  { intros l Hl c x Ia. rewrite in_app_iff. apply (t_att _ _ T) in Ia as (L & [A|A]).
    - right. apply Hl. apply attached_in. eauto.
    - left. apply (t_close _ _ T). auto. }
  destruct St; try (destruct a as [|? [|? [|? ?]]]; cbn in Sp; inversion Sp; fail).
  - change (ECancel k0 :: map EClose (attached s) ++ [ECancelRet k0 true]) with
      ((ECancel k0 :: map EClose (attached s)) ++ [ECancelRet k0 true]) in Sp.
    apply split_last in Sp as (-> & _ & _).
    2:{ cbn. intros [Q|Q]; [discriminate|]. eapply not_in_map_close; [|exact Q]; discriminate. }
    split.
    + rewrite running_from_app, (t_running _ _ T). cbn.
      rewrite <- (app_nil_r (map EClose _)), running_from_close. auto.
    + intros c x Ia. rewrite in_app_iff in Ia. destruct Ia as [Ia|Ia].
      * eapply Fin; eauto. intros y Iy. right. now apply in_map_close.
      * exfalso. cbn in Ia. destruct Ia as [Ia|Ia]; [discriminate|].
        eapply not_in_map_close; [|exact Ia]; discriminate.
  - apply split_last in Sp as (-> & _ & _).
    2:{ intros Q. eapply not_in_map_close; [|exact Q]; discriminate. }
    split.
    + rewrite running_from_app, (t_running _ _ T). cbn.
      rewrite <- (app_nil_r (map EClose _)), running_from_close. cbn.
      apply (i_unused s I). eapply (i_woken s I); eauto.
    + intros c x Ia. rewrite in_app_iff in Ia. destruct Ia as [Ia|Ia].
      * eapply Fin; eauto. intros y Iy. now apply in_map_close.
      * exfalso. eapply not_in_map_close; [|exact Ia]; discriminate.
Qed.

Lemma opened_before_io tr s a c x b :
  exec tr s -> tr = a ++ EOpIO c x :: b -> exists d, In (EOpen d x) a.
Proof.
  intros E S.
  apply (prefix_prop (fun a e => e = EOpIO c x -> exists d, In (EOpen d x) a))
    with (tr := tr) (s := s) (e := EOpIO c x) (b := b); auto.
  clear. intros tr s evs s' a e b E St Sp ->.
  pose proof (tinv_exec _ _ E) as T. pose proof (inv_exec _ _ E) as I.
  destruct St; try (destruct a as [|? [|? [|? ?]]]; cbn in Sp; inversion Sp; fail).
  - destruct a as [|? [|? ?]]; cbn in Sp; inversion Sp; subst. rewrite app_nil_r.
    apply (t_open2 _ _ T).
    assert (A : In x (attached s)) by (eapply holds_attached; eauto; rewrite H; auto).
    apply attached_in in A as (d & A). eapply (i_lt s I); eauto.
  - exfalso. assert (In (EOpIO c x) (ECancel k :: map EClose (attached s) ++ [ECancelRet k true])).
    { rewrite Sp, in_app_iff; cbn; auto. }
    cbn in H1. rewrite in_app_iff in H1. cbn in H1.
    destruct H1 as [Q|[Q|[Q|[]]]]; try discriminate.
    eapply not_in_map_close; [|exact Q]; discriminate.
  - exfalso. assert (In (EOpIO c x) (map EClose (attached s) ++ [ECancelRet k true])).
    { rewrite Sp, in_app_iff; cbn; auto. }
    rewrite in_app_iff in H0. cbn in H0.
    destruct H0 as [Q|[Q|[]]]; try discriminate.
    eapply not_in_map_close; [|exact Q]; discriminate.
Qed.

(* waiting removals *)
Inductive exec_from : st -> list event -> st -> Prop :=
| ef_nil s : exec_from s [] s
| ef_cons s evs s' tr s'' : step s evs s' -> exec_from s' tr s'' -> exec_from s (evs ++ tr) s''.

Lemma wait_no_ops_returns tr s k :
  exec tr s -> kp s k = KWait -> running_from [] tr = [] ->
  exists evs s', exec_from s evs s' /\ In (ECancelRet k true) evs.
Proof.
  intros E W R. pose proof (tinv_exec _ _ E) as T. pose proof (inv_exec _ _ E) as I.
  rewrite (t_running _ _ T) in R.
  destruct (i_wait s I k W) as [U|U]; [|congruence].
  eexists _, _. split.
  - eapply ef_cons; [apply (s_wake s k); auto|].
    eapply ef_cons; [apply s_cancel_finish; cbn; apply upd_same|]. apply ef_nil.
  - cbn. rewrite !in_app_iff. cbn. auto.
Qed.

Lemma rem_le c l : length (rem c l) <= length l.
Proof. unfold rem. induction l; cbn; auto. destruct (negb _); cbn; lia. Qed.

Lemma rem_length c l : In c l -> length (rem c l) < length l.
Proof.
  induction l as [|d l IH]; [cbn; tauto|]. intros H.
  pose proof (rem_le c l) as LE. unfold rem in *. cbn [filter length].
  destruct (Nat.eq_dec d c) as [->|Ne].
  - rewrite Nat.eqb_refl. cbn [negb]. lia.
  - destruct H as [H|H]; [congruence|]. apply IH in H.
    destruct (negb _); cbn [length]; lia.
Qed.

Lemma waiting_can_return : forall n tr s k,
  exec tr s -> length (ongoing s) <= n -> kp s k = KWait ->
  exists evs s', exec_from s evs s' /\ In (ECancelRet k true) evs.
Proof.
  induction n as [|n IH]; intros tr s k E L W;
    pose proof (tinv_exec _ _ E) as T; pose proof (inv_exec _ _ E) as I.
  - eapply wait_no_ops_returns; eauto. rewrite (t_running _ _ T).
    destruct (ongoing s); cbn in L; auto; lia.
  - destruct (ongoing s) as [|c l] eqn:O.
    { eapply wait_no_ops_returns; eauto. now rewrite (t_running _ _ T). }
    assert (C : canceled s = true) by (apply (i_kcancel s I k); congruence).
    assert (Io : in_op (pc s c) = true) by (apply (i_ongoing s I); rewrite O; cbn; auto).
    assert (D : forall tr s, exec tr s -> canceled s = true -> kp s k = KWait ->
       length (ongoing s) <= S n -> In c (ongoing s) -> (exists x o, pc s c = Finished x o) ->
       exists evs s', exec_from s evs s' /\ In (ECancelRet k true) evs).
    { clear - IH. intros tr s E C W L Ic (x & o & P).
      pose proof (s_remove_operation_canceled s c x o P C) as St.
      edestruct IH as (evs & s' & X & Y); [eapply exec_step; [exact E|exact St]| | |].
      - cbn. apply rem_length in Ic. lia.
      - exact W.
      - eexists _, _. split; [eapply ef_cons; eauto|]. rewrite in_app_iff; auto. }
    destruct (pc s c) eqn:P; try discriminate.
    + assert (St : step s [] (set_pc s c (Finished x Succeeded))) by (eapply s_op_done; eauto; discriminate).
      destruct (D (tr ++ []) (set_pc s c (Finished x Succeeded))) as (evs & s' & X & Y); cbn; auto.
      * eapply exec_step; eauto.
      * rewrite O. exact L.
      * rewrite O; cbn; auto.
      * exists x, Succeeded. apply upd_same.
      * eexists _, _. split; [eapply ef_cons; eauto|]. cbn; auto.
    + eapply D; eauto; rewrite O; [cbn in *; lia|cbn; auto].
Qed.

(* Once the ticket is canceled every ongoing operation has its flag set. *)
Lemma flags_exec tr s :
  exec tr s -> canceled s = true -> forall c, In c (ongoing s) -> opflag s c = true.
Proof.
  induction 1 as [|tr s evs s' E IH St]; cbn; [discriminate|].
  destruct St; cbn in *; intros C d I; auto; try congruence.
  all: try (apply in_rem in I as [I _]; solve [auto]).
  all: try (rewrite H0 in I; solve [destruct I]).
  all: replace (existsb (Nat.eqb d) (ongoing s)) with true; auto;
    symmetry; apply existsb_exists; exists d; split; auto; apply Nat.eqb_refl.
Qed.
