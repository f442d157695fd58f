From Coq Require Import ZArith List Bool String Lia.
From Verif Require Import AuthModel.
Import ListNotations.
Open Scope Z_scope.

Definition drops (u : string) (a : action) : Prop :=
  match a with Add v _ _ => v = u | Remove v => v = u | Clear => True | _ => False end.
Definition cancels (u : string) (a : action) : Prop := a = Cancel u.
Definition renews (u : string) (a : action) : Prop :=
  match a with Extend v _ => v = u | Touch v => v = u | _ => False end.
Definition new_deadline (now timeout : Z) (a : action) : Z :=
  match a with
  | Extend _ t => int_time now + t
  | _ => int_time now + timeout
  end.
Definition none (P : action -> Prop) (h : history) : Prop :=
  forall now a, In (now, a) h -> ~ P a.

(* deadline of a ticket with the given timeout added at t0 after history h *)
Inductive deadline (u : string) (t0 timeout : Z) (h : history) : Z -> Prop :=
| dl_add : none (renews u) h -> deadline u t0 timeout h (int_time t0 + timeout)
| dl_renew h1 t a h2 : h = h1 ++ (t, a) :: h2 -> renews u a -> none (renews u) h2 ->
    deadline u t0 timeout h (new_deadline t timeout a).

Inductive current (u : string) (h : history) : list string -> Z -> bool -> Prop :=
| cur h1 t0 ops timeout h2 d c :
    h = h1 ++ (t0, Add u ops timeout) :: h2 ->
    none (drops u) h2 ->
    deadline u t0 timeout h2 d ->
    (c = true <-> exists t, In (t, Cancel u) h2) ->
    current u h ops d c.

Lemma run_app h h' : run (h ++ h') = fold_left (fun s na => act s (fst na) (snd na)) h' (run h).
Proof. unfold run. apply fold_left_app. Qed.

Lemma set_same s u t : set s u t u = t.
Proof. unfold set. now rewrite String.eqb_refl. Qed.
Lemma set_other s u v t : v <> u -> set s u t v = s v.
Proof. unfold set. intros H. apply String.eqb_neq in H. now rewrite H. Qed.

Lemma none_app P h h' : none P (h ++ h') <-> none P h /\ none P h'.
Proof.
  unfold none; split.
  - intros H; split; intros n a I; apply (H n a), in_or_app; auto.
  - intros [A B] n a I. apply in_app_or in I. destruct I; eauto.
Qed.

Definition is_ticket u h (ot : option ticket) : Prop :=
  match ot with
  | Some t => exists h1 t0 h2,
      h = h1 ++ (t0, Add u (t_ops t) (t_timeout t)) :: h2 /\
      none (drops u) h2 /\
      deadline u t0 (t_timeout t) h2 (t_expires t) /\
      (t_canceled t = true <-> exists n, In (n, Cancel u) h2)
  | None => forall h1 t0 ops timeout h2,
      h = h1 ++ (t0, Add u ops timeout) :: h2 -> ~ none (drops u) h2
  end.

Lemma snoc_split {A} (h h1 h2 : list A) x y :
  h ++ [x] = h1 ++ y :: h2 ->
  (h2 = [] /\ h = h1 /\ x = y) \/ (exists h2', h2 = h2' ++ [x] /\ h = h1 ++ y :: h2').
Proof.
  destruct h2 as [|z h2] using rev_ind.
  - intros H. apply app_inj_tail in H as [-> ->]. auto.
  - intros H. right. change (y :: h2 ++ [z]) with ((y :: h2) ++ [z]) in H.
    rewrite app_assoc in H. apply app_inj_tail in H as [-> ->]. eauto.
Qed.

Lemma none_snoc P h n a : none P (h ++ [(n, a)]) <-> none P h /\ ~ P a.
Proof.
  rewrite none_app. split; intros [A B]; split; auto.
  - apply (B n a). cbn; auto.
  - intros m b [Q|[]]. inversion Q; subst; auto.
Qed.

Lemma deadline_keep u t0 timeout h d n a :
  ~ renews u a -> deadline u t0 timeout h d -> deadline u t0 timeout (h ++ [(n, a)]) d.
Proof.
  intros N D. destruct D.
  - apply dl_add, none_snoc; auto.
  - subst. eapply dl_renew with (h1 := h1) (h2 := h2 ++ [(n, a)]); auto.
    + now rewrite <- app_assoc.
    + apply none_snoc; auto.
Qed.

Lemma deadline_renew u t0 timeout h n a :
  renews u a -> deadline u t0 timeout (h ++ [(n, a)]) (new_deadline n timeout a).
Proof.
  intros R. eapply dl_renew; eauto. intros m b [].
Qed.

Lemma is_ticket_step u h n a ot :
  is_ticket u h ot ->
  (forall s, s u = ot -> is_ticket u (h ++ [(n, a)]) (act s n a u)).
Proof.
  intros H s Hs.
  (* dropped *)
  assert (Keep : act s n a u = s u -> ~ drops u a -> ~ renews u a -> a <> Cancel u ->
                 is_ticket u (h ++ [(n, a)]) (act s n a u)).
  { intros E D R C. rewrite E, Hs. destruct ot as [t|]; cbn in *.
    - destruct H as (h1 & t0 & h2 & -> & ND & DL & CA).
      exists h1, t0, (h2 ++ [(n, a)]). rewrite <- app_assoc. split; [reflexivity|].
      split; [apply none_snoc; auto|]. split; [apply deadline_keep; auto|].
      rewrite CA. split; intros (m & I).
      + exists m. apply in_or_app; auto.
      + apply in_app_or in I. destruct I as [I|[I|[]]]; [eauto|]. inversion I; subst; tauto.
    - intros h1 t0 ops timeout h2 Q. apply snoc_split in Q as [(-> & -> & Q)|(h2' & -> & ->)].
      + inversion Q; subst. cbn in D. tauto.
      + rewrite none_snoc. intros [Q _]. eapply H; eauto. }
  destruct a; cbn [act] in *.
  - destruct (string_dec u u0) as [->|Ne].
    + rewrite set_same. cbn. exists h, n, []. split; [reflexivity|].
      split; [intros ? ? []|]. split; [apply dl_add; intros ? ? []|].
      split; [discriminate|intros (? & [])].
    + apply Keep; cbn; try congruence; try tauto. rewrite set_other; auto.
  - destruct (string_dec u u0) as [->|Ne].
    + rewrite Hs. destruct ot as [t|].
      * rewrite set_same. cbn in *. destruct H as (h1 & t0 & h2 & -> & ND & DL & CA).
        exists h1, t0, (h2 ++ [(n, Extend u0 timeout)]). rewrite <- app_assoc.
        split; [reflexivity|]. split; [apply none_snoc; cbn; auto|].
        split; [exact (deadline_renew u0 t0 (t_timeout t) h2 n (Extend u0 timeout) eq_refl)|].
        rewrite CA. split; intros (m & I).
        -- exists m. apply in_or_app; auto.
        -- apply in_app_or in I. destruct I as [I|[I|[]]]; [eauto|discriminate].
      * cbn in *. rewrite Hs. cbn. intros h1 t0 ops timeout' h2 Q.
        apply snoc_split in Q as [(-> & -> & Q)|(h2' & -> & ->)]; [discriminate|].
        rewrite none_snoc. intros [Q _]. eapply H; eauto.
    + apply Keep; cbn; try congruence; try tauto.
      destruct (s u0); auto. rewrite set_other; auto.
  - destruct (string_dec u u0) as [->|Ne].
    + rewrite Hs. destruct ot as [t|].
      * rewrite set_same. cbn in *. destruct H as (h1 & t0 & h2 & -> & ND & DL & CA).
        exists h1, t0, (h2 ++ [(n, Touch u0)]). rewrite <- app_assoc.
        split; [reflexivity|]. split; [apply none_snoc; cbn; auto|].
        split; [exact (deadline_renew u0 t0 (t_timeout t) h2 n (Touch u0) eq_refl)|].
        rewrite CA. split; intros (m & I).
        -- exists m. apply in_or_app; auto.
        -- apply in_app_or in I. destruct I as [I|[I|[]]]; [eauto|discriminate].
      * cbn in *. rewrite Hs. cbn. intros h1 t0 ops timeout' h2 Q.
        apply snoc_split in Q as [(-> & -> & Q)|(h2' & -> & ->)]; [discriminate|].
        rewrite none_snoc. intros [Q _]. eapply H; eauto.
    + apply Keep; cbn; try congruence; try tauto.
      destruct (s u0); auto. rewrite set_other; auto.
  - destruct (string_dec u u0) as [->|Ne].
    + rewrite Hs. destruct ot as [t|].
      * rewrite set_same. cbn in *. destruct H as (h1 & t0 & h2 & -> & ND & DL & CA).
        exists h1, t0, (h2 ++ [(n, Cancel u0)]). rewrite <- app_assoc.
        split; [reflexivity|]. split; [apply none_snoc; cbn; auto|].
        split; [apply deadline_keep; auto|].
        split; [intros _; exists n; apply in_or_app; cbn; auto|auto].
      * cbn in *. rewrite Hs. cbn. intros h1 t0 ops timeout' h2 Q.
        apply snoc_split in Q as [(-> & -> & Q)|(h2' & -> & ->)]; [discriminate|].
        rewrite none_snoc. intros [Q _]. eapply H; eauto.
    + apply Keep; cbn; try congruence; try tauto.
      destruct (s u0); auto. rewrite set_other; auto.
  - destruct (string_dec u u0) as [->|Ne].
    + rewrite set_same. cbn. intros h1 t0 ops timeout' h2 Q.
      apply snoc_split in Q as [(-> & -> & Q)|(h2' & -> & ->)]; [discriminate|].
      rewrite none_snoc. cbn. tauto.
    + apply Keep; cbn; try congruence; try tauto. rewrite set_other; auto.
  - cbn. intros h1 t0 ops timeout' h2 Q.
    apply snoc_split in Q as [(-> & -> & Q)|(h2' & -> & ->)]; [discriminate|].
    rewrite none_snoc. cbn. tauto.
Qed.

Lemma is_ticket_run u h : is_ticket u h (run h u).
Proof.
  induction h as [|[n a] h IH] using rev_ind.
  - cbn. intros h1 t0 ops timeout h2 Q. destruct h1; discriminate.
  - rewrite run_app. cbn. eapply is_ticket_step; eauto.
Qed.

(* the last Add without later drop is unique *)
Lemma split_unique u h1 t0 o0 m0 h2 h1' t0' o0' m0' h2' :
  h1 ++ (t0, Add u o0 m0) :: h2 = h1' ++ (t0', Add u o0' m0') :: h2' ->
  none (drops u) h2 -> none (drops u) h2' ->
  h1 = h1' /\ t0 = t0' /\ o0 = o0' /\ m0 = m0' /\ h2 = h2'.
Proof.
  revert h1'. induction h1 as [|x h1 IH]; intros [|y h1'] E N N'; cbn in E; inversion E; subst.
  - auto.
  - exfalso. apply (N t0' (Add u o0' m0')); [apply in_or_app; cbn; auto|reflexivity].
  - exfalso. apply (N' t0 (Add u o0 m0)); [apply in_or_app; cbn; auto|reflexivity].
  - destruct (IH h1') as (-> & -> & -> & -> & ->); auto.
Qed.

Lemma deadline_unique u t0 m h d d' :
  deadline u t0 m h d -> deadline u t0 m h d' -> d = d'.
Proof.
  intros [N|h1 t a h2 E R N] [N'|h1' t' a' h2' E' R' N']; auto.
  - exfalso. subst. apply (N t' a'); [apply in_or_app; cbn; auto|auto].
  - exfalso. subst. apply (N' t a); [apply in_or_app; cbn; auto|auto].
  - subst. revert h1' E'. induction h1 as [|x h1 IH]; intros [|y h1'] E'; cbn in E'; inversion E'; subst.
    + auto.
    + exfalso. apply (N t' a'); [apply in_or_app; cbn; auto|auto].
    + exfalso. apply (N' t a); [apply in_or_app; cbn; auto|auto].
    + eauto.
Qed.

Lemma may_spec ops op :
  may ops op = true <-> In op ops \/ (op = "read"%string /\ In "write"%string ops).
Proof.
  assert (X : forall o, existsb (String.eqb o) ops = true <-> In o ops).
  { intros o. rewrite existsb_exists. split.
    - intros (y & I & E). apply String.eqb_eq in E; subst; auto.
    - intros I. exists o. now rewrite String.eqb_refl. }
  unfold may. destruct (String.eqb op "read") eqn:E.
  - apply String.eqb_eq in E; subst. rewrite orb_true_iff, !X. tauto.
  - apply String.eqb_neq in E. rewrite X. tauto.
Qed.

Lemma authorize_iff h now u op :
  authorize (run h) now u op = Granted <->
  exists h1 t0 ops timeout h2 d,
    h = h1 ++ (t0, Add u ops timeout) :: h2 /\
    none (drops u) h2 /\ none (cancels u) h2 /\
    deadline u t0 timeout h2 d /\ now < d * ticks /\
    (In op ops \/ (op = "read"%string /\ In "write"%string ops)).
Proof.
  pose proof (is_ticket_run u h) as T. unfold authorize.
  destruct (run h u) as [t|] eqn:R; cbn in T.
  - destruct T as (h1 & t0 & h2 & E & ND & DL & CA).
    split.
    + destruct (t_canceled t) eqn:C; [discriminate|].
      destruct (t_expires t * ticks <=? now) eqn:X; [discriminate|].
      destruct (may (t_ops t) op) eqn:M; [|discriminate]. intros _.
      exists h1, t0, (t_ops t), (t_timeout t), h2, (t_expires t).
      split; auto. split; auto. split.
      { intros n a I ->. assert (false = true) by (apply CA; eauto). discriminate. }
      split; auto. split; [lia|]. now apply may_spec.
    + intros (h1' & t0' & ops & timeout & h2' & d & E' & ND' & NC' & DL' & L & M).
      rewrite E in E'. apply split_unique in E' as (<- & <- & <- & <- & <-); auto.
      rewrite (deadline_unique _ _ _ _ _ _ DL' DL) in L.
      destruct (t_canceled t) eqn:C.
      { exfalso. destruct (proj1 CA eq_refl) as (n & I). eapply NC'; eauto. reflexivity. }
      destruct (t_expires t * ticks <=? now) eqn:X; [lia|].
      replace (may (t_ops t) op) with true; auto. symmetry. now apply may_spec.
  - split; [discriminate|].
    intros (h1' & t0' & ops & timeout & h2' & d & E' & ND' & _). exfalso. eapply T; eauto.
Qed.
