(* C63-C66: the commands of ovirt-img. *)
From Coq Require Import ZArith List Bool Lia String.
From Verif Require Import BytesLib UrlModel OvirtModel OvirtSpec OvirtProofs OvirtTime.
Import ListNotations.
Open Scope Z_scope.
Local Opaque sub lit.

(* ---- counting in a session ---- *)

Lemma early_count t : Forall early t ->
  count is_cancel t = 0 /\ count is_finalize t = 0 /\ count is_add t = 0 /\ count is_transfer t = 0.
Proof.
  intros H. repeat split; apply count_0; (eapply Forall_impl; [|exact H]); intros [[] a|s] E;
    cbn in *; auto; destruct E.
Qed.
Lemma poll_count t : Forall poll_event t ->
  count is_cancel t = 0 /\ count is_finalize t = 0 /\ count is_add t = 0 /\ count is_transfer t = 0 /\
  count is_add_disk t = 0.
Proof.
  intros H. repeat split; apply count_0; (eapply Forall_impl; [|exact H]); intros [[] a|s] E;
    cbn in *; auto; destruct E.
Qed.
Lemma initializing_count t : Forall is_initializing t ->
  count is_cancel t = 0 /\ count is_finalize t = 0 /\ count is_add t = 0 /\ count is_transfer t = 0 /\
  count is_add_disk t = 0.
Proof.
  intros H. apply poll_count. eapply Forall_impl; [|exact H]. intros e ->. exact I.
Qed.

(* how many requests create_transfer makes *)
Lemma add_count fuel d u r : add_post fuel d u r ->
  count is_finalize u = 0 /\ count is_add u = 1 /\ count is_transfer u = 0 /\ count is_add_disk u = 0 /\
  count is_cancel u <= 1 /\ (r = inl tt -> count is_cancel u = 0).
Proof.
  intros [(x & -> & ->)|(v & r' & f & -> & (pre & e & -> & PI & CE & CL) & R)].
  { repeat split; try reflexivity; try discriminate. }
  destruct (initializing_count _ PI) as (C1 & C2 & C3 & C4 & C5).
  assert (F : count is_cancel f = 0 /\ count is_finalize f = 0 /\ count is_add f = 0 /\ count is_transfer f = 0 /\ count is_add_disk f = 0).
  { destruct r'; [destruct R as [[-> _]|(x & -> & _)]|destruct R as [-> _]]; repeat split; reflexivity. }
  destruct F as (F1 & F2 & F3 & F4 & F5).
  rewrite !count_cons, !count_app, F1, F2, F3, F4, F5, C1, C2, C3, C4, C5.
  cbn [is_cancel is_finalize is_add is_transfer is_add_disk].
  inversion CE; subst; rewrite ?count_cons, ?count_nil; cbn [is_cancel is_finalize is_add is_transfer is_add_disk];
    repeat split; try lia.
  destruct R as [_ ->]. discriminate.
Qed.

Lemma add_ok fuel d u : add_post fuel d u (inl tt) ->
  in_order [Ev (CAdd d) AUnit; Ev CGet (APhase Transferring)] u /\ Forall (fun e => early e -> False) u.
Proof.
  intros [(x & _ & ?)|(v & r' & f & -> & (pre & e & -> & PI & CE & CL) & R)]; [discriminate|].
  destruct r' as [[]|x]; [|destruct R as [_ R]; discriminate].
  destruct R as [[-> _]|(x & _ & R)]; [|discriminate].
  inversion CE; subst. split.
  - apply in_order_take. rewrite <- app_assoc. apply in_order_r. apply in_order_take. constructor.
  - constructor; [cbn; auto|]. rewrite !Forall_app. repeat split; repeat (constructor; cbn; auto).
    eapply Forall_impl; [|exact PI]. intros e ->. cbn. auto.
Qed.

Lemma end_count v r : end_post v r ->
  count is_finalize v = 1 /\ count is_cancel v = 0 /\ count is_add v = 0 /\ count is_transfer v = 0 /\
  count is_add_disk v = 0.
Proof.
  intros (a & u & -> & P & _). destruct (poll_count _ P) as (C1 & C2 & C3 & C4 & C5).
  rewrite !count_cons, C1, C2, C3, C4, C5. repeat split.
Qed.

Ltac counts :=
  repeat match goal with
  | H : Forall early _ |- _ => apply early_count in H; destruct H as (? & ? & ? & ?)
  | H : add_post _ _ _ _ |- _ => apply add_count in H; destruct H as (? & ? & ? & ? & ? & ?)
  | H : end_post _ _ |- _ => apply end_count in H; destruct H as (? & ? & ? & ? & ?)
  end;
  rewrite ?count_app, ?count_cons, ?count_app, ?count_nil in *;
  cbn [is_cancel is_finalize is_add is_transfer is_add_disk] in *.

Lemma no_disk_count pre : Forall (fun e => early e /\ no_disk e) pre ->
  Forall early pre /\ count is_add_disk pre = 0.
Proof. intros H. split; [|apply count_early_disk; auto]. eapply Forall_impl; [|exact H]. intros e [E _]. exact E. Qed.

(* ---- success ---- *)

Lemma session_success fuel K dir s : session fuel K dir s (inl tt) ->
  exists pre z l, K pre z /\ confirmation l /\
    (forall l0, in_order l0 pre ->
       in_order (l0 ++ [Ev (CAdd dir) AUnit; Ev CGet (APhase Transferring); Ev (CTransfer dir z) AUnit; Ev CFinalize AUnit] ++ l) s) /\
    count is_cancel s = 0 /\ count is_finalize s = 1 /\ count is_transfer s = 1 /\ count is_add s = 1 /\
    count is_add_disk s = count is_add_disk pre.
Proof.
  intros S. inversion S; subst.
  match goal with H : end_post _ _ |- _ => pose proof H as (fa & fu & FV & FP & FS) end.
  destruct (FS eq_refl) as (-> & l & CL & IO).
  exists pre, z, l. split; auto. split; auto. split.
  - intros l0 I0. apply in_order_app; auto.
    match goal with H : add_post _ _ _ (inl tt) |- _ => destruct (add_ok _ _ _ H) as [AO _] end.
    change [Ev (CAdd dir) AUnit; Ev CGet (APhase Transferring); Ev (CTransfer dir z) AUnit; Ev CFinalize AUnit]
      with ([Ev (CAdd dir) AUnit; Ev CGet (APhase Transferring)] ++ [Ev (CTransfer dir z) AUnit; Ev CFinalize AUnit]).
    rewrite <- app_assoc. apply in_order_app; auto. cbn [app]. apply in_order_skip, in_order_take, in_order_skip.
    subst. apply in_order_take. auto.
  - match goal with H : add_post _ _ _ (inl tt) |- _ => apply add_count in H; destruct H as (? & ? & ? & ? & _ & AC); specialize (AC eq_refl) end.
    counts. lia.
Qed.

(* C63: a successful upload.  Engine has made the disk and the transfer, the
   data was sent, and engine has confirmed the end, in this order; the transfer
   was never cancelled. *)
Theorem upload_success :
  forall o fuel a w w' t, upload_disk o fuel a w = (w', t, inl tt) ->
  exists d l, confirmation l /\
    in_order ([Ev (CAddDisk d) AUnit; Ev CDiskGet (AStatus DiskOk); Ev (CAdd Upload) AUnit;
               Ev CGet (APhase Transferring); Ev (CTransfer Upload (d_is_zero d)) AUnit;
               Ev CFinalize AUnit] ++ l) t /\
    count is_add_disk t = 1 /\ count is_add t = 1 /\ count is_transfer t = 1 /\
    count is_finalize t = 1 /\ count is_cancel t = 0 /\
    last_shown t (lit "upload completed").
Proof.
  intros o fuel a w w' t E. apply (wp_use _ _ _ _ _ _ (upload_post o fuel a)) in E.
  destruct E as [(pre & x & _ & _ & E)|(pre & s & r1 & b & e & -> & EP & S & [(_ & -> & ->)|(x & E & _)])]; try discriminate.
  apply session_success in S as (p & z & l & (d & OP & UP) & CL & IO & C1 & C2 & C3 & C4 & C5).
  destruct UP as (-> & I0 & C6). exists d, l. split; auto.
  destruct (no_disk_count _ EP) as [EE N]. split.
  - apply in_order_r. apply in_order_l.
    change [Ev (CAddDisk d) AUnit; Ev CDiskGet (AStatus DiskOk); Ev (CAdd Upload) AUnit;
            Ev CGet (APhase Transferring); Ev (CTransfer Upload (d_is_zero d)) AUnit; Ev CFinalize AUnit]
      with ([Ev (CAddDisk d) AUnit; Ev CDiskGet (AStatus DiskOk)] ++ [Ev (CAdd Upload) AUnit;
            Ev CGet (APhase Transferring); Ev (CTransfer Upload (d_is_zero d)) AUnit; Ev CFinalize AUnit]).
    rewrite <- app_assoc. auto.
  - counts. repeat split; try lia.
    exists (pre ++ s ++ [Ev CClose b]). rewrite <- !app_assoc. reflexivity.
Qed.
Print Assumptions upload_success.

(* C63: a successful download. *)
Theorem download_success :
  forall o fuel w w' t, download_disk o fuel w = (w', t, inl tt) ->
  exists l, confirmation l /\
    in_order ([Ev (CAdd Download) AUnit; Ev CGet (APhase Transferring);
               Ev (CTransfer Download false) AUnit; Ev CFinalize AUnit] ++ l) t /\
    count is_add_disk t = 0 /\ count is_add t = 1 /\ count is_transfer t = 1 /\
    count is_finalize t = 1 /\ count is_cancel t = 0 /\
    last_shown t (lit "download completed").
Proof.
  intros o fuel w w' t E. apply (wp_use _ _ _ _ _ _ (download_post o fuel)) in E.
  destruct E as [(pre & x & _ & _ & E)|(pre & s & r1 & b & e & -> & EP & S & [(_ & -> & ->)|(x & E & _)])]; try discriminate.
  apply session_success in S as (p & z & l & (-> & C6) & CL & IO & C1 & C2 & C3 & C4 & C5).
  exists l. split; auto. destruct (no_disk_count _ EP) as [EE N]. split.
  - apply in_order_r. apply in_order_l. apply (IO []). constructor.
  - counts. repeat split; try lia.
    exists (pre ++ s ++ [Ev CClose b]). rewrite <- !app_assoc. reflexivity.
Qed.
Print Assumptions download_success.

Lemma shown_inj s s' (H : lit s = lit s') t : last_shown t (lit s) -> last_shown t (lit s').
Proof. rewrite H. auto. Qed.
Lemma last_shown_unique t s s' : last_shown t s -> last_shown t s' -> s = s'.
Proof. intros (u & ->) (v & E). apply app_inj_tail in E as [_ [= E]]. exact E. Qed.

Lemma command_failed fuel K dir done t x : command_post fuel K dir done t (inr x) -> last_shown t (lit "command failed").
Proof.
  intros [(pre & y & -> & _)|(pre & s & r1 & b & e & -> & EP & S & [(E & _)|(y & _ & ->)])]; [|discriminate|].
  - eexists; reflexivity.
  - exists (pre ++ s ++ [Ev CClose b]). rewrite <- !app_assoc. reflexivity.
Qed.

(* C63: the exit status and what is shown at last tell whether the command
   succeeded.  Signal numbers are positive. *)
Theorem command_result :
  forall o fuel cmd done w w' t r,
  (exists a, cmd = upload_disk o fuel a /\ done = "upload completed"%string) \/
  (cmd = download_disk o fuel /\ done = "download completed"%string) ->
  cmd w = (w', t, r) ->
  (forall signo, r = inr (XTerminated signo) -> 0 < signo) ->
  (exit_status r = Some 0 <-> r = inl tt) /\
  (r = inl tt <-> last_shown t (lit done)) /\
  (r <> inl tt <-> last_shown t (lit "command failed")).
Proof.
  intros o fuel cmd done w w' t r C E SG. split; [|].
  { split; [|intros ->; reflexivity]. destruct r as [[]|x]; auto.
    destruct x; cbn [exit_status is_exception]; try discriminate. intros X.
    assert (128 + signo = 0) by congruence. specialize (SG _ eq_refl). lia. }
  assert (D : lit done <> lit "command failed").
  { destruct C as [(a & _ & ->)|[_ ->]]; vm_compute; discriminate. }
  assert (X : (r = inl tt -> last_shown t (lit done)) /\ (forall x, r = inr x -> last_shown t (lit "command failed"))).
  { destruct C as [(a & -> & ->)|[-> ->]]; split.
    - intros ->. apply upload_success in E. destruct E as (d & l & _ & _ & _ & _ & _ & _ & _ & E). exact E.
    - intros x ->. apply (wp_use _ _ _ _ _ _ (upload_post o fuel a)) in E. eapply command_failed; eauto.
    - intros ->. apply download_success in E. destruct E as (l & _ & _ & _ & _ & _ & _ & _ & E). exact E.
    - intros x ->. apply (wp_use _ _ _ _ _ _ (download_post o fuel)) in E. eapply command_failed; eauto. }
  destruct X as [X1 X2]. destruct r as [[]|x].
  - specialize (X1 eq_refl). split; split; auto; try tauto. intros L. exfalso. apply D. eapply last_shown_unique; eauto.
  - specialize (X2 x eq_refl). split; split; auto; try discriminate.
    intros L. exfalso. apply D. eapply last_shown_unique; eauto.
Qed.
Print Assumptions command_result.

(* ---- ending the transfer ---- *)

Lemma session_once fuel K dir s r : session fuel K dir s r -> count is_cancel s + count is_finalize s <= 1.
Proof.
  destruct 1; counts; try lia; match goal with H : inl tt = inl tt -> _ |- _ => specialize (H eq_refl) end; lia.
Qed.

(* C64: a command ends its transfer at most once: it never cancels a transfer
   that it finalizes, and does nothing twice. *)
Theorem ended_once :
  forall o fuel cmd w w' t r,
  (exists a, cmd = upload_disk o fuel a) \/ cmd = download_disk o fuel ->
  cmd w = (w', t, r) -> count is_cancel t + count is_finalize t <= 1.
Proof.
  intros o fuel cmd w w' t r C E.
  assert (P : exists K dir done, command_post fuel K dir done t r).
  { destruct C as [(a & ->)| ->].
    - apply (wp_use _ _ _ _ _ _ (upload_post o fuel a)) in E. eauto.
    - apply (wp_use _ _ _ _ _ _ (download_post o fuel)) in E. eauto. }
  destruct P as (K & dir & done & [(pre & x & -> & EP & _)|(pre & s & r1 & b & e & -> & EP & S & _)]).
  - counts. lia.
  - apply session_once in S. destruct (no_disk_count _ EP) as [EE _]. counts. lia.
Qed.
Print Assumptions ended_once.

Lemma in_early t c a : Forall early t -> In (Ev c a) t -> early (Ev c a).
Proof. intros H I0. rewrite Forall_forall in H. exact (H _ I0). Qed.
Lemma in_add fuel d u r c a : add_post fuel d u r -> In (Ev c a) u -> c = CAdd d \/ c = CGet \/ c = CCancel \/ c = CFollow.
Proof.
  intros [(x & -> & ->)|(v & r' & f & -> & (pre & e & -> & PI & CE & CL) & R)] IN.
  { destruct IN as [[= <- _]|[]]. auto. }
  destruct IN as [[= <- _]|IN]; auto. rewrite !in_app_iff in IN. destruct IN as [[IN|IN]|IN].
  - rewrite Forall_forall in PI. apply PI in IN. inversion IN; auto.
  - inversion CE; subst; cbn in IN; repeat destruct IN as [IN|IN]; try (inversion IN; auto; fail); destruct IN.
  - destruct r'; [destruct R as [[-> _]|(x & -> & _)]|destruct R as [-> _]]; cbn in IN;
      repeat destruct IN as [IN|IN]; try (inversion IN; auto; fail); destruct IN.
Qed.
Lemma in_end v r c a : end_post v r -> In (Ev c a) v -> c = CFinalize \/ c = CGet \/ c = CDiskGet.
Proof.
  intros (b & u & -> & P & _) [[= <- _]|IN]; auto. rewrite Forall_forall in P. apply P in IN.
  destruct c; cbn in IN; tauto.
Qed.

Lemma session_transfer fuel K dir s r d z b : session fuel K dir s r -> In (Ev (CTransfer d z) b) s ->
  d = dir /\
  (b = AUnit -> count is_finalize s = 1 /\ count is_cancel s = 0) /\
  (forall x, b = AExc x -> (exists y, r = inr y) /\
     (dir = Upload -> count is_finalize s = 0 /\ count is_cancel s = (if is_exception x then 1 else 0)) /\
     (dir = Download -> count is_finalize s = 1 /\ count is_cancel s = 0)).
Proof.
  assert (NA : forall u r, add_post fuel dir u r -> In (Ev (CTransfer d z) b) u -> False).
  { intros u r0 H IN. destruct (in_add _ _ _ _ _ _ H IN) as [?|[?|[?|?]]]; discriminate. }
  assert (NE : forall u, Forall early u -> In (Ev (CTransfer d z) b) u -> False).
  { intros u H IN. exact (in_early _ _ _ H IN). }
  assert (NF : forall u r, end_post u r -> In (Ev (CTransfer d z) b) u -> False).
  { intros u r0 H IN. destruct (in_end _ _ _ _ H IN) as [?|[?|?]]; discriminate. }
  destruct 1 as [pre x EP|pre u x EP AP|pre u s z' x DU EP AP IX|pre u s z' x s' b' y DU EP AP|pre u s z' s' v r EP KP AP FP|pre u s z' x s' v r y DD EP AP FP];
    rewrite ?in_app_iff; cbn [In]; intros IN.
  - exfalso; eauto.
  - destruct IN; exfalso; eauto.
  - destruct IN as [IN|[IN|[IN|[IN|[]]]]]; try (exfalso; eauto; fail); try discriminate IN.
    injection IN as <- <- <-. split; auto. split; [discriminate|]. intros x0 [= <-]. rewrite IX.
    split; eauto. split; [intros _|congruence]. counts.
    match goal with H : inl tt = inl tt -> _ |- _ => specialize (H eq_refl) end. lia.
  - destruct IN as [IN|[IN|[IN|[IN|[IN|[IN|[]]]]]]]; try (exfalso; eauto; fail); try discriminate IN.
    injection IN as <- <- <-. split; auto. split; [discriminate|]. intros x0 [= <-].
    match goal with H : is_exception x = true |- _ => rewrite H end.
    split; eauto. split; [intros _|congruence]. counts.
    match goal with H : inl tt = inl tt -> _ |- _ => specialize (H eq_refl) end. lia.
  - destruct IN as [IN|[IN|[[IN|[IN|[IN|[]]]]|IN]]]; try (exfalso; eauto; fail); try discriminate IN.
    injection IN as <- <- <-. split; auto. split; [intros _|discriminate]. counts.
    match goal with H : inl tt = inl tt -> _ |- _ => specialize (H eq_refl) end. lia.
  - destruct IN as [IN|[IN|[[IN|[IN|[IN|[]]]]|IN]]]; try (exfalso; eauto; fail); try discriminate IN.
    injection IN as <- <- <-. split; auto. split; [discriminate|]. intros x0 [= <-].
    split; eauto. split; [congruence|intros _]. counts.
    match goal with H : inl tt = inl tt -> _ |- _ => specialize (H eq_refl) end. lia.
Qed.

Lemma command_transfer fuel K dir done t r d z b : command_post fuel K dir done t r -> In (Ev (CTransfer d z) b) t ->
  d = dir /\
  (b = AUnit -> count is_finalize t = 1 /\ count is_cancel t = 0) /\
  (forall x, b = AExc x -> (exists y, r = inr y) /\
     (dir = Upload -> count is_finalize t = 0 /\ count is_cancel t = (if is_exception x then 1 else 0)) /\
     (dir = Download -> count is_finalize t = 1 /\ count is_cancel t = 0)).
Proof.
  intros [(pre & x & -> & EP & _)|(pre & s & r1 & c & e & -> & EP & S & RR)] IN.
  { apply in_app_iff in IN as [IN|[IN|[]]]; [|discriminate]. destruct (in_early _ _ _ EP IN). }
  destruct (no_disk_count _ EP) as [EE _]. rewrite !in_app_iff in IN.
  destruct IN as [IN|[IN|[IN|[IN|[]]]]]; try discriminate IN; [destruct (in_early _ _ _ EE IN)|].
  destruct (session_transfer _ _ _ _ _ _ _ _ S IN) as (-> & A1 & A2).
  destruct (early_count _ EE) as (C1 & C2 & C3 & C4).
  rewrite !count_app, !count_cons, !count_nil, C1, C2. cbn [is_finalize is_cancel].
  split; auto. split.
  - intros B. specialize (A1 B). lia.
  - intros x B. destruct (A2 x B) as ((y & ->) & A3 & A4). split.
    + destruct RR as [(_ & E & _)|(y' & -> & _)]; [discriminate|eauto].
    + split; intros D; [specialize (A3 D)|specialize (A4 D)]; lia.
Qed.

(* C64: an upload that failed is cancelled and never finalized; one that
   succeeded is finalized and never cancelled. *)
Theorem upload_ended :
  forall o fuel a w w' t r z b,
  upload_disk o fuel a w = (w', t, r) -> In (Ev (CTransfer Upload z) b) t ->
  (b = AUnit -> count is_finalize t = 1 /\ count is_cancel t = 0) /\
  (forall x, b = AExc x -> count is_finalize t = 0 /\ r <> inl tt /\
     (is_exception x = true -> count is_cancel t = 1)).
Proof.
  intros o fuel a w w' t r z b E IN. apply (wp_use _ _ _ _ _ _ (upload_post o fuel a)) in E.
  destruct (command_transfer _ _ _ _ _ _ _ _ _ E IN) as (_ & A1 & A2). split; auto.
  intros x B. destruct (A2 x B) as ((y & ->) & A3 & _). specialize (A3 eq_refl) as [A3 A4].
  split; auto. split; [discriminate|]. intros X. rewrite X in A4. exact A4.
Qed.
Print Assumptions upload_ended.

(* C64: a download is finalized whatever happens to the data. *)
Theorem download_ended :
  forall o fuel w w' t r z b,
  download_disk o fuel w = (w', t, r) -> In (Ev (CTransfer Download z) b) t ->
  count is_finalize t = 1 /\ count is_cancel t = 0 /\ (forall x, b = AExc x -> r <> inl tt).
Proof.
  intros o fuel w w' t r z b E IN. pose proof E as E'. apply (wp_use _ _ _ _ _ _ (download_post o fuel)) in E.
  destruct (command_transfer _ _ _ _ _ _ _ _ _ E IN) as (_ & A1 & A2).
  assert (B : b = AUnit \/ exists x, b = AExc x).
  { destruct E as [(pre & x & -> & EP & _)|(pre & s & r1 & c & e & -> & EP & S & RR)].
    { apply in_app_iff in IN as [IN|[IN|[]]]; [|discriminate]. destruct (in_early _ _ _ EP IN). }
    destruct (no_disk_count _ EP) as [EE _]. rewrite !in_app_iff in IN.
    destruct IN as [IN|[IN|[IN|[IN|[]]]]]; try discriminate IN; [destruct (in_early _ _ _ EE IN)|].
    assert (NA : forall u r, add_post fuel Download u r -> In (Ev (CTransfer Download z) b) u -> False).
    { intros u r0 H J. destruct (in_add _ _ _ _ _ _ H J) as [?|[?|[?|?]]]; discriminate. }
    assert (NE : forall u, Forall early u -> In (Ev (CTransfer Download z) b) u -> False).
    { intros u H J. exact (in_early _ _ _ H J). }
    assert (NF : forall u r, end_post u r -> In (Ev (CTransfer Download z) b) u -> False).
    { intros u r0 H J. destruct (in_end _ _ _ _ H J) as [?|[?|?]]; discriminate. }
    destruct S; try discriminate; rewrite ?in_app_iff in IN; cbn [In] in IN;
      repeat match goal with H : _ \/ _ |- _ => destruct H as [H|H] end;
      try (exfalso; eauto; fail); try discriminate; try contradiction;
      match goal with H : Ev _ _ = Ev _ _ |- _ => injection H as <- <-; eauto end. }
  destruct B as [->|(x & ->)].
  - destruct (A1 eq_refl). repeat split; auto. discriminate.
  - destruct (A2 x eq_refl) as ((y & ->) & _ & A4). destruct (A4 eq_refl). repeat split; auto. discriminate.
Qed.
Print Assumptions download_ended.

(* ---- no transfer is left behind ---- *)

Lemma session_closed fuel K dir s r : session fuel K dir s r -> created s -> engine_answers s ->
  not_interrupted s -> count is_poll s < Z.of_nat fuel -> closed s.
Proof.
  intros S (d & CR) [EA1 EA2] NI NF.
  assert (CC : forall u x, add_post fuel dir u (inr x) ->
    (forall y, In (Ev CGet (AExc y)) u -> y = XNotFound) -> (forall y, ~ In (Ev CFollow (AExc y)) u) ->
    In (Ev (CAdd d) AUnit) u -> count is_poll u < Z.of_nat fuel ->
    count is_cancel u = 1 \/ (count is_cancel u = 0 /\ gone u)).
  { intros u x [(y & -> & [= ->])|(v & r' & f & -> & (pre & e & -> & PI & CE & CL) & R)] G1 G2 J NX.
    { destruct J as [J|[]]. discriminate J. }
    destruct r' as [[]|x']. { destruct R as [[_ R]|(y & -> & R)]; [discriminate|]. exfalso.
      apply (G2 y). right. rewrite !in_app_iff. right. left. reflexivity. }
    destruct R as [-> [= ->]]. rewrite app_nil_r in *.
    destruct (initializing_count _ PI) as (C1 & _).
    assert (CP : count is_poll pre = Z.of_nat (List.length pre)).
    { clear - PI. induction PI as [|e pre -> PI IH]; [reflexivity|]. rewrite count_cons, IH. cbn [is_poll List.length]. lia. }
    rewrite count_cons, count_app, C1. cbn [is_cancel]. inversion CE; subst.
    - right. split; [reflexivity|]. left. right. apply in_or_app. right.
      match goal with |- In _ [Ev CGet (AExc ?y)] =>
        rewrite (G1 y) by (right; apply in_or_app; right; left; reflexivity) end. left. reflexivity.
    - right. split; [reflexivity|]. right. right. apply in_or_app. right. left. reflexivity.
    - left. reflexivity.
    - exfalso. rewrite count_cons, count_app, CP, CL in NX by auto. cbn [is_poll] in NX.
      rewrite count_nil in NX. lia. }
  assert (NE : forall u, Forall early u -> In (Ev (CAdd d) AUnit) u -> False).
  { intros u H J. exact (in_early _ _ _ H J). }
  unfold closed. destruct S as [pre x EP|pre u x EP AP|pre u s z' x DU EP AP IX|pre u s z' x s' b' y DU EP AP IX|pre u s z' s' v r EP KP AP FP|pre u s z' x s' v r y DD EP AP FP].
  - exfalso; eauto.
  - apply in_app_iff in CR as [CR|CR]; [exfalso; eauto|].
    assert (C := CC u x AP).
    assert (G1 : forall y, In (Ev CGet (AExc y)) u -> y = XNotFound) by (intros y J; apply EA1, in_or_app; auto).
    assert (G2 : forall y, ~ In (Ev CFollow (AExc y)) u) by (intros y J; apply (EA2 y), in_or_app; auto).
    assert (NX : count is_poll u < Z.of_nat fuel).
    { rewrite count_app in NF. pose proof (count_nonneg is_poll pre). lia. }
    specialize (C G1 G2 CR NX). pose proof AP as AP'. counts.
    destruct C as [C|[C G]]; [left; lia|right; split; [lia|]].
    destruct G as [G|G]; [left|right]; apply in_or_app; auto.
  - exfalso. rewrite (NI dir z' x) in IX; [discriminate|]. rewrite !in_app_iff. right. right. right. left. reflexivity.
  - left. counts. match goal with H : inl tt = inl tt -> _ |- _ => specialize (H eq_refl) end. lia.
  - left. counts. match goal with H : inl tt = inl tt -> _ |- _ => specialize (H eq_refl) end. lia.
  - left. counts. match goal with H : inl tt = inl tt -> _ |- _ => specialize (H eq_refl) end. lia.
Qed.

Lemma command_closed fuel K dir done t r : command_post fuel K dir done t r -> created t ->
  engine_answers t -> not_interrupted t -> count is_poll t < Z.of_nat fuel -> closed t.
Proof.
  intros [(pre & x & -> & EP & _)|(pre & s & r1 & c & e & -> & EP & S & RR)] (d & CR) [EA1 EA2] NI NF.
  { apply in_app_iff in CR as [CR|[CR|[]]]; [|discriminate]. destruct (in_early _ _ _ EP CR). }
  destruct (no_disk_count _ EP) as [EE _]. rewrite !in_app_iff in CR.
  destruct CR as [CR|[CR|[CR|[CR|[]]]]]; try discriminate CR; [destruct (in_early _ _ _ EE CR)|].
  assert (C : closed s).
  { eapply session_closed; eauto.
    - exists d. auto.
    - split; intros x J; [apply EA1|apply (EA2 x)]; rewrite !in_app_iff; auto.
    - intros d' z x J. apply (NI d' z x). rewrite !in_app_iff. auto.
    - rewrite !count_app in NF. pose proof (count_nonneg is_poll pre).
      pose proof (count_nonneg is_poll [Ev CClose c; Shown (lit e)]). lia. }
  destruct (early_count _ EE) as (C1 & C2 & _). unfold closed, gone in *.
  rewrite !count_app, !count_cons, !count_nil, C1, C2, !in_app_iff. cbn [is_cancel is_finalize].
  destruct C as [C|[C [G|G]]]; [left; lia|right; split; [lia|auto]..].
Qed.

(* C64, for runs in which engine answers the requests that the command relies
   on: the transfer made by a command is not left behind.  Missing: other errors
   while waiting for the transfer (see below). *)
Theorem transfer_closed_partial :
  forall o fuel cmd T w w' t r,
  (exists a, cmd = upload_disk o fuel a /\ T = a_disk_timeout a) \/ (cmd = download_disk o fuel /\ T = 0) ->
  enough T fuel -> cmd w = (w', t, r) -> created t -> engine_answers t -> not_interrupted t -> closed t.
Proof.
  intros o fuel cmd T w w' t r C F E CR EA NI.
  destruct C as [(a & -> & ->)|[-> ->]].
  - pose proof (upload_polls o fuel a w) as P. rewrite E in P. cbn [fst snd] in P.
    apply (wp_use _ _ _ _ _ _ (upload_post o fuel a)) in E. eapply command_closed; eauto. unfold enough in F. lia.
  - pose proof (download_polls o fuel w) as P. rewrite E in P. cbn [fst snd] in P.
    apply (wp_use _ _ _ _ _ _ (download_post o fuel)) in E. eapply command_closed; eauto. unfold enough in F. lia.
Qed.
Print Assumptions transfer_closed_partial.

(* ---- polling ---- *)

(* C65: the commands end: with enough iterations for the timeouts, more of them
   change nothing. *)
Theorem polling_ends :
  forall o fuel fuel' w,
  (forall a, enough (a_disk_timeout a) fuel -> enough (a_disk_timeout a) fuel' ->
     upload_disk o fuel a w = upload_disk o fuel' a w) /\
  (enough 0 fuel -> enough 0 fuel' -> download_disk o fuel w = download_disk o fuel' w).
Proof.
  intros o fuel fuel' w. split; [intros a|]; intros E E'; [apply upload_same|apply download_same]; auto.
Qed.
Print Assumptions polling_ends.

(* C65: the number of requests made while waiting. *)
Theorem polls_bounded :
  forall o fuel w w' t r,
  (forall a, upload_disk o fuel a w = (w', t, r) ->
     count is_poll t <= 363 /\ count is_disk_poll t <= Z.max 0 (a_disk_timeout a) + 1) /\
  (download_disk o fuel w = (w', t, r) -> count is_poll t <= 363).
Proof.
  intros o fuel w w' t r. split; [intros a|]; intros E.
  - pose proof (upload_polls o fuel a w) as P. pose proof (upload_disk_polls o fuel a w) as Q.
    rewrite E in P, Q. auto.
  - pose proof (download_polls o fuel w) as P. rewrite E in P. auto.
Qed.
Print Assumptions polls_bounded.

(* ---- the options of a new disk ---- *)

Definition about (d : disk_info) (e : event) : Prop :=
  match e with
  | Ev (CAddDisk d') _ => d' = d
  | Ev (CTransfer _ z) _ => z = d_is_zero d
  | _ => True
  end.

Lemma early_about d t : Forall (fun e => early e /\ no_disk e) t -> Forall (about d) t.
Proof.
  apply Forall_impl. intros [[] b|s] [E N]; cbn in *; auto; contradiction.
Qed.

Lemma add_about d fuel dir u r : add_post fuel dir u r -> Forall (about d) u.
Proof.
  intros H. apply Forall_forall. intros [c b|s] IN; [|exact I].
  destruct (in_add _ _ _ _ _ _ H IN) as [->|[->|[->| ->]]]; exact I.
Qed.
Lemma end_about d v r : end_post v r -> Forall (about d) v.
Proof.
  intros H. apply Forall_forall. intros [c b|s] IN; [|exact I].
  destruct (in_end _ _ _ _ H IN) as [->|[->| ->]]; exact I.
Qed.

Section oracle.
Variable o : oracle.

Definition tells {A} (d : disk_info) (m : M A) : Prop := wp m (fun t _ => Forall (about d) t).
Lemma tells_bind {A B} d (m : M A) (f : A -> M B) :
  tells d m -> (forall a, tells d (f a)) -> tells d (bind m f).
Proof.
  intros H F. eapply wp_bind; [exact H| |auto]. intros t a T. eapply wp_weaken; [apply F|].
  intros u r U. apply Forall_app. auto.
Qed.
Lemma tells_try {A B} d (m : M A) (f : A + exc -> M B) :
  tells d m -> (forall a, tells d (f a)) -> tells d (try_ m f).
Proof.
  intros H F. eapply wp_try; [exact H|]. intros t a T. eapply wp_weaken; [apply F|].
  intros u r U. apply Forall_app. auto.
Qed.
Lemma tells_ret {A} d (a : A) : tells d (ret a).
Proof. apply wp_ret. constructor. Qed.
Lemma tells_raise {A} d x : tells d (@raise A x).
Proof. apply wp_raise. constructor. Qed.
Lemma tells_ask {A} d c f (say : A -> answer) : (forall a, about d (Ev c a)) -> tells d (ask o c f say).
Proof. intros H. apply wp_ask; intros; repeat constructor; auto. Qed.
Lemma tells_show d s : tells d (show s).
Proof. apply wp_show. repeat constructor. Qed.

Ltac tell := first [apply tells_ret | apply tells_raise | apply tells_show
                   | apply tells_ask; intros; cbn; auto].

Lemma upload_tells fuel a w w' t r : upload_disk o fuel a w = (w', t, r) ->
  forall d0 b, In (Ev (CAddDisk d0) b) t ->
  exists d, options_post a t d /\ Forall (about d) t.
Proof.
  intros E. assert (W : wp (upload_disk o fuel a) (fun t r => forall d0 b, In (Ev (CAddDisk d0) b) t ->
    exists d, options_post a t d /\ Forall (about d) t)).
  2: { exact (wp_use _ _ _ _ _ _ W E). }
  clear E. unfold upload_disk, with_progress.
  assert (NO : forall (d0 : disk_info) t b, Forall (fun e => early e /\ no_disk e) t -> In (Ev (CAddDisk d0) b) t -> False).
  { intros d0 t0 b0 H IN. rewrite Forall_forall in H. destruct (H _ IN) as [_ []]. }
  eapply wp_bind; [apply wp_show with (P := fun t r => exists s, t = [Shown s] /\ r = inl tt); eauto
                  | |intros ? ? (? & _ & ?); discriminate].
  intros t0 [] (s0 & -> & _).
  eapply wp_try.
  - instantiate (1 := fun t r => forall d0 b, In (Ev (CAddDisk d0) b) t -> exists d, options_post a t d /\ Forall (about d) t).
    eapply wp_bind; [apply prepare_post| |].
    2: { intros u x [EP _] d0 b IN. exfalso. eauto. }
    intros u d [EP OP]. specialize (OP d eq_refl).
    match goal with |- wp ?m _ => assert (T : tells d m) end.
    { apply tells_bind; [tell|]. intros _. apply tells_bind; [|intros; tell].
      apply tells_try; [|intros r0; apply tells_bind; [tell|intros _; destruct r0; tell]].
      apply tells_bind; [tell|]. intros _. apply tells_bind.
      { eapply wp_weaken; [apply add_disk_post|]. intros v r0 (c & v' & -> & F & _).
        constructor; [reflexivity|]. eapply Forall_impl; [|exact F]. intros e (c' & ->). exact I. }
      intros _. apply tells_bind; [tell|]. intros _.
      apply tells_bind. { eapply wp_weaken; [apply find_host_post|]. intros v r0. apply early_about. }
      intros _. apply tells_bind. { eapply wp_weaken; [apply create_transfer_post|]. intros v r0. apply add_about. }
      intros _. apply tells_bind.
      { apply tells_try; [apply tells_bind; [tell|intros _; apply tells_ask; intros; reflexivity]|].
        intros [?|x]; [tell|]. destruct (is_exception x); [|tell].
        apply tells_bind; [tell|]. intros _. apply tells_bind; [tell|intros; tell]. }
      intros _. apply tells_bind; [tell|]. intros _.
      eapply wp_weaken; [apply finalize_transfer_post|]. intros v r0. apply end_about. }
    eapply wp_weaken; [exact T|]. intros v r0 FV d0 b IN. exists d. split.
    + apply options_app. auto.
    + apply Forall_app. split; auto. apply early_about. exact EP.
  - intros u r0 H.
    assert (G : forall (s : list event), (s = [] \/ exists x, s = [Shown x]) ->
      forall d0 b, In (Ev (CAddDisk d0) b) ([Shown s0] ++ u ++ s) ->
      exists d, options_post a ([Shown s0] ++ u ++ s) d /\ Forall (about d) ([Shown s0] ++ u ++ s)).
    { intros s HS d0 b IN. assert (IN' : In (Ev (CAddDisk d0) b) u).
      { cbn [app In] in IN. destruct IN as [IN|IN]; [discriminate|]. apply in_app_iff in IN as [IN|IN]; auto.
        destruct HS as [->|(x & ->)]; [destruct IN|]. destruct IN as [IN|[]]. discriminate IN. }
      destruct (H d0 b IN') as (d & OP & F). exists d. split.
      - apply options_app_r, options_app. auto.
      - rewrite !Forall_app. repeat split; auto; [repeat constructor|].
        destruct HS as [->|(x & ->)]; repeat constructor. }
    destruct r0 as [[]|x].
    + apply wp_ret. apply G. auto.
    + eapply wp_bind; [apply wp_show with (P := fun t r => exists s, t = [Shown s] /\ r = inl tt); eauto
                      | |intros ? ? (? & _ & ?); discriminate].
      intros t1 [] (s1 & -> & _). apply wp_raise. rewrite app_nil_r. apply G. eauto.
Qed.
End oracle.

Lemma basename_spec s : exists dir, s = dir ++ basename s /\
  (dir = [] \/ exists d, dir = d ++ [SLASH]) /\ ~ In SLASH (basename s).
Proof.
  assert (HAS : forall s, has SLASH s = false -> ~ In SLASH s).
  { intros s0 H IN. unfold has in H. rewrite <- Bool.not_true_iff_false, existsb_exists in H.
    apply H. exists SLASH. auto. }
  induction s as [|c r IH]; cbn [basename].
  { exists []. repeat split; auto. }
  destruct (has SLASH r) eqn:H.
  - destruct IH as (dir & E & D & N). exists (c :: dir). rewrite E at 1. split; [reflexivity|]. split; auto.
    right. destruct D as [->|(d & ->)]; [|exists (c :: d); reflexivity].
    exfalso. apply N. rewrite E in H. unfold has in H. apply existsb_exists in H as (x & IN & X).
    apply Z.eqb_eq in X. subst x. exact IN.
  - destruct (c =? SLASH) eqn:C.
    + apply Z.eqb_eq in C. subst c. exists [SLASH]. split; [reflexivity|]. split; [right; exists []; reflexivity|].
      apply HAS; auto.
    + exists []. split; [reflexivity|]. split; auto. intros [IN|IN]; [subst c; discriminate C|].
      revert IN. apply HAS; auto.
Qed.
Lemma before_dot_spec s : match before_dot s with
  | Some b => exists e, s = b ++ DOT :: e /\ ~ In DOT e
  | None => ~ In DOT s
  end.
Proof.
  induction s as [|c r IH]; cbn [before_dot]; [auto|]. destruct (before_dot r) as [b|].
  - destruct IH as (e & -> & N). exists e. auto.
  - destruct (c =? DOT) eqn:C.
    + apply Z.eqb_eq in C. subst. exists r. auto.
    + intros [->|IN]; auto. discriminate C.
Qed.
Lemma stem_spec p : file_stem p (stem (basename p)).
Proof.
  destruct (basename_spec p) as (dir & E & D & N). unfold stem.
  pose proof (before_dot_spec (basename p)) as B. destruct (before_dot (basename p)) as [b|].
  - destruct B as (e & EB & NE). destruct (existsb _ b) eqn:X.
    + exists dir, (DOT :: e). rewrite <- EB. repeat split; auto. right. exists e. split; auto. split; auto.
      apply existsb_exists in X as (c & IN & C). exists c. split; auto.
      intros ->. discriminate C.
    + exists dir, []. rewrite app_nil_r. split; [auto|]. split; [auto|]. split; [auto|].
      left. split; [auto|]. intros a e' c EA IN. rewrite EB in EA.
      assert (P : exists x, b = a ++ x).
      { clear - EA NE. revert a EA. induction b as [|y b IH]; intros [|z a] EA; cbn [app] in EA.
        - exists []. auto.
        - injection EA as _ EA. exfalso. apply NE. rewrite EA. apply in_or_app. right. left. auto.
        - eexists. reflexivity.
        - injection EA as -> EA. destruct (IH a EA) as [x ->]. exists x. auto. }
      destruct P as [x ->]. rewrite existsb_app in X. apply orb_false_iff in X as [X _].
      destruct (Z.eq_dec c DOT) as [|NC]; auto. exfalso.
      assert (existsb (fun c => negb (c =? DOT)) a = true); [|congruence].
      apply existsb_exists. exists c. split; auto. lia.
  - exists dir, []. rewrite app_nil_r. split; [auto|]. split; [auto|]. split; [auto|].
    left. split; [auto|]. intros a e c EA IN. exfalso. apply B. rewrite EA. apply in_or_app. right. left. auto.
Qed.

(* C66: the new disk fits the image: its size, name, content, and format; zeroes
   are skipped while uploading only when the disk is new qcow2 or sparse. *)
Theorem upload_options :
  forall o fuel a w w' t r d b,
  upload_disk o fuel a w = (w', t, r) -> In (Ev (CAddDisk d) b) t ->
  exists i, In (Ev CInfo (AInfo i)) t /\ i_format i <> OtherFormat /\
    d_provisioned d = i_virtual i /\
    (forall n, a_name a = Some n -> d_name d = n) /\
    (a_name a = None -> file_stem (i_filename i) (d_name d)) /\
    (d_content d = Iso -> i_format i = Raw /\ d_format d = Raw /\ d_sparse d = false /\
       exists data, In (Ev CRead (AData data)) t /\ sub 32768 8 data = iso_descriptor) /\
    (d_content d = Data -> (d_format d = Qcow2 <-> a_format a = Qcow2) /\ d_sparse d = a_sparse a /\
       (i_format i = Raw -> exists data, In (Ev CRead (AData data)) t /\ sub 32768 8 data <> iso_descriptor)) /\
    (d_is_zero d = true <-> d_format d = Qcow2 \/ d_sparse d = true) /\
    (d_initial d <> None <-> d_format d = Qcow2 /\ d_sparse d = true) /\
    (forall n, d_initial d = Some n -> In (Ev CMeasure (ASize n)) t) /\
    (forall z b', In (Ev (CTransfer Upload z) b') t -> z = d_is_zero d).
Proof.
  intros o fuel a w w' t r d b E IN. destruct (upload_tells o fuel a w w' t r E d b IN) as (d' & OP & F).
  rewrite Forall_forall in F. pose proof (F _ IN) as X. cbn in X. subst d'.
  destruct OP as (i & I1 & I2 & I3 & I4 & I5). exists i. split; auto. split; auto. split; auto.
  split. { intros n N. rewrite I4, N. reflexivity. }
  split. { intros N. rewrite I4, N. apply stem_spec. }
  assert (TZ : forall z b', In (Ev (CTransfer Upload z) b') t -> z = d_is_zero d).
  { intros z b' J. exact (F _ J). }
  destruct I5 as [(A1 & A2 & A3 & A4 & A5 & A6 & data & A7 & A8)|(A1 & A2 & A3 & A4 & A5 & A6)];
    rewrite A1.
  - split; [intros _; eauto 8|]. split; [discriminate|]. rewrite A3, A4, A5, A6.
    split; [split; [discriminate|intros [?|?]; discriminate]|].
    split; [split; [congruence|intros [? ?]; discriminate]|]. split; [discriminate|]. rewrite <- A5. auto.
  - split; [discriminate|]. split.
    { intros _. rewrite A2. split; [|auto]. destruct (a_format a); cbn; split; congruence. }
    rewrite A2, A3, A4 in *. split.
    { destruct (a_format a), (a_sparse a); cbn; split; auto; try tauto; try discriminate;
        intros [?|?]; discriminate. }
    destruct (is_qcow2 (a_format a)) eqn:Q; cbn [andb] in A6; [destruct (a_sparse a)|].
    + destruct A6 as (n & A6 & A7). rewrite A6. split; [split; [auto|discriminate]|].
      split; [|auto]. intros n' [= <-]. exact A7.
    + rewrite A6. split; [split; [congruence|intros [_ ?]; discriminate]|]. split; [discriminate|auto].
    + rewrite A6. split; [split; [congruence|intros [? _]; discriminate]|]. split; [discriminate|auto].
Qed.
Print Assumptions upload_options.

(* ---- examples ---- *)

(* An upload: the disk is ready at once, the transfer after one poll. *)
Definition info_ex : image_info := ImageInfo (lit "/data/my.disk.qcow2") Qcow2 1073741824.
Definition oracle_ex : oracle := {|
  o_unit _ := None;
  o_phase i := inl (if (i <? 14)%nat then Initializing else if (i <? 16)%nat then Transferring
                    else if (i <? 23)%nat then OtherPhase else FinishedSuccess);
  o_status _ := inl DiskOk; o_count _ := inl O; o_vdsm _ := AMissing;
  o_info _ := inl info_ex; o_data _ := inl []; o_size _ := inl 393216; o_delay _ := 1000 |}.
Definition args_ex : args := Args Qcow2 true None 120.
Definition start_ex : world := World 0 0.
Definition disk_ex : disk_info :=
  DiskInfo (lit "my.disk") (Some 393216) 1073741824 Data Qcow2 true true.

Example upload_ex :
  upload_disk oracle_ex 500 args_ex start_ex =
  (World 4000025000 25,
   [Shown (lit "inspecting image"); Ev CInfo (AInfo info_ex); Ev CMeasure (ASize 393216);
    Ev CConnect AUnit; Shown (lit "creating disk"); Ev (CAddDisk disk_ex) AUnit;
    Ev CDiskGet (AStatus DiskOk); Shown (lit "creating transfer"); Ev CVdsmId AMissing;
    Ev (CAdd Upload) AUnit; Ev CGet (APhase Initializing); Ev CGet (APhase Transferring);
    Ev CFollow AUnit; Shown (lit "uploading image"); Ev (CTransfer Upload true) AUnit;
    Shown (lit "finalizing transfer"); Ev CFinalize AUnit; Ev CGet (APhase OtherPhase);
    Ev CGet (APhase FinishedSuccess); Ev CClose AUnit; Shown (lit "upload completed")],
   inl tt).
Proof. vm_compute. reflexivity. Qed.

Definition trace {A} (x : world * list event * (A + exc)) : list event := snd (fst x).

Example upload_success_ex : exists w' t, upload_disk oracle_ex 500 args_ex start_ex = (w', t, inl tt) /\
  enough (a_disk_timeout args_ex) 500 /\ created t /\ engine_answers t /\ not_interrupted t.
Proof.
  eexists _, _. split; [apply upload_ex|]. split; [unfold enough; cbn; lia|].
  split. { exists Upload. cbn. tauto. }
  split; [split|].
  - intros x H. cbn [In] in H. repeat destruct H as [H|H]; try discriminate H. destruct H.
  - intros x H. cbn [In] in H. repeat destruct H as [H|H]; try discriminate H. destruct H.
  - intros d z x H. cbn [In] in H. repeat destruct H as [H|H]; try discriminate H. destruct H.
Qed.

(* The transfer of the data fails: cancelled. *)
Definition failing (n : nat) (x : exc) (o : oracle) : oracle := {|
  o_unit i := if (i =? n)%nat then Some x else o_unit o i;
  o_phase i := if (i =? n)%nat then inr x else o_phase o i;
  o_status i := if (i =? n)%nat then inr x else o_status o i;
  o_count := o_count o; o_vdsm := o_vdsm o; o_info := o_info o;
  o_data := o_data o; o_size := o_size o; o_delay := o_delay o |}.
Example upload_ended_ex :
  let '(_, t, r) := upload_disk (failing 16 XError oracle_ex) 500 args_ex start_ex in
  In (Ev (CTransfer Upload true) (AExc XError)) t /\ In (Ev CCancel AUnit) t /\ r = inr XError /\
  exit_status r = Some 1 /\ last_shown t (lit "command failed").
Proof.
  vm_compute. split; [tauto|]. split; [tauto|]. repeat split. eexists (_ :: _ :: _ :: _ :: _ :: _ :: _ :: _ :: _ :: _ :: _ :: _ :: _ :: _ :: _ :: _ :: _ :: _ :: []).
  reflexivity.
Qed.

(* A download, of an image in a data center with one host. *)
Definition oracle_down : oracle := {|
  o_unit _ := None;
  o_phase i := inl (if (i <? 10)%nat then Transferring else FinishedSuccess);
  o_status _ := inl DiskOk; o_count _ := inl 1%nat; o_vdsm _ := AUnit;
  o_info _ := inl info_ex; o_data _ := inl []; o_size _ := inl 0; o_delay _ := 0 |}.
Example download_success_ex :
  let '(_, t, r) := download_disk oracle_down 500 start_ex in
  r = inl tt /\ filter is_poll t = [Ev CGet (APhase Transferring); Ev CGet (APhase FinishedSuccess)] /\
  In (Ev (CTransfer Download false) AUnit) t /\ created t.
Proof. vm_compute. split; [reflexivity|]. split; [reflexivity|]. split; [tauto|]. exists Download. tauto. Qed.
Example download_ended_ex :
  let '(_, t, r) := download_disk (failing 10 XError oracle_down) 500 start_ex in
  In (Ev (CTransfer Download false) (AExc XError)) t /\ In (Ev CFinalize AUnit) t /\ r = inr XError.
Proof. vm_compute. split; [tauto|]. split; [tauto|reflexivity]. Qed.

(* A transfer that is never ready: polled until the time is over, and cancelled. *)
Definition oracle_slow : oracle := {|
  o_unit _ := None; o_phase i := inl Initializing;
  o_status _ := inl DiskOk; o_count _ := inl 1%nat; o_vdsm _ := AUnit;
  o_info _ := inl info_ex; o_data _ := inl []; o_size _ := inl 0; o_delay _ := 0 |}.
Example polling_ends_ex : enough 0 365 /\
  count is_poll (trace (download_disk oracle_slow 365 start_ex)) = 62 /\
  count is_cancel (trace (download_disk oracle_slow 365 start_ex)) = 1 /\
  snd (download_disk oracle_slow 365 start_ex) = inr XRuntime.
Proof. split; [unfold enough; lia|]. split; [|split]; vm_compute; reflexivity. Qed.

(* An ISO image. *)
Definition oracle_iso : oracle := {|
  o_unit _ := None;
  o_phase i := inl (if (i <? 16)%nat then Transferring else FinishedSuccess);
  o_status _ := inl DiskOk; o_count _ := inl O; o_vdsm _ := AMissing;
  o_info _ := inl (ImageInfo (lit ".iso") Raw 1048576); o_data _ := inl (zeros 32768 ++ ISO_MAGIC);
  o_size _ := inl 0; o_delay _ := 0 |}.
Example upload_options_ex :
  snd (upload_disk oracle_iso 500 args_ex start_ex) = inl tt /\
  filter is_add_disk (trace (upload_disk oracle_iso 500 args_ex start_ex)) =
    [Ev (CAddDisk (DiskInfo (lit ".iso") None 1048576 Iso Raw false false)) AUnit].
Proof. split; vm_compute; reflexivity. Qed.

(* C64: without the hypotheses of [transfer_closed_partial] a transfer may be left
   behind: engine fails to tell its phase once, or the command is interrupted
   while the data is uploaded. *)
Theorem transfer_closed_refuted :
  exists o o' fuel a w,
  (let '(_, t, r) := upload_disk o fuel a w in
   created t /\ r = inr XError /\ not_interrupted t /\ ~ closed t) /\
  (let '(_, t, r) := upload_disk o' fuel a w in
   created t /\ r = inr XInterrupt /\ engine_answers t /\ ~ closed t).
Proof.
  exists (failing 14 XError oracle_ex), (failing 16 XInterrupt oracle_ex), 500%nat, args_ex, start_ex.
  assert (NC : forall t, count is_cancel t = 0 -> count is_finalize t = 0 ->
    existsb (fun e => match e with Ev CGet (AExc XNotFound) => true
                      | Ev CGet (APhase FinishedFailure) => true | _ => false end) t = false -> ~ closed t).
  { intros t A B C [H|[_ [H|H]]]; [lia| |]; rewrite <- Bool.not_true_iff_false, existsb_exists in C; apply C; eauto. }
  split.
  - destruct (upload_disk (failing 14 XError oracle_ex) 500 args_ex start_ex) as [[w' t] r] eqn:E.
    vm_compute in E. injection E as _ <- <-.
    split; [exists Upload; cbn [In]; tauto|]. split; [reflexivity|]. split.
    + intros d z x H. cbn [In] in H. repeat destruct H as [H|H]; try discriminate H. destruct H.
    + apply NC; reflexivity.
  - destruct (upload_disk (failing 16 XInterrupt oracle_ex) 500 args_ex start_ex) as [[w' t] r] eqn:E.
    vm_compute in E. injection E as _ <- <-.
    split; [exists Upload; cbn [In]; tauto|]. split; [reflexivity|]. split.
    + split; intros x H; cbn [In] in H; repeat destruct H as [H|H]; try discriminate H; destruct H.
    + apply NC; reflexivity.
Qed.
Print Assumptions transfer_closed_refuted.

(* C64: a disk made for the upload is left behind when the upload fails before
   the transfer was made: no request removes it. *)
Theorem disk_left_refuted :
  exists o fuel a w,
  let '(_, t, r) := upload_disk o fuel a w in
  exists x, r = inr x /\ is_exception x = true /\
    (exists d, In (Ev (CAddDisk d) AUnit) t) /\ count is_add t = 0.
Proof.
  exists (failing 7 XError oracle_ex), 500%nat, args_ex, start_ex.
  destruct (upload_disk (failing 7 XError oracle_ex) 500 args_ex start_ex) as [[w' t] r] eqn:E.
  vm_compute in E. injection E as _ <- <-. exists XError. split; [reflexivity|]. split; [reflexivity|].
  split; [|reflexivity]. eexists. cbn [In]. do 5 right. left. reflexivity.
Qed.
Print Assumptions disk_left_refuted.

(* C66: the local host is used only when it is a host of oVirt that is up in the
   data center of the storage domain. *)
Theorem local_host : forall o w w' t r, find_host o w = (w', t, r) ->
  (r = inl true <-> exists n m,
     t = [Ev CVdsmId AUnit; Ev CDataCenters (ACount (S n)); Ev CHosts (ACount (S m))]) /\
  (r = inl false -> (exists a, a <> AUnit /\ t = [Ev CVdsmId a]) \/
     exists n, t = [Ev CVdsmId AUnit; Ev CDataCenters (ACount (S n)); Ev CHosts (ACount 0)]).
Proof.
  intros o w w' t r. unfold find_host, bind, ask.
  destruct (o_vdsm o (w_i w)) eqn:V;
    try (cbv beta iota delta [ret app]; intros [= <- <- <-]; split; [split; [discriminate|intros (n1 & m1 & E); discriminate]|];
         intros _; left; eexists; split; [|reflexivity]; discriminate).
  - destruct (o_count o (w_i (pass o 0 w))) as [[|n]|x] eqn:C.
    + unfold raise. intros [= <- <- <-]. split; [split; [discriminate|intros (n & m & E); discriminate]|discriminate].
    + cbn [app]. destruct (o_count o (w_i (pass o 0 (pass o 0 w)))) as [[|m]|x] eqn:C2.
      * unfold ret. intros [= <- <- <-]. split; [split; [discriminate|intros (n' & m' & E); discriminate]|].
        intros _. right. exists n. reflexivity.
      * unfold ret. intros [= <- <- <-]. split; [split; [intros _; exists n, m; reflexivity|auto]|discriminate].
      * intros [= <- <- <-]. split; [split; [discriminate|intros (n' & m' & E); discriminate]|discriminate].
    + intros [= <- <- <-]. split; [split; [discriminate|intros (n' & m' & E); discriminate]|discriminate].
Qed.
Print Assumptions local_host.
Example local_host_ex :
  snd (find_host {| o_unit _ := None; o_phase _ := inl Transferring; o_status _ := inl DiskOk; o_count _ := inl 1%nat;
    o_vdsm _ := AUnit; o_info _ := inr XError; o_data _ := inl []; o_size _ := inl 0; o_delay _ := 0 |} start_ex) = inl true /\
  snd (find_host oracle_iso start_ex) = inl false.
Proof. split; reflexivity. Qed.
