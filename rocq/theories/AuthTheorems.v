(* C03, C07: authorization and expiry. *)
From Coq Require Import ZArith List Bool String Lia.
From Verif Require Import AuthModel AuthProofs.
Import ListNotations.
Open Scope Z_scope.

(* ---- Specification, on the history of requests only ---- *)

(* The actions that make the ticket u unavailable or replace it. *)
Definition drops_ticket (u : string) (a : action) : Prop :=
  match a with Add v _ _ => v = u | Remove v => v = u | Clear => True | _ => False end.

(* The actions that renew it: an explicit extension, or activity. *)
Definition renews_ticket (u : string) (a : action) : Prop :=
  match a with Extend v _ => v = u | Touch v => v = u | _ => False end.

Definition no_such (P : action -> Prop) (h : history) : Prop :=
  forall t a, In (t, a) h -> ~ P a.

(* Second in which a ticket added at t0 with [timeout] seconds and then the
   history h expires: counted from the last renewal, if any. *)
Inductive expires_at (u : string) (t0 timeout : Z) (h : history) : Z -> Prop :=
| ea_never_renewed : no_such (renews_ticket u) h ->
    expires_at u t0 timeout h (t0 / ticks + timeout)
| ea_touched h1 t h2 : h = h1 ++ (t, Touch u) :: h2 -> no_such (renews_ticket u) h2 ->
    expires_at u t0 timeout h (t / ticks + timeout)
| ea_extended h1 t n h2 : h = h1 ++ (t, Extend u n) :: h2 -> no_such (renews_ticket u) h2 ->
    expires_at u t0 timeout h (t / ticks + n).

Definition authorized (h : history) (now : Z) (u op : string) : Prop :=
  exists h1 t0 ops timeout h2 deadline,
    h = h1 ++ (t0, Add u ops timeout) :: h2 /\   (* added ... *)
    no_such (drops_ticket u) h2 /\               (* ... still there *)
    no_such (fun a => a = Cancel u) h2 /\        (* not canceled *)
    expires_at u t0 timeout h2 deadline /\
    now < deadline * ticks /\                    (* not expired *)
    (In op ops \/ (op = "read"%string /\ In "write"%string ops)).

Lemma expires_at_deadline u t0 m h d : expires_at u t0 m h d <-> deadline u t0 m h d.
Proof.
  split.
  - intros [N|h1 t h2 E N|h1 t n h2 E N].
    + apply dl_add; exact N.
    + exact (dl_renew u t0 m h h1 t (Touch u) h2 E eq_refl N).
    + exact (dl_renew u t0 m h h1 t (Extend u n) h2 E eq_refl N).
  - intros [N|h1 t a h2 E R N].
    + apply ea_never_renewed; exact N.
    + destruct a; cbn in R; try contradiction; subst.
      * eapply ea_extended; eauto.
      * eapply ea_touched; eauto.
Qed.

(* C03 *)
Theorem authorize_exact :
  forall h now u op,
    authorize (run h) now u op = Granted <-> authorized h now u op.
Proof.
  intros. rewrite authorize_iff. unfold authorized.
  split; intros (h1 & t0 & ops & m & h2 & d & A & B & C & D & E & F);
    exists h1, t0, ops, m, h2, d; (repeat split; auto); now apply expires_at_deadline.
Qed.
Print Assumptions authorize_exact.

Example authorize_exact_ex :
  let h := [(5 * ticks, Add "a" ["write"] 10); (6 * ticks, Add "b" ["read"] 10);
            (9 * ticks, Touch "a"); (9 * ticks, Cancel "b")]%string in
  authorized h (19 * ticks - 1) "a" "read" /\
  authorize (run h) (19 * ticks - 1) "a" "read" = Granted /\
  authorize (run h) (19 * ticks) "a" "read" = Expired /\
  authorize (run h) (10 * ticks) "b" "read" = WasCanceled /\
  authorize (run h) (10 * ticks) "a" "checksum" = Forbidden /\
  authorize (run h) (10 * ticks) "c" "read" = NoSuchTicket.
Proof. cbv zeta. rewrite <- authorize_exact. vm_compute. auto 10. Qed.

(* C07: expiry after the last activity: a ticket that was touched at t and
   then neither renewed, replaced, removed nor canceled. *)
Theorem active_ticket_lives_for_timeout :
  forall u h1 t0 ops timeout h2 t h3 now op,
    no_such (drops_ticket u) (h2 ++ h3) ->
    no_such (fun a => a = Cancel u) (h2 ++ h3) ->
    no_such (renews_ticket u) h3 ->
    In op ops \/ (op = "read"%string /\ In "write"%string ops) ->
    let h := h1 ++ (t0, Add u ops timeout) :: h2 ++ (t, Touch u) :: h3 in
    (authorize (run h) now u op = Granted <-> now < (t / ticks + timeout) * ticks).
Proof.
  intros u h1 t0 ops timeout h2 t h3 now op ND NC NR I h.
  assert (ND' : none (drops u) (h2 ++ (t, Touch u) :: h3)).
  { apply none_app in ND as [A B]. apply none_app; split; [exact A|].
    intros m b [Q|Q]; [inversion Q; subst; cbn; tauto|exact (B m b Q)]. }
  assert (NC' : none (cancels u) (h2 ++ (t, Touch u) :: h3)).
  { intros m b Q. apply in_app_or in Q. destruct Q as [Q|[Q|Q]].
    - apply (NC m b), in_or_app; auto.
    - inversion Q; subst. discriminate.
    - apply (NC m b), in_or_app; auto. }
  assert (D : deadline u t0 timeout (h2 ++ (t, Touch u) :: h3) (t / ticks + timeout)).
  { exact (dl_renew u t0 timeout _ h2 t (Touch u) h3 eq_refl eq_refl NR). }
  rewrite authorize_iff. split.
  - intros (h1' & t0' & ops' & m' & h2' & d' & E & N1 & N2 & D' & L & _).
    unfold h in E. apply split_unique in E as (<- & <- & <- & <- & <-); auto.
    now rewrite (deadline_unique _ _ _ _ _ _ D D').
  - intros L. exists h1, t0, ops, timeout, (h2 ++ (t, Touch u) :: h3), (t / ticks + timeout).
    repeat split; auto.
Qed.
Print Assumptions active_ticket_lives_for_timeout.

(* So the ticket is usable for more than timeout - 1 seconds since the last
   activity, and never more than timeout seconds. *)
Theorem timeout_rounding :
  forall t timeout now,
    (now <= t + (timeout - 1) * ticks -> now < (t / ticks + timeout) * ticks) /\
    (t + timeout * ticks <= now -> ~ now < (t / ticks + timeout) * ticks).
Proof.
  intros t m now. pose proof (Z.div_mod t ticks ltac:(discriminate)) as E.
  pose proof (Z.mod_pos_bound t ticks ltac:(reflexivity)) as B.
  split; intros H; nia.
Qed.
Print Assumptions timeout_rounding.

(* Activity never ends the life of a ticket that was not extended, when the
   clock does not go back. *)
Theorem touch_never_shortens_partial :
  forall h u op t now,
    Forall (fun x => fst x <= t) h ->
    no_such (fun a => exists n, a = Extend u n) h ->
    authorize (run h) now u op = Granted ->
    authorize (run (h ++ [(t, Touch u)])) now u op = Granted.
Proof.
  intros h u op t now F NE. rewrite !authorize_iff.
  intros (h1 & t0 & ops & m & h2 & d & E & ND & NC & D & L & M).
  exists h1, t0, ops, m, (h2 ++ [(t, Touch u)]), (int_time t + m).
  split; [rewrite E, <- app_assoc; reflexivity|].
  split; [apply none_snoc; cbn; auto|].
  split; [apply none_snoc; split; auto; discriminate|].
  split; [exact (deadline_renew u t0 m h2 t (Touch u) eq_refl)|].
  split; auto.
  assert (d <= int_time t + m); [|unfold ticks in *; nia].
  rewrite Forall_forall in F.
  destruct D as [N|k1 t' a k2 E' R N].
  - assert (t0 <= t) by (apply (F (t0, Add u ops m)); rewrite E; apply in_or_app; cbn; auto).
    unfold int_time. pose proof (Z.div_le_mono t0 t ticks ltac:(reflexivity) H). lia.
  - assert (I : In (t', a) h) by (rewrite E, E'; apply in_or_app; right; right; apply in_or_app; cbn; auto).
    assert (t' <= t) by (apply (F (t', a)); auto).
    pose proof (Z.div_le_mono t' t ticks ltac:(reflexivity) H).
    destruct a; cbn in R; try contradiction; subst.
    + exfalso. eapply NE; eauto.
    + cbn. unfold int_time. lia.
Qed.
Print Assumptions touch_never_shortens_partial.

Example touch_never_shortens_ex :
  let h := [(0, Add "u" ["read"] 10); (3 * ticks, Add "v" ["read"] 10);
            (4 * ticks, Extend "v" 300)]%string in
  authorize (run h) (9 * ticks) "u" "read" = Granted /\
  authorize (run (h ++ [(5 * ticks, Touch "u"%string)])) (9 * ticks) "u" "read" = Granted.
Proof. vm_compute. auto. Qed.

(* An extension takes effect from the moment of the request. *)
Theorem extend_sets_deadline :
  forall u h1 t0 ops timeout h2 t n h3 now op,
    no_such (drops_ticket u) (h2 ++ h3) ->
    no_such (fun a => a = Cancel u) (h2 ++ h3) ->
    no_such (renews_ticket u) h3 ->
    In op ops \/ (op = "read"%string /\ In "write"%string ops) ->
    let h := h1 ++ (t0, Add u ops timeout) :: h2 ++ (t, Extend u n) :: h3 in
    (authorize (run h) now u op = Granted <-> now < (t / ticks + n) * ticks).
Proof.
  intros u h1 t0 ops timeout h2 t n h3 now op ND NC NR I h.
  assert (ND' : none (drops u) (h2 ++ (t, Extend u n) :: h3)).
  { apply none_app in ND as [A B]. apply none_app; split; [exact A|].
    intros m b [Q|Q]; [inversion Q; subst; cbn; tauto|exact (B m b Q)]. }
  assert (NC' : none (cancels u) (h2 ++ (t, Extend u n) :: h3)).
  { intros m b Q. apply in_app_or in Q. destruct Q as [Q|[Q|Q]].
    - apply (NC m b), in_or_app; auto.
    - inversion Q; subst. discriminate.
    - apply (NC m b), in_or_app; auto. }
  assert (D : deadline u t0 timeout (h2 ++ (t, Extend u n) :: h3) (t / ticks + n)).
  { exact (dl_renew u t0 timeout _ h2 t (Extend u n) h3 eq_refl eq_refl NR). }
  rewrite authorize_iff. split.
  - intros (h1' & t0' & ops' & m' & h2' & d' & E & N1 & N2 & D' & L & _).
    unfold h in E. apply split_unique in E as (<- & <- & <- & <- & <-); auto.
    now rewrite (deadline_unique _ _ _ _ _ _ D D').
  - intros L. exists h1, t0, ops, timeout, (h2 ++ (t, Extend u n) :: h3), (t / ticks + n).
    repeat split; auto.
Qed.
Print Assumptions extend_sets_deadline.

Example extend_sets_deadline_ex :
  let h := [(0, Add "u" ["read"] 10); (2 * ticks, Touch "u"); (7 * ticks, Extend "u" 300)]%string in
  authorize (run h) (307 * ticks - 1) "u" "read" = Granted /\
  authorize (run h) (307 * ticks) "u" "read" = Expired.
Proof. vm_compute. auto. Qed.

(* Finding: extending a ticket is lost as soon as an operation ends, since
   Ticket.extend does not change the timeout used by Ticket.touch: a ticket
   extended to 300 seconds at second 2 expires at second 13 if an operation
   ends at second 3 and the ticket timeout is 10. *)
Theorem touch_never_shortens_refuted :
  exists h t now,
    Forall (fun x => fst x <= t) h /\ t < now /\
    authorize (run h) now "u" "read" = Granted /\
    authorize (run (h ++ [(t, Touch "u"%string)])) now "u" "read" = Expired.
Proof.
  exists [(0, Add "u" ["read"] 10); (2 * ticks, Extend "u" 300)]%string, (3 * ticks), (20 * ticks).
  split; [repeat constructor; vm_compute; discriminate|].
  split; [reflexivity|]. split; vm_compute; reflexivity.
Qed.
Print Assumptions touch_never_shortens_refuted.

Example active_ticket_ex :
  let h := [(0, Add "u" ["read"] 10); (7 * ticks + 5, Touch "u")]%string in
  authorize (run h) (17 * ticks - 1) "u" "read" = Granted /\
  authorize (run h) (17 * ticks) "u" "read" = Expired.
Proof. vm_compute. auto. Qed.
