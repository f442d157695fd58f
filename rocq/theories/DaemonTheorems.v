(* Starting and terminating the daemon: C70, C71, C72. *)
From Coq Require Import ZArith List Bool String Arith Lia.
From Verif Require Import DaemonModel DaemonSpec DaemonProofs.
Import ListNotations.
Open Scope Z_scope.

(* ---- C70: terminating ---- *)

(* The daemon ends with status 0 only after a signal, with every service
   stopped. *)
Theorem exits_when_asked_partial svcs s : fresh svcs -> reached svcs s -> s_pc s = MExit 0 ->
  (0 < s_signals s)%nat /\ Forall stopped (s_svcs s).
Proof.
  intros F R E. pose proof (reached_inv _ _ F R) as I. split.
  - destruct (s_signals s) eqn:S; [|lia]. destruct (i_quiet _ _ I S) as [_ Q]. rewrite E in Q. discriminate.
  - apply Forall_forall. intros v V. apply In_nth_error in V. destruct V as [i V].
    pose proof (i_class _ _ I i v V) as C. rewrite E in C. destruct (C eq_refl) as (A & _ & B). split; auto.
Qed.

(* While it was not asked it goes on: no service stops, and the main thread
   stays in its loop. *)
Theorem serves_until_asked svcs s : fresh svcs -> reached svcs s -> s_signals s = 0%nat ->
  s_pc s = MCheck \/ s_pc s = MPause \/ s_pc s = MBlocked ->
  s_running s = true /\ Forall alive (s_svcs s) /\
  forall ok s', step (LMain ok) s = Some s' -> s_pc s' = MPause \/ s_pc s' = MBlocked.
Proof.
  intros F R S P. pose proof (reached_inv _ _ F R) as I. destruct (i_quiet _ _ I S) as [_ Q]. split.
  - destruct P as [P|[P|P]]; rewrite P in Q; auto.
  - split.
    + apply Forall_forall. intros v V. apply In_nth_error in V. destruct V as [i V].
      pose proof (i_class _ _ I i v V) as C.
      assert (L : live v) by (destruct P as [P|[P|P]]; rewrite P in C; exact C).
      destruct L as ([T|[T|T]] & _); unfold alive; rewrite T; split; discriminate.
    + intros ok s' H. cbn in H. unfold main_step in H.
      destruct P as [P|[P|P]]; rewrite P in H, Q; [rewrite Q in H| |discriminate]; injection H as <-; auto.
Qed.

(* Once asked, it ends: no execution takes more than 6 n + 4 of the steps that
   lead to the end, for n services, and until the end one of them is possible. *)
Theorem terminates_when_asked svcs s : fresh svcs -> reached svcs s -> asked s ->
  forall tr s', exec tr s = Some s' ->
  (work tr s <= 6 * List.length svcs + 4)%nat /\
  (ended s' \/ exists l s'', useful s' l = true /\ step l s' = Some s'').
Proof.
  intros F R A tr s' H. pose proof (reached_inv _ _ F R) as I.
  destruct (asked_work _ _ _ _ I A H) as [B W]. pose proof (left_bound (List.length svcs) s). split; [lia|].
  destruct B as [B|B]; auto. right. eapply asked_not_stuck; eauto using exec_inv.
Qed.

(* A signal while the daemon sleeps asks it to terminate; so does a signal
   handled while it starts the services or checks whether it should run. *)
Theorem signal_asks_partial svcs s : fresh svcs -> reached svcs s ->
  (s_pc s = MBlocked -> forall sig, exists s', step (LSignal sig) s = Some s' /\ asked s') /\
  ((s_pc s = MCheck \/ s_pc s = MNotify \/ exists i, s_pc s = MStartSvc i) -> s_pending s = true ->
     exists s', step LHandler s = Some s' /\ asked s').
Proof.
  intros F R. pose proof (i_handlers _ _ (reached_inv _ _ F R)) as HH. split.
  - intros P sig. rewrite P in HH. destruct HH as [H1 H2]. cbn. unfold signal_step. rewrite P, H1, H2. cbn.
    destruct sig; eexists; (split; [reflexivity|exact I]).
  - intros P Q. cbn. unfold handler_step. rewrite Q.
    destruct P as [P|[P|[i P]]]; rewrite P; eexists; (split; [reflexivity|]); unfold asked; cbn; rewrite P; auto.
Qed.

(* The exit status: 0 when nothing raised; 1 when notifying systemd failed. *)
Theorem exit_status svcs tr s c : exec tr (ready svcs) = Some s -> s_pc s = MExit c -> Forall fine tr -> c = 0.
Proof.
  intros H E F. assert (C : clean s) by (eapply clean_exec; eauto; reflexivity).
  unfold clean in C. rewrite E in C. auto.
Qed.
Theorem notify_failure svcs s : fresh svcs -> reached svcs s -> s_pc s = MNotify ->
  exists s1, step (LMain false) s = Some s1 /\ asked s1 /\
  forall tr s2, exec tr s1 = Some s2 -> forall c, s_pc s2 = MExit c -> c = 1.
Proof.
  intros F R P. pose proof (reached_inv _ _ F R) as I. cbn. unfold main_step. rewrite P.
  eexists. split; [reflexivity|]. split; [exact Logic.I|].
  intros tr s2 H c E.
  assert (I1 : Inv (List.length svcs) (set_pc (MStop 0 true) s)).
  { apply (step_inv _ (LMain false) s); auto. cbn. unfold main_step. rewrite P. auto. }
  assert (B : bad s2) by (eapply bad_exec; eauto; reflexivity).
  unfold bad in B. rewrite E in B. auto.
Qed.

Definition three : list svc := [new_svc false; new_svc false; new_svc true].
Definition begin : list label := repeat (LMain true) 3 ++ repeat (LMain true) 4 ++ [LMain true] ++
  [LThread 0 Enter; LThread 1 Enter; LThread 2 Enter; LThread 0 Poll; LThread 0 Accept].
Definition finish : list label :=
  [LMain true; LMain true; LMain true; LThread 0 Leave; LMain true; LMain true; LThread 1 Leave; LMain true;
   LMain true; LThread 2 Leave; LMain true; LMain true].

(* Not true that a signal always terminates the daemon.  One that arrives after
   the check of running and before the process sleeps is noted, but it sleeps
   until another one comes, and goes on serving. *)
Theorem term_lost_refuted : exists svcs tr1 s1 tr2 s2,
  fresh svcs /\ exec tr1 (ready svcs) = Some s1 /\ s_signals s1 = 0%nat /\ Forall alive (s_svcs s1) /\
  exec (LSignal SIGTERM :: tr2) s1 = Some s2 /\ Forall fine (tr1 ++ tr2) /\ s_running s2 = false /\
  forall tr s', quiet tr -> exec tr s2 = Some s' -> ~ ended s' /\ Forall alive (s_svcs s').
Proof.
  exists three, (begin ++ [LMain true]).
  destruct (exec (begin ++ [LMain true]) (ready three)) as [s1|] eqn:E; [|vm_compute in E; discriminate].
  exists s1, [LHandler; LMain true].
  destruct (exec [LSignal SIGTERM; LHandler; LMain true] s1) as [s2|] eqn:E2;
    [|vm_compute in E; injection E as <-; vm_compute in E2; discriminate].
  exists s2.
  assert (R : reached three s2).
  { exists ((begin ++ [LMain true]) ++ [LSignal SIGTERM; LHandler; LMain true]). rewrite exec_app, E. exact E2. }
  assert (FR : fresh three) by (repeat constructor).
  split; [exact FR|]. split; [reflexivity|].
  vm_compute in E. injection E as <-. vm_compute in E2.
  assert (P : s_pc s2 = MBlocked /\ s_running s2 = false) by (injection E2 as <-; split; reflexivity).
  split; [reflexivity|]. split; [repeat constructor; discriminate|]. split; [reflexivity|].
  split; [repeat constructor; discriminate|]. split; [apply P|].
  intros tr s' Q H. destruct (blocked_stays tr s2 s' (proj1 P) Q H) as [B _]. split.
  - intros [c C]. congruence.
  - pose proof (exec_inv _ _ _ _ (reached_inv _ _ FR R) H) as I.
    apply Forall_forall. intros v V. apply In_nth_error in V. destruct V as [i V].
    pose proof (i_class _ _ I i v V) as C. rewrite B in C.
    destruct C as ([T|[T|T]] & _); unfold alive; rewrite T; split; discriminate.
Qed.

(* One that is handled before start() is forgotten: start() sets running. *)
Theorem early_term_lost_refuted : exists svcs tr1 s1 tr2 s2,
  fresh svcs /\ exec tr1 (ready svcs) = Some s1 /\ s_term s1 = true /\
  exec (LSignal SIGTERM :: LHandler :: tr2) s1 = Some s2 /\ Forall fine (tr1 ++ tr2) /\ s_running s2 = true /\
  forall tr s', quiet tr -> exec tr s2 = Some s' -> ~ ended s' /\ Forall alive (s_svcs s').
Proof.
  exists three, [LMain true; LMain true].
  destruct (exec [LMain true; LMain true] (ready three)) as [s1|] eqn:E; [|vm_compute in E; discriminate].
  exists s1, (repeat (LMain true) 8).
  destruct (exec (LSignal SIGTERM :: LHandler :: repeat (LMain true) 8) s1) as [s2|] eqn:E2;
    [|vm_compute in E; injection E as <-; vm_compute in E2; discriminate].
  exists s2.
  assert (R : reached three s2).
  { exists ([LMain true; LMain true] ++ LSignal SIGTERM :: LHandler :: repeat (LMain true) 8). rewrite exec_app, E. exact E2. }
  assert (FR : fresh three) by (repeat constructor).
  split; [exact FR|]. split; [reflexivity|].
  vm_compute in E. injection E as <-. vm_compute in E2.
  assert (P : s_pc s2 = MBlocked /\ s_running s2 = true) by (injection E2 as <-; split; reflexivity).
  split; [reflexivity|]. split; [reflexivity|].
  split; [repeat constructor; discriminate|]. split; [apply P|].
  intros tr s' Q H. destruct (blocked_stays tr s2 s' (proj1 P) Q H) as [B _]. split.
  - intros [c C]. congruence.
  - pose proof (exec_inv _ _ _ _ (reached_inv _ _ FR R) H) as I.
    apply Forall_forall. intros v V. apply In_nth_error in V. destruct V as [i V].
    pose proof (i_class _ _ I i v V) as C. rewrite B in C.
    destruct C as ([T|[T|T]] & _); unfold alive; rewrite T; split; discriminate.
Qed.

(* Nor that every service is stopped before it exits: when the socket of a
   service cannot be removed, this service and the next ones are not stopped,
   and requests that they serve are cut. *)
Theorem services_left_refuted : exists svcs tr s,
  fresh svcs /\ exec tr (ready svcs) = Some s /\ (0 < s_signals s)%nat /\
  s_pc s = MExit 1 /\ exists v, In v (s_svcs s) /\ alive v.
Proof.
  exists [new_svc false; new_svc true; new_svc false],
    (begin ++ [LMain true; LMain true; LSignal SIGTERM] ++
     [LMain true; LMain true; LMain true; LThread 0 Leave; LMain true; LMain false]).
  eexists. split; [repeat constructor|]. split; [vm_compute; reflexivity|].
  split; [cbn; lia|]. split; [reflexivity|]. eexists. split; [right; right; left; reflexivity|]. split; discriminate.
Qed.

(* The daemon starts, serves, is asked to terminate, and ends. *)
Example ends_after_a_signal : exists s1 s2 s3,
  exec (begin ++ [LMain true; LMain true]) (ready three) = Some s1 /\ s_pc s1 = MBlocked /\
  step (LSignal SIGTERM) s1 = Some s2 /\ asked s2 /\
  exec finish s2 = Some s3 /\ s_pc s3 = MExit 0 /\ work finish s2 = 12%nat.
Proof.
  do 3 eexists. split; [vm_compute; reflexivity|]. split; [reflexivity|].
  split; [vm_compute; reflexivity|]. split; [exact I|]. split; [vm_compute; reflexivity|]. split; reflexivity.
Qed.
(* It sleeps and nobody asked. *)
Example not_asked : exists s1,
  exec (begin ++ [LMain true; LMain true]) (ready three) = Some s1 /\ s_signals s1 = 0%nat /\ s_pc s1 = MBlocked.
Proof. eexists. split; [vm_compute; reflexivity|]. split; reflexivity. Qed.
(* The service manager cannot be notified. *)
Example cannot_notify : exists s1 s2, exec (repeat (LMain true) 7) (ready three) = Some s1 /\ s_pc s1 = MNotify /\
  exec ([LMain false; LMain true; LThread 0 Enter; LThread 0 Leave; LMain true; LMain true; LThread 1 Enter;
         LThread 1 Leave; LMain true; LMain true; LThread 2 Enter; LThread 2 Leave; LMain true; LMain true]) s1 = Some s2 /\
  s_pc s2 = MExit 1.
Proof.
  do 2 eexists. split; [vm_compute; reflexivity|]. split; [reflexivity|].
  split; [vm_compute; reflexivity|]. reflexivity.
Qed.

(* ---- C71: privileges ---- *)

(* Started as root with drop_privileges, the process becomes the configured
   user, with nothing left of root. *)
Theorem dropped_completely y c s0 s : init y c s0 = (inl tt, s) -> euid (s_cred s0) = 0 -> c_drop c = true ->
  exists uid gid, y_user y (c_user c) = Some uid /\ y_group y (c_group c) = Some gid /\
    runs_as uid gid (gid :: y_members y (c_user c)) (s_cred s).
Proof.
  intros H R D. rewrite init_parts in H. apply seq_ok in H. destruct H as (s1 & H1 & H).
  apply seq_ok in H. destruct H as (s2 & H2 & H3).
  destruct (keeps_setup y c s0) as (K & _). rewrite H1 in K. cbn [snd] in K.
  assert (P : privileged (s_cred s1) = true) by (unfold privileged; rewrite K, R; auto).
  unfold dropping in H2. rewrite P, D in H2. cbn [andb when] in H2.
  destruct (drop_spec y c s1 P) as (A & _). rewrite H2 in A. cbn [fst snd] in A.
  destruct (A eq_refl) as (uid & gid & A1 & A2 & A3). apply ticket_ok in H3. destruct H3 as [B _].
  exists uid, gid. split; auto. split; auto. unfold runs_as. rewrite B, A3. reflexivity.
Qed.

(* This cannot be undone. *)
Theorem dropped_for_good uid gid gs c : runs_as uid gid gs c -> uid <> 0 -> forall l, after l c = c.
Proof.
  intros R U l. assert (P : privileged c = false) by (rewrite R; unfold privileged; cbn; apply Z.eqb_neq; auto).
  assert (T : forall a, try a c = c).
  { unfold runs_as in R. subst c. intros [u|g|gs']; unfold try, setuid, setgid, setgroups; rewrite P; auto; cbn.
    - destruct (Z.eqb_spec u uid) as [->|]; auto.
    - destruct (Z.eqb_spec g gid) as [->|]; auto. }
  unfold after. induction l as [|a l IH]; cbn; auto. rewrite T. auto.
Qed.

(* So requests are never served as root. *)
Theorem never_serves_as_root y c s0 tr s k : daemon y c s0 tr = (Some s, k) -> c_drop c = true ->
  y_user y (c_user c) <> Some 0 -> euid (s_cred k) <> 0 /\
  (euid (s_cred s0) = 0 -> forall l, euid (after l (s_cred k)) <> 0).
Proof.
  unfold daemon. destruct (init y c s0) as [[[]|e] k'] eqn:I; [|discriminate]. intros [= _ <-] D U.
  destruct (Z.eq_dec (euid (s_cred s0)) 0) as [E|E].
  - destruct (dropped_completely _ _ _ _ I E D) as (uid & gid & A & _ & R).
    assert (uid <> 0) by congruence. split; [rewrite R; auto|]. intros _ l.
    rewrite (dropped_for_good _ _ _ _ R); auto. rewrite R. auto.
  - split; [|contradiction]. rewrite init_parts in I. apply seq_ok in I. destruct I as (s1 & H1 & H).
    apply seq_ok in H. destruct H as (s2 & H2 & H3).
    destruct (keeps_setup y c s0) as (K & _). rewrite H1 in K. cbn [snd] in K.
    unfold dropping in H2. replace (privileged (s_cred s1)) with false in H2.
    2: { unfold privileged. rewrite K. symmetry. apply Z.eqb_neq. auto. }
    injection H2 as <-. apply ticket_ok in H3. destruct H3 as [-> _]. congruence.
Qed.

(* The sockets are bound before, also when something fails: ports below 1024
   can be used.  The ticket given by --ticket is read after. *)
Theorem privileges_when_needed y c s0 r s : init y c s0 = (r, s) -> s_log s0 = [] ->
  euid (s_cred s0) = 0 -> c_drop c = true -> forall e k, In (e, k) (s_log s) ->
  (is_bind e = true -> k = s_cred s0) /\
  (forall t, e = ETicket t -> exists uid gid, y_user y (c_user c) = Some uid /\
     runs_as uid gid (gid :: y_members y (c_user c)) k).
Proof.
  intros H L R D e k IN. rewrite init_parts in H. unfold seq in H. unfold bind at 1 in H.
  destruct (keeps_setup y c s0) as (K & l1 & K1 & K2). rewrite L, app_nil_r in K1.
  assert (X : forall l, Forall (fun e => setting_up (fst e) = true /\ snd e = s_cred s0) l -> In (e, k) l ->
     (is_bind e = true -> k = s_cred s0) /\ (forall t, e <> ETicket t)).
  { intros l F J. rewrite Forall_forall in F. destruct (F _ J) as [F1 F2]. cbn in F1, F2. split; auto.
    intros t ->. discriminate. }
  destruct (setup y c s0) as [[[]|x] s1]; cbn [snd] in *.
  2: { injection H as <- <-. rewrite K1 in IN. destruct (X _ K2 IN) as [X1 X2]. split; auto. intros t T. destruct (X2 t T). }
  assert (P : privileged (s_cred s1) = true) by (unfold privileged; rewrite K, R; auto).
  unfold bind, dropping in H. rewrite P, D in H. cbn [andb when] in H.
  destruct (drop_spec y c s1 P) as (A & l2 & A1 & A2). rewrite K1 in A1.
  assert (Y : In (e, k) (s_log (snd (drop_privileges y c s1))) ->
     (is_bind e = true -> k = s_cred s0) /\ (forall t, e <> ETicket t)).
  { rewrite A1. intros J. apply in_app_iff in J. destruct J as [J|J]; [|eauto].
    rewrite Forall_forall in A2. destruct (A2 _ J) as [B1 B2]. cbn in B1, B2. split; auto. congruence. }
  destruct (drop_privileges y c s1) as [[[]|x] s2]; cbn [fst snd] in *.
  2: { injection H as <- <-. destruct (Y IN) as [X1 X2]. split; auto. intros t T. destruct (X2 t T). }
  unfold ticketing in H. destruct (c_ticket c) as [t|].
  2: { injection H as <- <-. destruct (Y IN) as [X1 X2]. split; auto. intros t T. destruct (X2 t T). }
  destruct (A eq_refl) as (uid & gid & B1 & B2 & B3).
  assert (LG : s_log s = (ETicket t, s_cred s2) :: s_log s2).
  { unfold add_ticket, call in H. destruct (y_fail y (s_calls s2)); injection H as <- <-; auto. }
  rewrite LG in IN. destruct IN as [IN|IN].
  - injection IN as <- <-. split; [discriminate|]. intros t' _. exists uid, gid. split; [exact B1|exact B3].
  - destruct (Y IN) as [X1 X2]. split; auto. intros t' T. destruct (X2 t' T).
Qed.

(* Otherwise the process stays what it was, and changes no owner. *)
Theorem privileges_kept y c s0 r s : init y c s0 = (r, s) -> s_log s0 = [] ->
  euid (s_cred s0) <> 0 \/ c_drop c = false ->
  s_cred s = s_cred s0 /\ forall e k, In (e, k) (s_log s) -> changes_owner e = false.
Proof.
  intros H L R. rewrite init_parts in H. unfold seq in H. unfold bind at 1 in H.
  destruct (keeps_setup y c s0) as (K & l1 & K1 & K2). rewrite L, app_nil_r in K1.
  assert (X : forall e k, In (e, k) l1 -> changes_owner e = false).
  { intros e k J. rewrite Forall_forall in K2. destruct (K2 _ J) as [F1 _]. destruct e; auto; discriminate. }
  destruct (setup y c s0) as [[[]|x] s1]; cbn [snd] in *.
  2: { injection H as <- <-. split; auto. rewrite K1. exact X. }
  unfold bind, dropping in H. replace (privileged (s_cred s1) && c_drop c) with false in H.
  2: { symmetry. rewrite K. unfold privileged. destruct R as [R| ->]; [|apply andb_false_r].
       apply andb_false_iff. left. apply Z.eqb_neq. auto. }
  cbn [when ret] in H. unfold ticketing in H. destruct (c_ticket c) as [t|].
  - unfold add_ticket, call in H. destruct (y_fail y (s_calls s1)); injection H as <- <-; cbn [s_cred s_log];
      (split; [auto|]); rewrite K1; intros e k [J|J]; try (injection J as <- _; reflexivity); eauto.
  - injection H as <- <-. split; auto. rewrite K1. exact X.
Qed.

(* The control socket can be used by the daemon's user and group only. *)
Theorem control_socket_owner y c s0 s p : init y c s0 = (inl tt, s) ->
  c_control c = true -> c_transport c = Unix -> c_control_socket c = Path p ->
  exists m, s_files s p = Some m /\ m_mode m = 6 * 64 + 6 * 8 /\
    m_uid m = euid (s_cred s) /\ m_gid m = egid (s_cred s).
Proof.
  intros H C T P. rewrite init_parts in H. apply seq_ok in H. destruct H as (s1 & H1 & H).
  apply seq_ok in H. destruct H as (s2 & H2 & H3).
  destruct (keeps_setup y c s0) as (K & _). rewrite H1 in K. cbn [snd] in K.
  pose proof (setup_control y c p s0 s1 H1 C T P) as A.
  apply ticket_ok in H3. destruct H3 as [-> ->].
  unfold dropping in H2. destruct (privileged (s_cred s1) && c_drop c) eqn:D; cbn [when] in H2.
  - apply andb_true_iff in D. destruct D as [D1 D2].
    destruct (drop_control y c p s1 s2 H2 D1 C T P _ A) as (uid & gid & U & G & F).
    destruct (drop_spec y c s1 D1) as (B & _). rewrite H2 in B. cbn [fst snd] in B.
    destruct (B eq_refl) as (uid' & gid' & U' & G' & E). rewrite E.
    eexists. split; [exact F|]. cbn. split; [reflexivity|]. split; congruence.
  - injection H2 as <-. eexists. split; [exact A|]. cbn. split; [reflexivity|]. rewrite K. auto.
Qed.

Definition root_start : st := St (Cred 0 0 0 0 0 0 [0]) (fun q => if String.eqb q "/run/ovirt-imageio" then Some (Meta 0 0 493)
  else if String.eqb q "/var/log/daemon.log" then Some (Meta 0 0 420) else None) 0 [].
Definition sys_example : system := System (fun u => if String.eqb u "ovirtimg" then Some 36 else None)
  (fun g => if String.eqb g "ovirtimg" then Some 36 else None) (fun _ => [107; 179]) 493 (fun _ => false).
Definition conf_example (port : Z) (sock : sockaddr) : config :=
  Config port true true true (Abstract "imageio") true Unix 54324 sock true "ovirtimg" "ovirtimg"
    "/run/ovirt-imageio" ["/var/log/daemon.log"%string] (Some "/tmp/ticket"%string).

Example dropped_example : exists s, init sys_example (conf_example 443 (Path "/run/ovirt-imageio/sock")) root_start = (inl tt, s) /\
  s_cred s = Cred 36 36 36 36 36 36 [36; 107; 179] /\
  s_files s "/run/ovirt-imageio/sock"%string = Some (Meta 36 36 432) /\
  map fst (rev (s_log s)) = [EBindTcp 443; EBindAbstract; EBindPath "/run/ovirt-imageio/sock";
    EChmod "/run/ovirt-imageio/sock" 432; EChown "/run/ovirt-imageio" 36 36; EChown "/var/log/daemon.log" 36 36;
    EChown "/run/ovirt-imageio/sock" 36 36; ESetgroups [36; 107; 179]; ESetgid 36; ESetuid 36; ETicket "/tmp/ticket"].
Proof. eexists. split; [vm_compute; reflexivity|]. repeat split; reflexivity. Qed.
Example kept_example : exists s, init sys_example (conf_example 54322 (Path "/run/ovirt-imageio/sock"))
    (St (Cred 1000 1000 1000 1000 1000 1000 [1000]) (fun _ => None) 0 []) = (inl tt, s) /\ euid (s_cred s) = 1000.
Proof. eexists. split; [vm_compute; reflexivity|]. reflexivity. Qed.
Example served_example : exists s k, daemon sys_example (conf_example 443 (Path "/run/ovirt-imageio/sock")) root_start
  (begin ++ [LMain true; LMain true]) = (Some s, k) /\ y_user sys_example "ovirtimg" <> Some 0 /\ Forall alive (s_svcs s).
Proof.
  do 2 eexists. split; [vm_compute; reflexivity|]. split; [discriminate|]. repeat constructor; discriminate.
Qed.

(* ---- C72: what the daemon accepts ---- *)

(* A usable configuration starts. *)
Theorem starts_partial y c s : usable_config y c s -> exists s', init y c s = (inl tt, s').
Proof.
  intros (A1 & A2 & A3 & A4 & NF). destruct (setup_run y NF c s A1 A2 A3) as (s1 & H1 & G1 & F1).
  rewrite init_parts, (seq_run _ _ _ _ H1).
  assert (D : exists s2, dropping y c s1 = (inl tt, s2)).
  { unfold dropping. destruct (privileged (s_cred s1)) eqn:P; [|eexists; reflexivity].
    destruct (c_drop c) eqn:D; [|eexists; reflexivity]. cbn [andb when].
    assert (E : euid (s_cred s) = 0).
    { destruct G1 as [G1 _]. rewrite G1 in P. apply Z.eqb_eq. exact P. }
    destruct (A4 eq_refl E) as ((u & U) & (g & G) & L). eapply drop_run; eauto.
    - eapply Forall_impl; [|exact L]. intros q. apply G1.
    - intros C T. specialize (A3 C). rewrite T in A3. destruct A3 as [p A3]. exists p. split; auto. }
  destruct D as (s2 & D). rewrite (seq_run _ _ _ _ D). unfold ticketing. destruct (c_ticket c) as [t|]; [|eexists; reflexivity].
  unfold add_ticket, call. rewrite NF. eexists. reflexivity.
Qed.

(* There is one service for each socket that was bound: remote always, local
   and control if they are enabled. *)
Theorem one_service_per_socket y c s0 s k : daemon y c s0 [] = (Some s, k) -> s_log s0 = [] ->
  List.length (s_svcs s) = List.length (filter (fun e => is_bind (fst e)) (s_log k)) /\
  List.length (s_svcs s) = (1 + (if c_local c then 1 else 0) + (if c_control c then 1 else 0))%nat.
Proof.
  unfold daemon. destruct (init y c s0) as [[[]|e] k'] eqn:H; [|discriminate]. intros E L.
  injection E as <- ->. cbn [exec ready s_svcs].
  assert (N : List.length (services c) = (1 + (if c_local c then 1 else 0) + (if c_control c then 1 else 0))%nat).
  { unfold services. destruct (c_local c), (c_control c); reflexivity. }
  split; [|exact N]. rewrite N. clear N. rewrite init_parts in H.
  apply seq_ok in H as (s1 & H1 & H). apply seq_ok in H as (s2 & H2 & H3).
  set (B := fun l : list (event * cred) => List.length (filter (fun e => is_bind (fst e)) l)).
  assert (C : forall ev eff a b, call y ev eff a = (inl tt, b) -> s_log b = (ev, s_cred a) :: s_log a).
  { intros ev eff a b. unfold call. destruct (if y_fail y (s_calls a) then None else _) as [[x f]|]; [|discriminate].
    intros X. injection X as <-. reflexivity. }
  assert (K3 : B (s_log k) = B (s_log s2)).
  { unfold ticketing in H3. destruct (c_ticket c); [|injection H3 as <-; reflexivity].
    apply C in H3. rewrite H3. reflexivity. }
  assert (K2 : B (s_log s2) = B (s_log s1)).
  { unfold dropping in H2. destruct (privileged (s_cred s1)) eqn:P; [|injection H2 as <-; reflexivity].
    destruct (c_drop c); [|injection H2 as <-; reflexivity]. cbn [andb when] in H2.
    destruct (drop_spec y c s1 P) as (_ & l & A & F). rewrite H2 in A. cbn [snd] in A. rewrite A.
    unfold B. rewrite filter_app, app_length. replace (List.length (filter _ l)) with 0%nat; auto.
    clear A. induction F as [|x l [X _] _ IH]; auto. cbn. rewrite X. exact IH. }
  fold (B (s_log k)). rewrite K3, K2. clear K2 K3 H2 H3.
  assert (U : forall a x z, bind_unix y a x = (inl tt, z) -> B (s_log z) = S (B (s_log x))).
  { intros a x z. unfold bind_unix. destruct a; intros X; apply C in X; rewrite X; reflexivity. }
  unfold setup in H1. apply seq_ok in H1 as (a & Ha & H1). apply seq_ok in H1 as (b & Hb & Hc).
  assert (Ka : B (s_log a) = 1%nat).
  { unfold remote_service in Ha. destruct (negb _); [discriminate|]. apply seq_ok in Ha as (d & Hd & Ha).
    apply C in Hd. destruct (c_tls c && negb (c_tls_files c)); [discriminate|]. injection Ha as <-.
    rewrite Hd, L. reflexivity. }
  assert (Kb : B (s_log b) = ((if c_local c then 1 else 0) + B (s_log a))%nat).
  { destruct (c_local c); cbn [when] in Hb; [apply U in Hb; rewrite Hb; reflexivity|injection Hb as <-; reflexivity]. }
  assert (Kc : B (s_log s1) = ((if c_control c then 1 else 0) + B (s_log b))%nat).
  { destruct (c_control c); cbn [when] in Hc; [|injection Hc as <-; reflexivity].
    unfold control_service in Hc. destruct (c_transport c).
    3: discriminate.
    all: first [ destruct (negb (valid_port _)); [discriminate|]; apply C in Hc; rewrite Hc; reflexivity
               | apply seq_ok in Hc as (d & Hd & Hc); apply U in Hd; cbn [Nat.add]; rewrite <- Hd;
                 unfold chmod in Hc; destruct (c_control_socket c); try discriminate; apply C in Hc; rewrite Hc; reflexivity ]. }
  lia.
Qed.
Print Assumptions one_service_per_socket.
Example service_count : exists s k, daemon sys_example (conf_example 443 (Path "/run/ovirt-imageio/sock")) root_start [] = (Some s, k) /\
  s_log root_start = [] /\ (1 < List.length (s_svcs s))%nat.
Proof. eexists _, _. split; [vm_compute; reflexivity|]. split; [reflexivity|]. cbn. lia. Qed.

(* Nothing else does; a wrong port is refused before anything is bound. *)
Theorem refuses_unusable y c s s' : init y c s = (inl tt, s') ->
  0 <= c_remote_port c <= 65534 /\ (c_tls c = true -> c_tls_files c = true) /\
  (c_control c = true ->
     match c_transport c with
     | Tcp => 0 <= c_control_port c <= 65534
     | Unix => exists p, c_control_socket c = Path p
     | OtherTransport => False
     end).
Proof.
  intros H. rewrite init_parts in H. apply seq_ok in H. destruct H as (s1 & H & _).
  assert (V : forall p, valid_port p = true -> 0 <= p <= 65534).
  { unfold valid_port. intros p. rewrite andb_true_iff, Z.leb_le, Z.ltb_lt. lia. }
  unfold setup in H. apply seq_ok in H. destruct H as (s2 & H1 & H).
  apply seq_ok in H. destruct H as (s3 & _ & H3). unfold remote_service in H1.
  destruct (valid_port (c_remote_port c)) eqn:P; [|discriminate]. cbn [negb] in H1. split; [auto|].
  apply seq_ok in H1. destruct H1 as (s4 & _ & H1). split.
  { intros T. rewrite T in H1. destruct (c_tls_files c); auto. discriminate. }
  intros C. rewrite C in H3. cbn [when] in H3. unfold control_service in H3. destruct (c_transport c).
  - destruct (valid_port (c_control_port c)) eqn:Q; [auto|discriminate].
  - apply seq_ok in H3. destruct H3 as (s5 & _ & H3). destruct (c_control_socket c); try discriminate. eauto.
  - discriminate.
Qed.
Theorem wrong_port_binds_nothing y c s : ~ tcp_port (c_remote_port c) -> init y c s = (inr InvalidConfig, s).
Proof.
  intros N. unfold init, remote_service, seq, bind. replace (valid_port (c_remote_port c)) with false; [reflexivity|].
  symmetry. unfold valid_port, tcp_port in *. apply andb_false_iff. rewrite Z.leb_gt, Z.ltb_ge. lia.
Qed.

(* Not true that every TCP port can be used: 65535 is refused. *)
Theorem last_port_refuted : exists y c s,
  tcp_port (c_remote_port c) /\ usable_config y (conf_example 65534 (Path "/run/ovirt-imageio/sock")) s /\
  c = conf_example 65535 (Path "/run/ovirt-imageio/sock") /\ fst (init y c s) = inr InvalidConfig.
Proof.
  exists sys_example, (conf_example 65535 (Path "/run/ovirt-imageio/sock")), root_start.
  split; [unfold tcp_port; cbn; lia|]. split; [|split; reflexivity].
  unfold usable_config. cbn. split; [lia|]. split; [auto|]. split; [eauto|]. split; [|auto].
  intros _ _. split; [eauto|]. split; [eauto|]. repeat constructor. vm_compute. discriminate.
Qed.
(* Nor that control.socket can be empty, for a random address: such an address
   has no mode. *)
Theorem random_control_socket_refuted : exists y c s,
  usable_config y (conf_example 54322 (Path "/run/ovirt-imageio/sock")) s /\
  c = conf_example 54322 Random /\ fst (init y c s) = inr ValueError.
Proof.
  exists sys_example, (conf_example 54322 Random), root_start. split; [|split; reflexivity].
  unfold usable_config. cbn. split; [lia|]. split; [auto|]. split; [eauto|]. split; [|auto].
  intros _ _. split; [eauto|]. split; [eauto|]. repeat constructor. vm_compute. discriminate.
Qed.

Example usable_example : usable_config sys_example (conf_example 443 (Path "/run/ovirt-imageio/sock")) root_start.
Proof.
  unfold usable_config. cbn. split; [lia|]. split; [auto|]. split; [eauto|]. split; [|auto].
  intros _ _. split; [eauto|]. split; [eauto|]. repeat constructor. vm_compute. discriminate.
Qed.
Example wrong_port_example : ~ tcp_port (c_remote_port (conf_example 70000 Random)).
Proof. unfold tcp_port. cbn. lia. Qed.

Print Assumptions exits_when_asked_partial.
Print Assumptions serves_until_asked.
Print Assumptions terminates_when_asked.
Print Assumptions signal_asks_partial.
Print Assumptions exit_status.
Print Assumptions notify_failure.
Print Assumptions term_lost_refuted.
Print Assumptions early_term_lost_refuted.
Print Assumptions services_left_refuted.
Print Assumptions dropped_completely.
Print Assumptions dropped_for_good.
Print Assumptions never_serves_as_root.
Print Assumptions privileges_when_needed.
Print Assumptions privileges_kept.
Print Assumptions control_socket_owner.
Print Assumptions starts_partial.
Print Assumptions refuses_unusable.
Print Assumptions wrong_port_binds_nothing.
Print Assumptions last_port_refuted.
Print Assumptions random_control_socket_refuted.
