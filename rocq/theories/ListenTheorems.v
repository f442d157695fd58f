(* A server that was started is reached at its address, and only there. *)
From Coq Require Import ZArith List Bool Lia Arith.
From Verif Require Import ListenModel ListenSpec ListenProofs.
Import ListNotations.
Open Scope Z_scope.

(* No socket of these servers is there at the start; files of earlier processes
   are other files. *)
Definition fresh (fs : name -> option node) : Prop := forall p s, fs p <> Some (Sock s).

Definition no_files : name -> option node := fun _ => None.
Lemma no_files_fresh : fresh no_files.
Proof. discriminate. Qed.

(* ---- unix sockets ---- *)

(* A client that uses the name in the configuration is answered by the server,
   as long as this is serving. *)
Theorem server_reached_partial fs tr w s given uuid :
  fresh fs -> orderly (init fs) tr w ->
  In (LCreate s given uuid) tr -> phase_of w s = Serving ->
  connect w (configured w s given) = Answered s /\
  (given <> [] -> configured w s given = given).
Proof.
  intros F R C S. destruct (oinv_run _ _ _ R (inv_init _ F) (oinv_init _)) as [I O].
  split; [|destruct given; [congruence|reflexivity]].
  assert (E : configured w s given = address w s).
  { pose proof (create_address _ _ _ _ _ _ (orderly_run _ _ _ R) C) as A.
    destruct given; [reflexivity|]. rewrite A. reflexivity. }
  rewrite E. unfold connect, knock. destruct (pathname (address w s)) eqn:P.
  - rewrite (o_path _ O _ S P), S. reflexivity.
  - rewrite (i_bound _ I s (or_introl S) P), S. reflexivity.
Qed.

(* A name never leads to a server that was not started for this name, whatever
   the order of the calls. *)
Theorem only_this_name fs tr w a s :
  fresh fs -> run (init fs) tr = Some w -> connect w a = Answered s \/ connect w a = Waits s ->
  created tr s a /\ phase_of w s <> Gone.
Proof.
  intros F R H. pose proof (inv_run _ _ _ (inv_init _ F) R) as I.
  assert (K : forall t, knock w t = Answered s \/ knock w t = Waits s ->
    t = s /\ (phase_of w s = Serving \/ phase_of w s = Stopping \/ phase_of w s = Stopped)).
  { intros t. unfold knock. destruct (phase_of w t) eqn:P; intros [X|X]; try discriminate; injection X as <-; rewrite P; auto. }
  assert (A : address w s = a /\ (phase_of w s = Serving \/ phase_of w s = Stopping \/ phase_of w s = Stopped)).
  { unfold connect in H. destruct (pathname a).
    - destruct (files w a) as [[t|f|]|] eqn:E; try (destruct H; discriminate).
      destruct (K t H) as [-> X]. destruct (i_sock _ I _ _ E) as (Y & _). auto.
    - destruct (abstract w a) as [t|] eqn:E; try (destruct H; discriminate).
      destruct (K t H) as [-> X]. destruct (i_abs _ I _ _ E) as (Y & _). auto. }
  destruct A as [A P]. split; [|intros Q; destruct P as [P|[P|P]]; congruence].
  destruct (run_created _ _ _ s R (or_introl eq_refl)) as [X|[X|(g & u & X)]]; try (destruct P as [P|[P|P]]; congruence).
  exists g, u. split; [exact X|]. rewrite <- A, (create_address _ _ _ _ _ _ R X). apply asked_new.
Qed.

(* After a shutdown, no client of a path waits for an answer. *)
Theorem path_never_waits_partial fs tr w a s :
  fresh fs -> run (init fs) tr = Some w -> is_path a -> connect w a <> Waits s.
Proof.
  intros F R P H. apply pathname_iff in P. pose proof (inv_run _ _ _ (inv_init _ F) R) as I.
  unfold connect in H. rewrite P in H. destruct (files w a) as [[t|f|]|] eqn:E; try discriminate.
  destruct (i_sock _ I _ _ E) as (_ & _ & [X|X]); unfold knock in H; rewrite X in H; discriminate.
Qed.

(* While a server shuts down, its path is gone. *)
Theorem shutdown_removes fs tr w s :
  fresh fs -> orderly (init fs) tr w -> is_path (address w s) -> phase_of w s = Stopping ->
  connect w (address w s) = NotFound.
Proof.
  intros F R P S. apply pathname_iff in P. destruct (oinv_run _ _ _ R (inv_init _ F) (oinv_init _)) as [I O].
  unfold connect. rewrite P, (o_stop _ O _ S P). reflexivity.
Qed.

(* Starting on a path works whatever file was left there. *)
Theorem start_on_path w s :
  phase_of w s = Created -> is_path (address w s) -> files w (address w s) <> Some Dir ->
  exists w', run w [LRemove s false; LBind s false] = Some w' /\ phase_of w' s = Serving /\
    connect w' (address w s) = Answered s /\ address w' s = address w s /\
    forall p, p <> address w s -> files w' p = files w p.
Proof.
  intros C P D. apply pathname_iff in P. cbn [run exec]. rewrite C, P.
  destruct (remove_cases w s false) as [(w1 & R & N & X & A & AD & Q & _)|(e & R)].
  - rewrite R. cbn [set_phase phase_of]. rewrite Nat.eqb_refl. unfold bind. cbn [set_phase address files].
    rewrite AD, P, N. eexists. split; [reflexivity|].
    cbn [set_phase set_file phase_of address files]. rewrite Nat.eqb_refl. split; [reflexivity|]. split; [|split].
    + unfold connect, knock. rewrite P. cbn [set_phase set_file phase_of address files].
      destruct (name_dec (address w s) (address w s)); [|congruence]. rewrite Nat.eqb_refl. reflexivity.
    + rewrite AD. reflexivity.
    + intros p M. destruct (name_dec p (address w s)); [congruence|]. apply X. exact M.
  - exfalso. unfold remove_socket, unlink in R. destruct (files w (address w s)) as [[t|f|]|]; congruence.
Qed.

(* A server that cannot be started does not disturb a server with the same
   abstract name. *)
Theorem abstract_name_kept fs tr w s t d w' :
  fresh fs -> run (init fs) tr = Some w ->
  phase_of w s = Serving -> ~ is_path (address w s) ->
  phase_of w t = Ready -> address w t = address w s -> exec w (LBind t d) = Some w' ->
  (exists e, phase_of w' t = Failed e) /\ connect w' (address w s) = Answered s.
Proof.
  intros F R S P T A E. pose proof (inv_run _ _ _ (inv_init _ F) R) as I.
  assert (P' : pathname (address w s) = false).
  { apply not_true_is_false. rewrite pathname_iff. exact P. }
  pose proof (i_bound _ I s (or_introl S) P') as B.
  assert (N : s <> t) by congruence.
  cbn [exec] in E. rewrite T in E.
  assert (X : exists e, w' = set_phase w t (Failed e)).
  { unfold bind in E. rewrite A, P', B in E. destruct d; injection E as <-; eauto. }
  destruct X as (e & ->). cbn [set_phase phase_of]. rewrite Nat.eqb_refl. split; [eauto|].
  unfold connect, knock. cbn [set_phase phase_of abstract files]. rewrite P', B.
  destruct (Nat.eqb_spec s t); [congruence|]. rewrite S. reflexivity.
Qed.

(* What a server does has no effect for the clients of other names. *)
Theorem other_names_unchanged fs tr w l w' s b :
  fresh fs -> run (init fs) tr = Some w -> exec w l = Some w' -> server_of l = Some s ->
  b <> address w s -> b <> address w' s -> connect w' b = connect w b.
Proof.
  intros F R E L N N'. pose proof (inv_run _ _ _ (inv_init _ F) R) as I.
  destruct (exec_same _ _ _ E) as [H G].
  assert (G' : files w' b = files w b /\ abstract w' b = abstract w b).
  { apply G. destruct l; cbn [server_of] in L; try discriminate; injection L as ->; try exact Logic.I;
      cbn [server_of]; intros s' [= <-]; exact N. }
  destruct G' as [G1 G2].
  assert (K : forall t, address w t = b -> knock w' t = knock w t).
  { intros t A. unfold knock. destruct (H t) as [-> _]; [rewrite L; congruence|reflexivity]. }
  unfold connect. rewrite G1, G2. destruct (pathname b).
  - destruct (files w b) as [[t|f|]|] eqn:X; try reflexivity. apply K. apply (i_sock _ I _ _ X).
  - destruct (abstract w b) as [t|] eqn:X; [|reflexivity]. apply K. apply (i_abs _ I _ _ X).
Qed.

(* The daemon is killed and started again; a client of the old name is answered
   by the new one, and a second service has a random name. *)
Definition SOCK : name := [47; 114; 117; 110].    (* "/run" *)
Definition restart : list label :=
  [LCreate 0 SOCK []; LRemove 0 false; LBind 0 false; LExit 0;
   LCreate 1 SOCK []; LRemove 1 false; LCreate 2 [] [55]; LBind 1 false; LRemove 2 false; LBind 2 false].

Example restart_orderly :
  exists w, orderly (init no_files) restart w /\ connect w SOCK = Answered 1 /\ connect w [0; 55] = Answered 2 /\
    configured w 2 [] = [0; 55].
Proof.
  eexists. split.
  { unfold restart. repeat (eapply o_step; [| reflexivity |]); [..|apply o_end]; try exact I;
      cbn [proper]; intros n A t L; apply asked_eq in A; subst n; destruct t as [|[|[|t]]]; cbn in L;
      try contradiction; vm_compute; discriminate. }
  vm_compute. repeat split.
Qed.

(* Two servers with one path: the first is not reached any more, and when it is
   shut down, the second is not reached either. *)
Theorem shared_path_refuted :
  exists tr w, run (init no_files) tr = Some w /\ (forall p n, ~ In (LEnv p n) tr) /\
    phase_of w 0%nat = Serving /\ connect w (address w 0%nat) = Answered 1 /\
    exists w', run w [LShutdownRemove 0 false; LShutdown 0] = Some w' /\
      phase_of w' 1%nat = Serving /\ connect w' (address w' 1%nat) = NotFound.
Proof.
  exists [LCreate 0 SOCK []; LRemove 0 false; LBind 0 false; LCreate 1 SOCK []; LRemove 1 false; LBind 1 false].
  eexists. split; [reflexivity|]. split; [cbn [In]; intuition discriminate|]. split; [reflexivity|]. split; [vm_compute; reflexivity|].
  eexists. split; [reflexivity|]. split; vm_compute; reflexivity.
Qed.

(* A file that is no socket is removed by the start of a server. *)
Theorem any_file_removed_refuted :
  exists fs tr w, fresh fs /\ fs SOCK = Some (Other 7) /\ orderly (init fs) tr w /\
    (forall p n, ~ In (LEnv p n) tr) /\ files w SOCK <> Some (Other 7).
Proof.
  exists (fun p => if name_dec p SOCK then Some (Other 7) else None), [LCreate 0 SOCK []; LRemove 0 false].
  eexists. split; [|split; [reflexivity|split; [|split]]].
  - intros p s. destruct (name_dec p SOCK); discriminate.
  - repeat (eapply o_step; [| reflexivity |]); [..|apply o_end]; try exact I;
      cbn [proper]; intros n A t L; cbn in L; contradiction.
  - cbn [In]. intuition discriminate.
  - vm_compute. discriminate.
Qed.

(* With an abstract name, clients are accepted by the kernel after the shutdown
   and wait. *)
Theorem abstract_waits_refuted :
  exists tr w, orderly (init no_files) tr w /\ phase_of w 0%nat = Stopped /\ connect w (address w 0%nat) = Waits 0.
Proof.
  exists [LCreate 0 [] [55]; LRemove 0 false; LBind 0 false; LShutdownRemove 0 false; LShutdown 0].
  eexists. split.
  { repeat (eapply o_step; [| reflexivity |]); [..|apply o_end]; try exact I;
      cbn [proper]; intros n A t L; cbn in L; contradiction. }
  split; vm_compute; reflexivity.
Qed.

(* The hypotheses of abstract_name_kept and start_on_path. *)
Example same_abstract_name :
  exists w, run (init no_files) [LCreate 0 [0; 9] []; LRemove 0 false; LBind 0 false; LCreate 1 [0; 9] []; LRemove 1 false] = Some w /\
    phase_of w 0%nat = Serving /\ ~ is_path (address w 0%nat) /\ phase_of w 1%nat = Ready /\ address w 1%nat = address w 0%nat /\
    exists w', exec w (LBind 1 false) = Some w' /\ phase_of w' 1%nat = Failed EADDRINUSE.
Proof.
  eexists. split; [reflexivity|]. split; [reflexivity|]. split; [intros (c & r & E & N); cbn in E; congruence|].
  split; [reflexivity|]. split; [reflexivity|]. eexists. split; reflexivity.
Qed.
Example stale_file_replaced :
  exists w, run (init (fun p => if name_dec p SOCK then Some (Other 7) else None)) [LCreate 0 SOCK []] = Some w /\
    phase_of w 0%nat = Created /\ is_path (address w 0%nat) /\ files w (address w 0%nat) = Some (Other 7).
Proof.
  eexists. split; [reflexivity|]. split; [reflexivity|]. split; [|vm_compute; reflexivity].
  exists 47, [114; 117; 110]. split; [reflexivity|lia].
Qed.
Example stopping_server :
  exists w, orderly (init no_files) [LCreate 0 SOCK []; LRemove 0 false; LBind 0 false; LShutdownRemove 0 false] w /\
    phase_of w 0%nat = Stopping /\ connect w SOCK = NotFound.
Proof.
  eexists. split.
  { repeat (eapply o_step; [| reflexivity |]); [..|apply o_end]; try exact I;
      cbn [proper]; intros n A t L; cbn in L; contradiction. }
  split; vm_compute; reflexivity.
Qed.

(* ---- TCP ---- *)

(* A server starts if the host has an address that is not link local.  It is
   bound to an address of the host with the wanted family and port, and the
   configuration gets the port. *)
Theorem tcp_starts resolve host port prefer kernel_port :
  (exists a p, tcp_server resolve host port prefer kernel_port = Some (a, p)) <-> exists a, usable resolve host a.
Proof.
  assert (S : forall l, sort_v4 l = [] -> l = []).
  { intros [|a l]; [reflexivity|]. unfold sort_v4. cbn [filter].
    destruct (family_eqb (fam a) V4); cbn [negb app]; [discriminate|]. intros H. apply app_eq_nil in H. destruct H; discriminate. }
  assert (SI : forall l a, In a (sort_v4 l) -> In a l).
  { intros l a. unfold sort_v4. rewrite in_app_iff, !filter_In. tauto. }
  unfold tcp_server, create_socket. split.
  - intros (a & p & H). destruct (find_addresses resolve host) as [|b l] eqn:E.
    + destruct prefer; discriminate.
    + exists b. apply find_addresses_iff. rewrite E. left. reflexivity.
  - intros (a & U). apply find_addresses_iff in U.
    destruct (if prefer then sort_v4 (find_addresses resolve host) else find_addresses resolve host) as [|b l] eqn:E.
    + exfalso. destruct prefer; [apply S in E|]; rewrite E in U; destruct U.
    + assert (B : In b (find_addresses resolve host)).
      { destruct prefer; [apply SI|]; rewrite E; left; reflexivity. }
      apply find_addresses_iff in B. destruct B as [B _]. unfold bind_host. destruct host as [|c r]; [eauto|].
      destruct (find (fun x => family_eqb (fam x) (fam b)) (resolve (c :: r))) eqn:X; [eauto|].
      exfalso. pose proof (find_none _ _ X b B) as Y. cbv beta in Y. destruct (fam b); discriminate.
Qed.

Theorem tcp_bound resolve host port prefer kernel_port a p :
  tcp_server resolve host port prefer kernel_port = Some (a, p) ->
  (host <> [] -> In a (resolve host)) /\ (host = [] -> ip a = 0) /\
  (port <> 0 -> p = port) /\ configured_port port (a, p) = p /\
  (exists b, usable resolve host b /\ fam b = fam a) /\
  (prefer = true -> (exists b, usable resolve host b /\ fam b = V4) -> fam a = V4) /\
  (prefer = false -> forall x b y, resolve (lookup_host host) = x ++ b :: y ->
     (forall c, In c x -> link_local c) -> ~ link_local b -> fam a = fam b).
Proof.
  unfold tcp_server, create_socket. intros H.
  destruct (if prefer then sort_v4 (find_addresses resolve host) else find_addresses resolve host) as [|b l] eqn:E; [discriminate|].
  destruct (bind_host resolve (fam b) host) as [a'|] eqn:B; [|discriminate]. injection H as -> <-.
  assert (FA : fam a = fam b).
  { unfold bind_host in B. destruct host; [injection B as <-; reflexivity|]. apply find_some in B. destruct B as [_ B].
    destruct (fam a), (fam b); try discriminate; reflexivity. }
  split; [|split; [|split; [|split; [|split; [|split]]]]].
  - intros N. unfold bind_host in B. destruct host; [congruence|]. apply find_some in B. tauto.
  - intros ->. injection B as <-. reflexivity.
  - intros N. destruct (Z.eqb_spec port 0); [congruence|reflexivity].
  - unfold configured_port. cbn [snd]. destruct (Z.eqb_spec port 0); reflexivity.
  - exists b. split; [|congruence]. apply find_addresses_iff.
    destruct prefer; [|rewrite E; left; reflexivity].
    assert (I : In b (sort_v4 (find_addresses resolve host))) by (rewrite E; left; reflexivity).
    unfold sort_v4 in I. rewrite in_app_iff, !filter_In in I. tauto.
  - intros -> (v & U & V). apply find_addresses_iff in U. unfold sort_v4 in E.
    destruct (filter (fun x => family_eqb (fam x) V4) (find_addresses resolve host)) as [|c m] eqn:X.
    + exfalso. assert (Y : In v (filter (fun x => family_eqb (fam x) V4) (find_addresses resolve host))).
      { apply filter_In. split; [exact U|]. rewrite V. reflexivity. }
      rewrite X in Y. destruct Y.
    + cbn [app] in E. injection E as -> _.
      assert (Y : In b (b :: m)) by (left; reflexivity). rewrite <- X in Y. apply filter_In in Y.
      rewrite FA. destruct (fam b); [reflexivity|]. destruct Y; discriminate.
  - intros -> x c y R X C. rewrite FA. f_equal. unfold find_addresses in E. rewrite R, filter_app in E.
    assert (Z : filter (fun x => negb (is_link_local x)) x = []).
    { clear - X. induction x as [|d x IH]; [reflexivity|]. cbn [filter].
      destruct (is_link_local d) eqn:L; cbn [negb].
      - apply IH. intros c H. apply X. right. exact H.
      - exfalso. assert (link_local d) as K by (apply X; left; reflexivity). apply link_local_iff in K. congruence. }
    rewrite Z in E. cbn [app filter] in E. destruct (is_link_local c) eqn:L; [apply link_local_iff in L; contradiction|].
    cbn [negb] in E. congruence.
Qed.

Theorem tcp_not_link_local_partial resolve host port prefer kernel_port a p :
  tcp_server resolve host port prefer kernel_port = Some (a, p) ->
  (forall b, In b (resolve host) -> fam b = fam a -> ~ link_local b) ->
  ~ link_local a.
Proof.
  intros H L. destruct (tcp_bound _ _ _ _ _ _ _ H) as (A & B & _). destruct host as [|c r].
  - specialize (B eq_refl). unfold link_local. rewrite B. destruct (fam a); lia.
  - apply L; [apply A; discriminate|reflexivity].
Qed.

(* The filter is not used for the address that is bound: a host with a link local
   address and another one of the same family. *)
Theorem tcp_link_local_refuted :
  exists resolve host a p, tcp_server resolve host 54322 false 0 = Some (a, p) /\ link_local a /\
    exists b, usable resolve host b.
Proof.
  exists (fun _ => [AI V6 (65152 * 2 ^ 112 + 1); AI V6 (8193 * 2 ^ 112 + 1)]), [104], (AI V6 (65152 * 2 ^ 112 + 1)), 54322.
  split; [vm_compute; reflexivity|]. split; [cbn [link_local fam ip]; lia|].
  exists (AI V6 (8193 * 2 ^ 112 + 1)). split; [right; left; reflexivity|]. cbn [link_local fam ip]. lia.
Qed.

Example tcp_case :
  tcp_server (fun _ => [AI V6 1; AI V4 2130706433]) [108] 0 true 40000 = Some (AI V4 2130706433, 40000) /\
  tcp_server (fun _ => [AI V6 1; AI V4 2130706433]) [108] 54322 false 40000 = Some (AI V6 1, 54322) /\
  tcp_server (fun _ => [AI V4 0]) [] 54322 false 40000 = Some (AI V4 0, 54322) /\
  tcp_server (fun _ => [AI V6 (65152 * 2 ^ 112 + 1)]) [108] 54322 false 40000 = None.
Proof. vm_compute. repeat (split; [reflexivity|]). reflexivity. Qed.

Print Assumptions server_reached_partial.
Print Assumptions only_this_name.
Print Assumptions path_never_waits_partial.
Print Assumptions shutdown_removes.
Print Assumptions start_on_path.
Print Assumptions abstract_name_kept.
Print Assumptions other_names_unchanged.
Print Assumptions shared_path_refuted.
Print Assumptions any_file_removed_refuted.
Print Assumptions abstract_waits_refuted.
Print Assumptions tcp_starts.
Print Assumptions tcp_bound.
Print Assumptions tcp_not_link_local_partial.
Print Assumptions tcp_link_local_refuted.
