(* Theorems about running qemu-nbd for uploads, downloads, checksums and
   extents of local images. *)
From Coq Require Import ZArith List Bool String Lia.
From Coq.Strings Require Import Byte.
From Verif Require Import BytesLib QemuNbdModel QemuNbdSpec QemuNbdProofs.
From Verif Require ClientIoModel.
Import ListNotations.
Open Scope Z_scope.

(* ---- waiting for the socket ---- *)

(* Waiting ends: with a clock that moves it sleeps no longer than the timeout,
   and connects once per step, and two times more. *)
Theorem waiting_bounded :
  forall e fuel timeout step s, 0 < step -> 0 <= timeout -> clock_ok e (s_clock s) timeout step ->
  timeout + step < step * Z.of_nat fuel ->
  let '(r, s') := wait_for_socket e fuel timeout step s in
  r <> inl None /\ exists l, s_log s' = l ++ s_log s /\ slept l <= timeout /\ attempts l * step < timeout + 2 * step.
Proof.
  intros e fuel timeout step s ST T CK F. unfold wait_for_socket, bind, now.
  destruct (wait_loop_ends e step timeout (s_clock s) ST fuel
      (St (s_calls s) (S (s_clock s)) (s_log s) (s_proc s)) CK (Nat.lt_succ_diag_r _) timeout) as (N & l & L & A & SL);
    cbn [s_clock s_log]; try lia.
  { destruct CK as [CK _]. lia. }
  destruct (wait_loop _ _ _ _ _) as [r s']. cbn [fst snd s_log] in *. split; [exact N|]. exists l.
  split; [exact L|]. lia.
Qed.
Print Assumptions waiting_bounded.

(* It tells that the socket is there only after connecting, and that it is not
   only when every attempt was refused and the time is over. *)
Theorem waiting_answer :
  forall e fuel timeout step s b s', wait_for_socket e fuel timeout step s = (inl (Some b), s') ->
  exists l, s_log s' = l ++ s_log s /\
  if b then exists l', l = (CConnect, AOk) :: l'
  else (forall a, In (CConnect, a) l -> a = ARefused) /\
       exists i, (i < s_clock s')%nat /\ e_now e (s_clock s) + timeout <= e_now e i.
Proof.
  intros e fuel timeout step s b s' E. unfold wait_for_socket, bind, now in E.
  match type of E with wait_loop e fuel ?d step ?s1 = _ =>
    destruct (wait_loop_log e step fuel d s1) as (l & L & _ & _ & _ & T & F) end.
  assert (CL : (S (s_clock s) <= s_clock s')%nat).
  { clear - E. revert E. generalize (e_now e (s_clock s) + timeout). intros d.
    assert (G : forall fuel s1, (s_clock s1 <= s_clock (snd (wait_loop e fuel d step s1)))%nat).
    { intros f0. induction f0 as [|n IH]; intros s1; [apply le_n|]. rewrite wait_loop_S. cbv zeta.
      destruct (e_answer e (s_calls s1)); try (cbn [snd s_clock]; lia).
      destruct (d <=? e_now e (s_clock s1)); [cbn [snd s_clock]; lia|].
      etransitivity; [|apply IH]. cbn [s_clock]. lia. }
    intros E. specialize (G fuel (St (s_calls s) (S (s_clock s)) (s_log s) (s_proc s))). rewrite E in G. exact G. }
  rewrite E in *. cbn [fst snd s_log] in *. exists l. split; [exact L|]. destruct b; auto.
  destruct (F eq_refl) as [F1 F2]. split; [exact F1|]. exists (pred (s_clock s')). split; [lia|exact F2].
Qed.
Print Assumptions waiting_answer.

(* The socket is not there at first. *)
Definition clock_ex : nat -> Z := fun i => 20 * Z.of_nat i.
Lemma clock_ex_ok a v d b : good_clock (Env a clock_ex v d b).
Proof. intros k. unfold clock_ok, clock_ex. cbn [e_now]. split; [lia|]. intros i _ _. unfold STEP. lia. Qed.
Definition late_env : env := Env (fun i => if Nat.ltb i 3 then ARefused else AOk) clock_ex [6; 0; 0] true false.
Example waiting_ex :
  let '(r, s) := wait_for_socket late_env 10 100 STEP initial in
  r = inl (Some true) /\
  s_log s = [(CConnect, AOk); (CSleep 20, AOk); (CConnect, ARefused); (CSleep 20, AOk); (CConnect, ARefused);
             (CSleep 20, AOk); (CConnect, ARefused)].
Proof. vm_compute. auto. Qed.
Example waiting_too_long_ex :
  let '(r, s) := wait_for_socket late_env 10 50 STEP initial in
  r = inl (Some false) /\ slept (s_log s) = 30 /\ attempts (s_log s) = 3.
Proof. vm_compute. auto. Qed.

(* ---- operations ---- *)

Definition enough_fuel (fuel : nat) : Prop := (502 <= fuel)%nat.
Lemma fuel_enough e fuel : good_clock e -> enough_fuel fuel -> enough e fuel 10000.
Proof. intros G F. split; [lia|]. split; [exact G|]. unfold enough_fuel, STEP in *. lia. Qed.

(* An operation ends. *)
Theorem operation_ends :
  forall e fuel o, good_clock e -> enough_fuel fuel -> result e fuel o <> inl None.
Proof. intros e fuel o G F. destruct (perform_spec e fuel o (fuel_enough e fuel G F)) as [(_ & N & _) _]. exact N. Qed.
Print Assumptions operation_ends.

(* Nothing is left behind, however the operation ends: no temporary directory,
   no process that was not reaped, no connection to the server.  Missing: see
   process_left_refuted. *)
Theorem nothing_left_partial :
  forall e fuel o, good_clock e -> enough_fuel fuel -> Forall polite (calls e fuel o) ->
  processes (calls e fuel o) = 0 /\ directories (calls e fuel o) = 0 /\ connections (calls e fuel o) = 0.
Proof.
  intros e fuel o G F P. destruct (perform_spec e fuel o (fuel_enough e fuel G F)) as [(C & _ & H & _) _].
  destruct (H P). auto.
Qed.
Print Assumptions nothing_left_partial.

Theorem server_connection_closed :
  forall e fuel o, good_clock e -> enough_fuel fuel -> connections (calls e fuel o) = 0.
Proof. intros e fuel o G F. destruct (perform_spec e fuel o (fuel_enough e fuel G F)) as [(C & _) _]. exact C. Qed.
Print Assumptions server_connection_closed.

(* Success means that the work was done; the work starts only with a server that
   accepted a connection. *)
Theorem success_means_work :
  forall e fuel o, good_clock e -> enough_fuel fuel ->
  (forall u, result e fuel o = inl (Some u) -> In (CWork, AOk) (calls e fuel o)) /\
  (forall a, In (CWork, a) (calls e fuel o) ->
     In (COpenNbd, AOk) (calls e fuel o) /\ In (CConnect, AOk) (calls e fuel o)).
Proof.
  intros e fuel o G F. destruct (perform_spec e fuel o (fuel_enough e fuel G F)) as [(_ & _ & _ & S & W & _) _].
  split; auto. intros [] E. auto.
Qed.
Print Assumptions success_means_work.

(* The proxy is used only when one is given, and the host cannot be reached. *)
Theorem proxy_only_when_needed :
  forall e fuel o a, good_clock e -> enough_fuel fuel -> In (COpenHttp true, a) (calls e fuel o) ->
  has_proxy o = true /\ (In (COpenHttp false, AOs) (calls e fuel o) \/ In (COpenHttp false, ARefused) (calls e fuel o)).
Proof.
  intros e fuel o a G F I. destruct (perform_spec e fuel o (fuel_enough e fuel G F)) as [(_ & _ & _ & _ & _ & P) _].
  exact (P a I).
Qed.
Print Assumptions proxy_only_when_needed.

(* An incremental download needs a qcow2 image; nothing is created otherwise. *)
Theorem incremental_needs_qcow2 :
  forall e fuel f fmt p mr mw, fmt <> "qcow2"%string ->
  let o := Download f fmt true p mr mw in result e fuel o = inr ValueError /\ calls e fuel o = [].
Proof.
  intros e fuel f fmt p mr mw N. cbv zeta. unfold result, calls. cbn [perform]. unfold download.
  destruct (String.eqb_spec fmt "qcow2"); [contradiction|]. auto.
Qed.
Print Assumptions incremental_needs_qcow2.

Definition fine_env : env := Env (fun _ => AOk) clock_ex [6; 0; 0] true false.
Definition ova : image_info := Info "qcow2" (Some 1536) (Some 65536).
Definition upload_ex : operation := Upload "vm.ova" false 8 4 ova true.
Definition cmd_ex : list opt :=
  [OExportName ""; OPersistent; OShared 5; OSocket "sock"; OReadOnly; OCache "none"; OAio "native";
   ODiscard "unmap"; ODetectZeroes "unmap"; OAllocationDepth;
   OImage (NFormat "qcow2" (NRange (NProtocol "file" "vm.ova") (Some 1536) (Some 65536)) false)].
Example upload_example :
  good_clock fine_env /\ result fine_env 502 upload_ex = inl (Some tt) /\
  Forall polite (calls fine_env 502 upload_ex) /\
  calls fine_env 502 upload_ex =
    [(CCloseHttp, AOk); (CRmtree, AOk); (CReap false, AOk); (CTerminate, AOk); (CWork, AOk); (COpenNbd, AOk);
     (CConnect, AOk); (CPopen cmd_ex, AOk); (CStat, AOk); (CVersion, AOk); (CMkdtemp, AOk); (CInfo, AOk);
     (COpenHttp false, AOk)].
Proof.
  assert (E : perform fine_env 502 upload_ex initial = (inl (Some tt), snd (perform fine_env 502 upload_ex initial))) by (vm_compute; reflexivity).
  split; [apply clock_ex_ok|]. split; [unfold result; rewrite E; reflexivity|].
  assert (C : calls fine_env 502 upload_ex =
    [(CCloseHttp, AOk); (CRmtree, AOk); (CReap false, AOk); (CTerminate, AOk); (CWork, AOk); (COpenNbd, AOk);
     (CConnect, AOk); (CPopen cmd_ex, AOk); (CStat, AOk); (CVersion, AOk); (CMkdtemp, AOk); (CInfo, AOk);
     (COpenHttp false, AOk)]) by (vm_compute; reflexivity).
  split; [|exact C]. rewrite C. repeat constructor.
Qed.

(* The host is unreachable, the proxy is used; the work fails, and the process
   has to be killed. *)
Definition bad_env : env :=
  Env (fun i => match i with 0%nat => AOs | 9%nat => AError | 10%nat => ATimeout | _ => AOk end) clock_ex [6; 0; 0] false false.
Definition proxied : operation := Upload "disk.raw" true 8 4 (Info "raw" None None) true.
Example failed_example :
  good_clock bad_env /\ result bad_env 502 proxied = inr OtherError /\ Forall polite (calls bad_env 502 proxied) /\
  In (COpenHttp true, AOk) (calls bad_env 502 proxied) /\ In (CWork, AError) (calls bad_env 502 proxied) /\
  In (CReap true, AOk) (calls bad_env 502 proxied).
Proof.
  split; [apply clock_ex_ok|]. split; [vm_compute; reflexivity|].
  remember (calls bad_env 502 proxied) as c eqn:C. vm_compute in C. subst c.
  split; [repeat constructor; right; reflexivity|]. cbn. tauto.
Qed.

(* A process is left running when connecting to it fails with an error other
   than "not there yet": start() raises, and nobody calls stop(). *)
Theorem process_left_refuted :
  exists e fuel o, good_clock e /\ enough_fuel fuel /\ result e fuel o = inr OSError /\
    processes (calls e fuel o) = 1 /\ (forall k a, ~ In (CReap k, a) (calls e fuel o)) /\
    ~ In (CTerminate, AOk) (calls e fuel o).
Proof.
  exists (Env (fun i => match i with 6%nat => AOs | _ => AOk end) clock_ex [6; 0; 0] true false), 502%nat, upload_ex.
  split; [apply clock_ex_ok|]. split; [unfold enough_fuel; lia|]. split; [vm_compute; reflexivity|].
  split; [vm_compute; reflexivity|].
  match goal with |- context [calls ?e ?f ?o] => remember (calls e f o) as c eqn:C end. vm_compute in C. subst c.
  split.
  - intros k a I. cbn in I. repeat (destruct I as [I|I]; [discriminate|]). exact I.
  - intros I. cbn in I. repeat (destruct I as [I|I]; [discriminate|]). exact I.
Qed.
Print Assumptions process_left_refuted.

(* A directory with a socket is left behind by a process that was not reaped in
   time after it was killed: the work was done, and the operation fails. *)
Theorem slow_kill_refuted :
  exists e fuel o, good_clock e /\ enough_fuel fuel /\ In (CWork, AOk) (calls e fuel o) /\
    result e fuel o = inr TimeoutExpired /\ processes (calls e fuel o) = 1.
Proof.
  exists (Env (fun i => match i with 9%nat => ATimeout | 10%nat => ATimeout | _ => AOk end) clock_ex [6; 0; 0] true false), 502%nat, upload_ex.
  split; [apply clock_ex_ok|]. split; [unfold enough_fuel; lia|].
  split; [|split; vm_compute; reflexivity].
  match goal with |- context [calls ?e ?f ?o] => remember (calls e f o) as c eqn:C end. vm_compute in C. subst c.
  cbn. tauto.
Qed.
Print Assumptions slow_kill_refuted.

(* ---- what is exposed ---- *)

(* The process shows the disk of the operation, read only unless it has to be
   written, to as many clients as needed.  Missing: member_format_refuted,
   member_chain_refuted. *)
Theorem exposes_disk_partial :
  forall fs decode e fuel o, good_clock e -> enough_fuel fuel -> supported o ->
  forall cmd a, In (CPopen cmd, a) (calls e fuel o) ->
  exists n, In (OImage n) cmd /\ (forall n', In (OImage n') cmd -> n' = n) /\ view fs decode n = disk fs decode o.
Proof.
  intros fs decode e fuel o G F S cmd a I.
  destruct (perform_spec e fuel o (fuel_enough e fuel G F)) as [_ ST].
  destruct (ST cmd a I) as (sock & depth & SO & DO & ->). exists (image_node (server_of o) (e_block e)).
  split; [apply command_has|]. split; [intros n' I'; exact (in_command _ _ _ _ _ _ SO _ DO I')|].
  destruct o as [f p mr mw i c|f fmt inc p mr mw|f i bm]; apply image_node_view.
  - exact S.
  - auto.
  - exact S.
Qed.
Print Assumptions exposes_disk_partial.

Theorem local_images_read_only :
  forall e fuel o, good_clock e -> enough_fuel fuel ->
  forall cmd a, In (CPopen cmd, a) (calls e fuel o) -> (In OReadOnly cmd <-> writes o = false).
Proof.
  intros e fuel o G F cmd a I. destruct (perform_spec e fuel o (fuel_enough e fuel G F)) as [_ ST].
  destruct (ST cmd a I) as (sock & depth & SO & DO & ->). split.
  - intros J. pose proof (in_command _ _ _ _ _ _ SO _ DO J) as R. destruct o; [reflexivity|discriminate R|reflexivity].
  - intros W. apply command_has. destruct o; [reflexivity|discriminate W|reflexivity].
Qed.
Print Assumptions local_images_read_only.

(* The options of the process.  Allocation depth is asked of versions that know
   it, for any format but raw; old versions are not used for an image without
   its backing files. *)
Lemma recent_ge a b c : tuple_ge [a; b; c] [5; 2; 0] = true <-> recent [a; b; c].
Proof.
  unfold recent. cbn [tuple_ge]. destruct (Z.eqb_spec a 5); [destruct (Z.eqb_spec b 2); [destruct (Z.eqb_spec c 0)|]|];
    (split; [intros E; exists a, b, c; split; [reflexivity|]; lia|intros (a' & b' & c' & [= <- <- <-] & H); try reflexivity; lia]).
Qed.
Theorem process_options :
  forall e fuel o a b c, good_clock e -> enough_fuel fuel -> e_version e = [a; b; c] ->
  forall cmd r, In (CPopen cmd, r) (calls e fuel o) ->
  (format_of o = "qcow2"%string -> alone o = true -> recent (e_version e)) /\
  (In OAllocationDepth cmd <-> recent (e_version e) /\ format_of o <> "raw"%string) /\
  (forall m, In (OCache m) cmd <-> m = if e_direct e then "none"%string else "writeback"%string) /\
  (forall m, In (OAio m) cmd <-> m = if e_direct e then "native"%string else "threads"%string) /\
  (forall m, In (ODiscard m) cmd <-> m = "unmap"%string) /\
  (forall m, In (ODetectZeroes m) cmd <-> m = "unmap"%string) /\
  (forall m, In (OBitmap m) cmd <-> bitmap_of o = Some m /\ m <> ""%string) /\
  (forall m, In (OExportName m) cmd <-> m = ""%string) /\
  (exists p, In (OSocket p) cmd) /\ (forall h, ~ In (OBind h) cmd) /\ (forall p, ~ In (OPort p) cmd) /\
  (forall n, In (OImage n) cmd -> reads_file (if e_block e then "host_device" else "file") (file_of o) n).
Proof.
  intros e fuel o a b c G F V cmd r I.
  destruct (perform_spec e fuel o (fuel_enough e fuel G F)) as [_ ST].
  destruct (ST cmd r I) as (sock & depth & SO & DO & ->). clear ST I.
  assert (SK : sock = [OSocket "sock"]) by (destruct o; injection SO as <-; reflexivity). subst sock. clear SO.
  assert (FM : v_fmt (server_of o) = format_of o) by (destruct o; reflexivity).
  assert (FI : v_image (server_of o) = file_of o) by (destruct o; reflexivity).
  assert (BC : format_of o = "qcow2"%string -> alone o = true -> negb (v_backing_chain (server_of o)) = true) by (destruct o; cbn; auto; discriminate).
  unfold depth_options in DO. rewrite FM in DO.
  split.
  { intros Q A. specialize (BC Q A). rewrite BC, Q in DO. cbn in DO. rewrite V. apply recent_ge.
    rewrite V in DO. destruct (tuple_ge [a; b; c] [5; 2; 0]); auto. discriminate. }
  assert (DD : (depth = [OAllocationDepth] /\ recent (e_version e) /\ format_of o <> "raw"%string) \/
               (depth = [] /\ ~ (recent (e_version e) /\ format_of o <> "raw"%string))).
  { rewrite V in *. destruct (tuple_ge [a; b; c] [5; 2; 0]) eqn:T.
    - apply recent_ge in T. destruct (String.eqb_spec (format_of o) "raw"); injection DO as <-; tauto.
    - assert (~ recent [a; b; c]) by (intros R; apply recent_ge in R; congruence).
      destruct (String.eqb (format_of o) "qcow2" && negb (v_backing_chain (server_of o))); [discriminate|].
      injection DO as <-. tauto. }
  clear DO.
  assert (K : command (server_of o) (e_direct e) (e_block e) [OSocket "sock"] depth =
    [OExportName ""; OPersistent; OShared (v_shared (server_of o)); OSocket "sock"] ++
    (if v_read_only (server_of o) then [OReadOnly] else []) ++
    [OCache (if e_direct e then "none" else "writeback"); OAio (if e_direct e then "native" else "threads");
     ODiscard "unmap"; ODetectZeroes "unmap"] ++
    (match bitmap_of o with Some b => given OBitmap b | None => [] end) ++ depth ++
    [OImage (image_node (server_of o) (e_block e))]).
  { unfold command, cache_of, aio_of. destruct o; destruct (e_direct e); reflexivity. }
  rewrite K. clear K.
  assert (BM : forall m, In (OBitmap m) (match bitmap_of o with Some b => given OBitmap b | None => [] end) <-> bitmap_of o = Some m /\ m <> ""%string).
  { intros m. destruct (bitmap_of o) as [b'|]; [|cbn; split; [tauto|intros [E _]; discriminate]].
    unfold given, truthy. destruct (String.eqb_spec b' ""); cbn [negb In]; split.
    - tauto.
    - intros [[= ->] N]. congruence.
    - intros [[= ->]|[]]. auto.
    - intros [[= ->] N]. auto. }
  assert (OB : forall x, In x (match bitmap_of o with Some b => given OBitmap b | None => [] end) -> exists m, x = OBitmap m).
  { intros x J. destruct (bitmap_of o) as [b'|]; [|destruct J]. unfold given in J. destruct (truthy b'); [|destruct J].
    destruct J as [<-|[]]. eauto. }
  assert (W : forall x, In x (if v_read_only (server_of o) then [OReadOnly] else []) -> x = OReadOnly).
  { intros x J. destruct (v_read_only (server_of o)); [|destruct J]. destruct J as [<-|[]]. auto. }
  assert (DP : forall x, In x depth -> x = OAllocationDepth).
  { intros x J. destruct DD as [(-> & _)|(-> & _)]; [destruct J as [<-|[]]; auto|destruct J]. }
  remember (match bitmap_of o with Some b => given OBitmap b | None => [] end) as bm.
  remember (if v_read_only (server_of o) then [OReadOnly] else []) as ro.
  repeat match goal with |- _ /\ _ => split end.
  - split.
    + intros J. rewrite !in_app_iff in J. destruct DD as [(_ & D)|(-> & _)]; auto. exfalso.
      destruct J as [J|[J|[J|[J|[J|J]]]]]; try (apply W in J; discriminate); try (apply OB in J; destruct J as [? J]; discriminate);
        cbn [In] in J; intuition discriminate.
    + intros D. destruct DD as [(-> & _)|(_ & N)]; [|tauto]. rewrite !in_app_iff. do 4 right. left. left. auto.
  - intros m. split.
    + intros J. rewrite !in_app_iff in J.
      destruct J as [J|[J|[J|[J|[J|J]]]]]; try (apply W in J; discriminate); try (apply OB in J; destruct J as [? J]; discriminate);
        try (apply DP in J; discriminate); cbn [In] in J; intuition congruence.
    + intros ->. rewrite !in_app_iff. do 2 right. left. left. auto.
  - intros m. split.
    + intros J. rewrite !in_app_iff in J.
      destruct J as [J|[J|[J|[J|[J|J]]]]]; try (apply W in J; discriminate); try (apply OB in J; destruct J as [? J]; discriminate);
        try (apply DP in J; discriminate); cbn [In] in J; intuition congruence.
    + intros ->. rewrite !in_app_iff. do 2 right. left. right. left. auto.
  - intros m. split.
    + intros J. rewrite !in_app_iff in J.
      destruct J as [J|[J|[J|[J|[J|J]]]]]; try (apply W in J; discriminate); try (apply OB in J; destruct J as [? J]; discriminate);
        try (apply DP in J; discriminate); cbn [In] in J; intuition congruence.
    + intros ->. rewrite !in_app_iff. do 2 right. left. right. right. left. auto.
  - intros m. split.
    + intros J. rewrite !in_app_iff in J.
      destruct J as [J|[J|[J|[J|[J|J]]]]]; try (apply W in J; discriminate); try (apply OB in J; destruct J as [? J]; discriminate);
        try (apply DP in J; discriminate); cbn [In] in J; intuition congruence.
    + intros ->. rewrite !in_app_iff. do 2 right. left. right. right. right. left. auto.
  - intros m. rewrite <- BM. split.
    + intros J. rewrite !in_app_iff in J.
      destruct J as [J|[J|[J|[J|[J|J]]]]]; try (apply W in J; discriminate); auto;
        try (apply DP in J; discriminate); cbn [In] in J; intuition discriminate.
    + intros J. rewrite !in_app_iff. do 3 right. left. auto.
  - intros m. split.
    + intros J. rewrite !in_app_iff in J.
      destruct J as [J|[J|[J|[J|[J|J]]]]]; try (apply W in J; discriminate); try (apply OB in J; destruct J as [? J]; discriminate);
        try (apply DP in J; discriminate); cbn [In] in J; intuition congruence.
    + intros ->. left. auto.
  - exists "sock"%string. do 3 right. left. auto.
  - intros h J. rewrite !in_app_iff in J.
    destruct J as [J|[J|[J|[J|[J|J]]]]]; try (apply W in J; discriminate); try (apply OB in J; destruct J as [? J]; discriminate);
      try (apply DP in J; discriminate); cbn [In] in J; intuition discriminate.
  - intros h J. rewrite !in_app_iff in J.
    destruct J as [J|[J|[J|[J|[J|J]]]]]; try (apply W in J; discriminate); try (apply OB in J; destruct J as [? J]; discriminate);
      try (apply DP in J; discriminate); cbn [In] in J; intuition discriminate.
  - intros n J. assert (n = image_node (server_of o) (e_block e)) as ->.
    { rewrite !in_app_iff in J.
      destruct J as [J|[J|[J|[J|[J|J]]]]]; try (apply W in J; discriminate); try (apply OB in J; destruct J as [? J]; discriminate);
        try (apply DP in J; discriminate); cbn [In] in J; intuition congruence. }
    unfold image_node. rewrite FI.
    repeat match goal with |- context [match ?x with Some _ => _ | None => _ end] => destruct x end;
    repeat match goal with |- context [if ?x then NFormat _ _ _ else _] => destruct x end; repeat constructor.
Qed.
Print Assumptions process_options.

Example exposes_example :
  supported upload_ex /\ In (CPopen cmd_ex, AOk) (calls fine_env 502 upload_ex) /\
  In (CPopen [OExportName ""; OPersistent; OShared 2; OSocket "sock"; OCache "writeback"; OAio "threads";
      ODiscard "unmap"; ODetectZeroes "unmap"; OImage (NFormat "raw" (NProtocol "file" "new.raw") false)], AOk)
    (calls (Env (fun _ => AOk) clock_ex [6; 0; 0] false false) 502 (Download "new.raw" "raw" false false 8 2)) /\
  recent (e_version fine_env) /\ ~ recent [4; 2; 0].
Proof.
  split; [right; right; auto|]. split; [vm_compute; tauto|]. split; [vm_compute; tauto|].
  split; [exists 6, 0, 0; split; [reflexivity|lia]|intros (a & b & c & [= <- <- <-] & H); lia].
Qed.

(* The disk of an OVA file in another format is not decoded: the bytes of the
   vmdk file are uploaded as if they were the disk. *)
Definition vmdk_decode (f : string) (b : list byte) (_ : bool) : list byte :=
  if String.eqb f "vmdk" then drop 2 b else b.
Theorem member_format_refuted :
  exists fs decode e fuel o cmd n, good_clock e /\ enough_fuel fuel /\
    result e fuel o = inl (Some tt) /\ In (CPopen cmd, AOk) (calls e fuel o) /\ In (OImage n) cmd /\
    view fs decode n = [x4b; x44; x01; x02] /\ disk fs decode o = [x01; x02].
Proof.
  exists (fun _ => [x00; x4b; x44; x01; x02]), vmdk_decode, fine_env, 502%nat,
    (Upload "vm.ova" false 8 4 (Info "vmdk" (Some 1) (Some 4)) true).
  do 2 eexists. split; [apply clock_ex_ok|]. split; [unfold enough_fuel; lia|]. split; [vm_compute; reflexivity|].
  split; [vm_compute; do 7 right; left; reflexivity|]. split; [do 10 right; left; reflexivity|].
  split; vm_compute; reflexivity.
Qed.
Print Assumptions member_format_refuted.

(* The backing file of an image in an OVA file is used although the caller asked
   for the image alone. *)
Theorem member_chain_refuted :
  exists e fuel o cmd n, good_clock e /\ enough_fuel fuel /\
    o = Upload "vm.ova" false 8 4 ova false /\ result e fuel o = inl (Some tt) /\
    In (CPopen cmd, AOk) (calls e fuel o) /\ In (OImage (NFormat "qcow2" n false)) cmd.
Proof.
  exists fine_env, 502%nat, (Upload "vm.ova" false 8 4 ova false). do 2 eexists.
  split; [apply clock_ex_ok|]. split; [unfold enough_fuel; lia|]. split; [reflexivity|]. split; [vm_compute; reflexivity|].
  split; [vm_compute; do 7 right; left; reflexivity|]. do 10 right; left; reflexivity.
Qed.
Print Assumptions member_chain_refuted.

(* ---- number of connections ---- *)

(* The copy never connects more often to the process than it allows; a copy with
   [n] workers.  Missing: no_workers_refuted. *)
Theorem process_connections_partial :
  forall e fuel o, good_clock e -> enough_fuel fuel ->
  forall cmd a k, In (CPopen cmd, a) (calls e fuel o) -> In (OShared k) cmd ->
  match o with
  | Upload _ _ mr mw _ _ => 1 <= Z.min mr mw -> forall c depth d tr s,
      ClientIoModel.exec c tr (ClientIoModel.init depth (Z.min mr mw) d) = Some s -> source_connections s <= k
  | Download _ _ _ _ mr mw => 1 <= Z.min mr mw -> forall c depth d tr s,
      ClientIoModel.exec c tr (ClientIoModel.init depth (Z.min mr mw) d) = Some s -> destination_connections s <= k
  | Local _ _ _ => 1 <= k
  end.
Proof.
  intros e fuel o G F cmd a k I J. destruct (perform_spec e fuel o (fuel_enough e fuel G F)) as [_ ST].
  destruct (ST cmd a I) as (sock & depth & SO & DO & ->).
  pose proof (in_command _ _ _ _ _ _ SO _ DO J) as K. cbn beta iota in K. subst k.
  destruct o as [f p mr mw i c|f fmt inc p mr mw|f i bm]; cbn [server_of nbd_server v_shared]; [| |lia].
  - intros N c0 dep d tr s E. apply copy_connections in E. lia.
  - intros N c0 dep d tr s E. apply copy_connections in E. lia.
Qed.
Print Assumptions process_connections_partial.

(* An upload uses no more connections to the server than the server wants. *)
Theorem upload_server_connections :
  forall max_writers max_workers c depth d tr s, 1 <= max_writers ->
  ClientIoModel.exec c tr (ClientIoModel.init depth (Z.min max_writers max_workers) d) = Some s ->
  destination_connections s <= max_writers.
Proof. intros mr mw c depth d tr s M E. apply copy_connections in E. lia. Qed.
Print Assumptions upload_server_connections.

Definition ok_answer : ClientIoModel.answer := ClientIoModel.Answer true 0 None None.
(* The main thread starts n workers, each of them connects. *)
Definition connect_all (n : nat) : list ClientIoModel.label :=
  repeat (ClientIoModel.LMain 0) n ++ map (fun i => ClientIoModel.LWorker i 0 ok_answer) (seq 0 n).
Definition copy_ex : ClientIoModel.config :=
  ClientIoModel.copy_config [x01] ClientIoModel.Generic 1 false true true [].

Example connections_example :
  exists s, ClientIoModel.exec copy_ex (connect_all 4) (ClientIoModel.init 32 (Z.min 8 4) []) = Some s /\
    source_connections s = 5 /\ destination_connections s = 4 /\ In (OShared 5) cmd_ex.
Proof. eexists. split; [vm_compute; reflexivity|]. split; [reflexivity|]. split; [reflexivity|]. vm_compute. tauto. Qed.

(* Without workers an upload needs two connections, and one is allowed. *)
Theorem no_workers_refuted :
  exists e fuel o cmd c tr s, good_clock e /\ enough_fuel fuel /\
    (exists f i ch, o = Upload f false 8 0 i ch) /\
    In (CPopen cmd, AOk) (calls e fuel o) /\ In (OShared 1) cmd /\
    ClientIoModel.exec c tr (ClientIoModel.init 32 (Z.min 8 0) []) = Some s /\ source_connections s = 2.
Proof.
  exists fine_env, 502%nat, (Upload "vm.ova" false 8 0 ova true). do 4 eexists.
  split; [apply clock_ex_ok|]. split; [unfold enough_fuel; lia|]. split; [eauto|].
  split; [vm_compute; do 7 right; left; reflexivity|]. split; [do 2 right; left; reflexivity|].
  split; [instantiate (2 := connect_all 1); instantiate (2 := copy_ex); vm_compute; reflexivity|]. reflexivity.
Qed.
Print Assumptions no_workers_refuted.

(* A download uses one connection more than the server wants, for the extents. *)
Theorem download_server_connections_refuted :
  exists max_readers max_workers c tr s, 1 <= max_readers /\
    ClientIoModel.exec c tr (ClientIoModel.init 32 (Z.min max_readers max_workers) []) = Some s /\
    source_connections s = max_readers + 1.
Proof.
  exists 8, 8, copy_ex, (connect_all 8). eexists. split; [lia|]. split; [vm_compute; reflexivity|]. reflexivity.
Qed.
Print Assumptions download_server_connections_refuted.
(* It is never more than one. *)
Theorem download_server_connections_partial :
  forall max_readers max_workers c depth d tr s, 1 <= max_readers ->
  ClientIoModel.exec c tr (ClientIoModel.init depth (Z.min max_readers max_workers) d) = Some s ->
  source_connections s <= max_readers + 1.
Proof. intros mr mw c depth d tr s M E. apply copy_connections in E. lia. Qed.
Print Assumptions download_server_connections_partial.
