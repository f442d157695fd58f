(* C91: termination signals during a copy. *)
From Coq Require Import ZArith List Bool Lia.
From Coq.Strings Require Import Byte.
From Verif Require Import BytesLib OpsModel ExtentsModel ClientIoModel ClientIoSpec ClientIoProofs ClientIoTheorems.
From Verif Require Import SignalModel SignalSpec SignalProofs.
Import ListNotations.
Open Scope Z_scope.

(* How copy() ends; when it raises TerminatedBySignal, this names the first
   signal, and the tool exits with the status a shell gives for it. *)
Theorem signal_reported :
  forall c f depth n d tr s b,
  exec c tr (init f depth n d) = Some s -> main (io s) = MDone b ->
  exists r, result s = Some r /\ (r = inl tt <-> b = true) /\
  (forall signo, r = inr (Terminated signo) -> first_signal f tr = Some signo /\ exit_status r = 128 + signo) /\
  (exit_status r = 0 -> (forall signo, first_signal f tr = Some signo -> 0 < signo) -> b = true) /\
  (b = true -> exit_status r = 0).
Proof.
  intros c f depth n d tr s b E M.
  assert (V : inv s) by (eapply exec_ind; eauto using step_inv, init_inv).
  destruct (v_done s V b M) as (_ & _ & r & R & B & T). pose proof (exec_flag _ _ _ _ E) as F. cbn [flag init] in F.
  assert (B' : r = inl tt <-> b = true) by (split; intros X; apply B; exact X).
  exists r. split; [auto|]. split; [exact B'|]. split; [|split].
  - intros signo ->. split; [rewrite <- F; auto|reflexivity].
  - intros X P. apply B'. destruct r as [[]|[signo|]]; auto; unfold exit_status in X; [|discriminate].
    rewrite (T signo eq_refl) in F. symmetry in F. apply P in F. lia.
  - intros X. apply B' in X. subst r. reflexivity.
Qed.
Print Assumptions signal_reported.

(* A copy succeeds after a signal only if no worker had anything left to start
   when the signal came: each took its STOP request and looked for signals.
   Missing from "a signal ends the copy": late_signal_refuted. *)
Theorem signal_ends_copy_partial :
  forall c f depth n d t1 s1 t2 s2 signo,
  exec c t1 (init f depth n d) = Some s1 -> first_signal f t1 = Some signo ->
  exec c t2 s1 = Some s2 -> main (io s2) = MDone true ->
  (forall k, main (io s1) <> MStart (S k)) /\
  forall i w, nth_error (workers (io s1)) i = Some w ->
    (w_state w = WFlush /\ checked s1 i = true) \/ w_state w = WClosing \/ w_state w = WDone.
Proof.
  intros c f depth n d t1 s1 t2 s2 signo E1 F E2 M.
  assert (V1 : inv s1) by (eapply exec_ind; eauto using step_inv, init_inv).
  pose proof (exec_flag _ _ _ _ E1) as FL. cbn [flag init] in FL. rewrite F in FL.
  assert (KEEP : forall t a b, inv a -> doomed a -> exec c t a = Some b -> inv b /\ doomed b).
  { intros t. induction t as [|e t IH]; intros a b V D X; cbn in X; [injection X as <-; auto|].
    destruct (step c e a) as [a'|] eqn:S; [|discriminate]. eapply IH; [| |exact X]; eauto using step_inv, step_doomed. }
  assert (ND : ~ doomed s1) by (intros D; destruct (KEEP _ _ _ V1 D E2) as [V2 D2]; exact (doomed_fails _ V2 D2 M)).
  assert (FN : flag s1 <> None) by congruence.
  split.
  - intros k X. apply ND. split; auto. right. right. left. eauto.
  - intros i w W. destruct (w_state w) as [| |r|r a b m| | | | | |] eqn:X; auto;
      try (exfalso; apply ND; split; auto; do 3 right; exists i, w; split; auto; right; unfold last_look; rewrite X; auto; fail).
    + left. split; auto. destruct (checked s1 i) eqn:CK; auto. exfalso. apply ND. split; auto. do 3 right. exists i, w. split; auto.
      right. unfold last_look. rewrite X, CK. discriminate.
    + exfalso.
      apply ND. split; auto.
      assert (Q : q_closed (q (io s1)) = true).
      { assert (C : forall t a, exec c t (init f depth n d) = Some a -> forall j y, nth_error (workers (io a)) j = Some y -> w_state y = WCancel -> q_closed (q (io a)) = true).
        { intros t. induction t as [|e t IH] using rev_ind; intros a X0.
          - injection X0 as <-. intros [|j] y Y; discriminate.
          - rewrite exec_snoc in X0. destruct (exec c t (init f depth n d)) as [a0|] eqn:E0; [|discriminate].
            apply cancel_closed with (1 := X0). exact (IH _ eq_refl). }
        eapply C; eauto. }
      destruct (v_closed s1 V1 Q) as [Y|Y]; auto.
    + exfalso. apply ND. split; auto. left. eapply v_failed; eauto.
Qed.
Print Assumptions signal_ends_copy_partial.

(* ---- nothing is started after the signal ---- *)

(* After a signal, only requests which a worker had started, after it looked
   for signals, are completed, at most one for each worker.  All other bytes of
   the destination stay as they are. *)
Theorem signal_stops_requests :
  forall c f depth n d t1 s1 t2 s2 signo,
  (forall r, In r (requests (f_plan c)) -> 0 <= r_start r /\ 0 <= r_length r) ->
  exec c t1 (init f depth n d) = Some s1 -> first_signal f t1 = Some signo ->
  exec c t2 s1 = Some s2 ->
  (exists is l, done (io s2) = done (io s1) ++ l /\ Forall2 (busy s1) is l /\ NoDup is) /\
  forall b, getb (dst (io s2)) b <> getb (dst (io s1)) b ->
    exists i r, busy s1 i r /\ r_start r <= b < r_start r + r_length r.
Proof.
  intros c f depth n d t1 s1 t2 s2 signo R E1 F E2.
  pose proof (exec_flag _ _ _ _ E1) as FL. cbn [flag init] in FL. rewrite F in FL.
  assert (PS : forall r, In (Put r) (f_plan c) -> sane r).
  { intros r I. apply R. clear R E1 E2. induction (f_plan c) as [|[x|k] l IH]; [destruct I| |];
      destruct I as [X|I]; try discriminate; cbn; auto. injection X as <-. now left. }
  assert (P0 : placed (io (init f depth n d))) by apply init_placed.
  assert (P1 : placed (io s1)) by (eapply exec_placed; eauto).
  assert (T : touched s1 s2).
  { eapply (exec_ind c (touched s1)); [|split; [apply ends_refl; congruence|split; [exact P1|auto]]|exact E2].
    intros e s s' X S. eapply step_touched; eauto. }
  destruct T as ((_ & is & l & D & F2 & ND & _) & _ & B). split; [exists is, l; auto|].
  intros b N. destruct (B b) as [X|X]; [congruence|exact X].
Qed.
Print Assumptions signal_stops_requests.

(* A signal that came before the copy: nothing is copied, and the copy does not
   succeed. *)
Theorem signal_before_copy :
  forall c signo depth n d tr s,
  (forall r, In r (requests (f_plan c)) -> 0 <= r_start r /\ 0 <= r_length r) ->
  exec c tr (init (Some signo) depth n d) = Some s ->
  done (io s) = [] /\ (forall b, getb (dst (io s)) b = getb d b) /\ main (io s) <> MDone true.
Proof.
  intros c signo depth n d tr s R E.
  assert (NB : forall i r, ~ busy (init (Some signo) depth n d) i r) by (intros [|i] r (_ & w & W & _); discriminate W).
  destruct (signal_stops_requests c (Some signo) depth n d [] _ tr s signo R eq_refl eq_refl E) as ((is & l & D & F2 & _) & B).
  split.
  - rewrite D. destruct F2 as [|i r ? ? X]; [reflexivity|]. destruct (NB _ _ X).
  - split.
    + intros b. destruct (Byte.byte_eq_dec (getb (dst (io s)) b) (getb d b)) as [X|X]; [exact X|].
      destruct (B b X) as (i & r & Y & _). destruct (NB _ _ Y).
    + intros M. destruct (signal_ends_copy_partial c (Some signo) depth n d [] _ tr s signo eq_refl eq_refl E M) as (X & _).
      cbn in X. exact (X _ eq_refl).
Qed.
Print Assumptions signal_before_copy.

(* Nothing else raises: then a copy that fails was terminated, and the tool
   exits with 128 and the first signal.  Missing: other exceptions, see
   other_error_refuted. *)
Theorem signal_status_partial :
  forall c f depth n d tr s,
  Forall quiet tr -> exec c tr (init f depth n d) = Some s -> main (io s) = MDone false ->
  exists signo, first_signal f tr = Some signo /\ result s = Some (inr (Terminated signo)) /\
    exit_status (inr (Terminated signo)) = 128 + signo.
Proof.
  intros c f depth n d tr s Q E M.
  assert (KEEP : forall t a b, Forall quiet t -> inv a -> only_signals a -> exec c t a = Some b -> only_signals b).
  { intros t. induction t as [|e t IH]; intros a b QT V O X; cbn in X; [injection X as <-; auto|].
    destruct (step c e a) as [a'|] eqn:S; [|discriminate]. inversion QT as [|? ? Q1 Q2]; subst.
    eapply IH; [exact Q2| | |exact X]; eauto using step_inv, step_only. }
  assert (O : only_signals s).
  { apply (KEEP tr (init f depth n d)); auto using init_inv.
    split; [intros x []|]. split; [intros [|i]; discriminate|]. split; [discriminate|]. split; [discriminate|]. intros b X. discriminate X. }
  destruct (signal_reported _ _ _ _ _ _ _ _ E M) as (r & R & B & T & _).
  destruct O as (_ & _ & _ & _ & O). destruct (O _ M) as (r' & R' & NO). rewrite R in R'. injection R' as <-.
  destruct r as [[]|[signo|]]; [discriminate (proj1 B eq_refl)| |congruence].
  exists signo. destruct (T signo eq_refl). auto.
Qed.
Print Assumptions signal_status_partial.

(* Together: a signal came while a worker had something left to start, and
   nothing else raises: then the copy ends with this status. *)
Theorem signal_terminates_partial :
  forall c f depth n d t1 s1 t2 s2 b signo i w,
  exec c t1 (init f depth n d) = Some s1 -> first_signal f t1 = Some signo ->
  nth_error (workers (io s1)) i = Some w ->
  (w_state w = WNew \/ w_state w = WIdle \/ has_request (w_state w) = true /\ (checked s1 i = false \/ w_state w <> WFlush)) ->
  exec c t2 s1 = Some s2 -> Forall quiet (t1 ++ t2) -> main (io s2) = MDone b ->
  result s2 = Some (inr (Terminated signo)).
Proof.
  intros c f depth n d t1 s1 t2 s2 b signo i w E1 F W X E2 Q M.
  assert (E : exec c (t1 ++ t2) (init f depth n d) = Some s2) by (rewrite exec_app, E1; exact E2).
  assert (FS : first_signal f (t1 ++ t2) = Some signo).
  { pose proof (exec_flag _ _ _ _ E1) as F1. cbn [flag init] in F1. pose proof (exec_flag _ _ _ _ E) as F2. cbn [flag init] in F2.
    rewrite <- F2. eapply exec_flag_some; [|exact E2]. congruence. }
  destruct b.
  - destruct (signal_ends_copy_partial _ _ _ _ _ _ _ _ _ _ E1 F E2 M) as (_ & L). specialize (L _ _ W).
    destruct X as [X|[X|(X & Y)]]; destruct L as [(L & L')|[L|L]]; try congruence; try (rewrite L in X; discriminate).
    destruct Y; congruence.
  - destruct (signal_status_partial _ _ _ _ _ _ _ Q E M) as (m & FM & R & _). congruence.
Qed.
Print Assumptions signal_terminates_partial.

(* The first error reported by a worker is the one copy() raises, unless the
   block of copy() itself raised. *)
Theorem first_error_raised :
  forall c f depth n d t1 s1 t2 s2 b x l,
  exec c t1 (init f depth n d) = Some s1 -> reported s1 = x :: l ->
  exec c t2 s1 = Some s2 -> ~ In (Run LMainFail) (t1 ++ t2) -> main (io s2) = MDone b ->
  b = false /\ result s2 = Some (inr x).
Proof.
  intros c f depth n d t1 s1 t2 s2 b x l E1 R E2 NF M.
  assert (J : forall t a a', ~ In (Run LMainFail) t -> not_aborting a -> exec c t a = Some a' -> not_aborting a').
  { intros t. induction t as [|e t IH]; intros a a' N O X; cbn in X; [injection X as <-; auto|].
    destruct (step c e a) as [y|] eqn:S; [|discriminate]. eapply IH; [| |exact X]; [intros I; apply N; now right|].
    eapply step_not_aborting; eauto. intros ->. apply N. now left. }
  assert (O1 : not_aborting s1).
  { eapply J; [|apply init_not_aborting|exact E1]. intros I. apply NF, in_or_app. auto. }
  assert (O2 : not_aborting s2) by (eapply J; [|exact O1|exact E2]; intros I; apply NF, in_or_app; auto).
  destruct (exec_reported _ _ _ _ E2) as [m G]. rewrite R in G. destruct O2 as (V2 & _ & _ & O2).
  specialize (O2 _ M). rewrite G in O2. split; [|exact O2].
  destruct (v_done s2 V2 b M) as (_ & _ & r & RR & B & _). rewrite O2 in RR. injection RR as <-.
  destruct b; auto. assert (X : @inr unit exn x = inl tt) by (apply B; reflexivity). discriminate X.
Qed.
Print Assumptions first_error_raised.

(* ---- a terminated copy ends ---- *)

(* With as many places in the queue as workers, a copy never hangs, with or
   without signals, and the number of steps that are not signals is bounded. *)
Theorem signal_copy_ends_partial :
  forall c f depth n d,
  (forall r, In r (requests (f_plan c)) -> r_op r <> STOP /\ 0 <= r_length r) -> 0 < f_buffer c ->
  (copy_workers n <= depth)%nat ->
  (forall tr s, exec c tr (init f depth n d) = Some s -> ~ finished (io s) ->
     exists e s', is_signal e = false /\ quiet e /\ step c e s = Some s') /\
  exists bound, forall tr s, exec c tr (init f depth n d) = Some s ->
    zlen (filter (fun e => negb (is_signal e)) tr) <= bound.
Proof.
  intros c f depth n d R B D. split.
  - intros tr s E NF. destruct (exec_io _ _ _ _ E) as [tr' X].
    destruct (copy_no_deadlock_partial c d depth n tr' (io s) (fun r I => proj1 (R r I)) D X NF) as (l & io' & FI & _ & ST).
    eapply enabled; eauto.
  - destruct (copy_steps_bounded c depth n d (fun r I => proj2 (R r I)) B) as [bound BD]. exists (2 * bound).
    intros tr s E. destruct (exec_count _ _ _ _ E) as (tr' & X & N). specialize (BD _ _ X).
    assert (L0 : looks (init f depth n d) = 0) by reflexivity. rewrite L0 in N.
    assert (L1 : 0 <= looks s) by apply unlooked_nonneg.
    assert (C : zlen (filter (fun e => negb (is_signal e)) tr) = others tr).
    { clear. induction tr as [|e tr IH]; [reflexivity|]. cbn [filter others]. destruct (is_signal e); cbn [negb]; [lia|rewrite zlen_cons; lia]. }
    lia.
Qed.
Print Assumptions signal_copy_ends_partial.

(* ---- cases ---- *)

(* One worker copies four bytes in two requests. *)
Definition case_c : config :=
  copy_config [x01; x02; x03; x04] Generic 4 false true true [ZeroExtent 0 2 false false; ZeroExtent 2 2 false false].
Definition case_i (f : option Z) : state := init f 16 1 [xff; xff; xff; xff].
Definition M0 : event := Run (LMain 0).
Definition W0 : event := Run (LWorker 0 0 (Answer true 0 None None)).

(* The worker copies the first request; SIGTERM comes, then SIGINT. *)
Definition case_1 : list event := [M0; M0; M0; M0; W0; W0; Check 0 true; Signal 15; Signal 2].
(* It completes this request, and gives up at the second. *)
Definition case_2 : list event := [W0; W0; Check 0 true; W0; W0; M0; M0; M0].

Example signal_terminates_case :
  exists s1 s2, exec case_c case_1 (case_i None) = Some s1 /\ exec case_c case_2 s1 = Some s2 /\
    Forall quiet (case_1 ++ case_2) /\
    busy s1 0 (Request COPY 0 2) /\ done (io s1) = [] /\ dst (io s1) = [xff; xff; xff; xff] /\
    done (io s2) = [Request COPY 0 2] /\ dst (io s2) = [x01; x02; xff; xff] /\
    main (io s2) = MDone false /\ result s2 = Some (inr (Terminated 15)) /\ exit_status (inr (Terminated 15)) = 143.
Proof.
  eexists. eexists. split; [vm_compute; reflexivity|]. split; [vm_compute; reflexivity|]. split; [repeat constructor|].
  split; [split; [reflexivity|]; eexists; split; [reflexivity|right; do 3 eexists; reflexivity]|]. repeat (split; [reflexivity|]). reflexivity.
Qed.

Example signal_before_copy_case :
  exists s, exec case_c [M0; M0; M0; M0; W0; W0; Check 0 true; W0; W0; M0; M0; M0] (case_i (Some 1)) = Some s /\
    dst (io s) = [xff; xff; xff; xff] /\ result s = Some (inr (Terminated 1)).
Proof. eexists. split; [vm_compute; reflexivity|]. split; reflexivity. Qed.

Example signal_copy_ends_case :
  (forall r, In r (requests (f_plan case_c)) -> r_op r <> STOP /\ 0 <= r_length r /\ 0 <= r_start r) /\
  (copy_workers 1 <= 16)%nat /\ requests (f_plan case_c) = [Request COPY 0 2; Request COPY 2 2].
Proof.
  split; [|split; [vm_compute; lia|reflexivity]].
  intros r I. cbn in I. destruct I as [<-|[<-|[]]]; cbn; repeat split; try lia; discriminate.
Qed.

(* A worker that fails before the signal: its error is the one reported. *)
Example first_error_raised_case :
  exists s1 s2, exec case_c [M0; M0; M0; M0; W0; W0; Check 0 true; Run (LWorker 0 0 (Answer false 0 None None)); W0] (case_i None) = Some s1 /\
    reported s1 = [Other] /\ exec case_c [Signal 15; W0; M0; M0; M0] s1 = Some s2 /\
    main (io s2) = MDone false /\ result s2 = Some (inr Other).
Proof. eexists. eexists. split; [vm_compute; reflexivity|]. split; [reflexivity|]. split; [vm_compute; reflexivity|]. split; reflexivity. Qed.

(* ---- what does not hold ---- *)

(* A signal that comes while the last worker flushes, or later, has no effect:
   the copy succeeds, and the tool exits with 0. *)
Theorem late_signal_refuted :
  exists c t1 t2 s1 s2, exec c t1 (case_i None) = Some s1 /\ (forall b, main (io s1) <> MDone b) /\
    exec c (Signal 15 :: t2) s1 = Some s2 /\ Forall quiet (t1 ++ t2) /\
    first_signal None (t1 ++ Signal 15 :: t2) = Some 15 /\
    main (io s2) = MDone true /\ exists r, result s2 = Some r /\ exit_status r = 0.
Proof.
  exists case_c, [M0; M0; M0; M0; M0; M0; M0; W0; W0; Check 0 true; W0; W0; Check 0 true; W0; W0; Check 0 true], [W0; W0; M0].
  eexists. eexists. split; [vm_compute; reflexivity|]. split; [intros b X; discriminate X|].
  split; [vm_compute; reflexivity|]. split; [repeat constructor|]. split; [reflexivity|]. split; [reflexivity|].
  eexists. split; reflexivity.
Qed.
Print Assumptions late_signal_refuted.

(* After a signal the copy gives up, but closing the connection of the worker
   fails: the tool exits with 1, like for any other error. *)
Theorem other_error_refuted :
  exists c t1 t2 s1 s2, exec c (t1 ++ [Signal 15]) (case_i None) = Some s1 /\
    exec c t2 s1 = Some s2 /\ Forall quiet t1 /\
    main (io s2) = MDone false /\ exists r, result s2 = Some r /\ exit_status r = 1.
Proof.
  exists case_c, [M0; M0; M0; M0; W0; W0; Check 0 true], [W0; W0; Check 0 false; W0; W0; M0; M0; M0].
  eexists. eexists. split; [vm_compute; reflexivity|]. split; [vm_compute; reflexivity|]. split; [repeat constructor|].
  split; [reflexivity|]. eexists. split; reflexivity.
Qed.
Print Assumptions other_error_refuted.
