(* Theorems about nbdutil.copy: C37. *)
From Coq Require Import ZArith List Bool Lia.
From Coq.Strings Require Import Byte.
From Verif Require Import BytesLib NbdModel ExtentsModel ExtentsSpec NbdCopyModel NbdCopySpec NbdCopyProofs.
Import ListNotations.
Open Scope Z_scope.

Lemma given_inv c d0 tr s : given c d0 -> exec c tr (init c d0) = Some s -> inv c d0 s /\ inv_d s.
Proof.
  intros ((E & HE & TR) & HB & HD & HS) X.
  pose proof (inv_init c E d0 HE TR HB HD HS) as I. split.
  - eapply exec_inv; eauto.
  - eapply exec_inv_d; eauto. intro W. discriminate W.
Qed.

(* An example: depth 1, buffers of 2 bytes, 3 bytes of data, 2 zeros, 1 byte. *)
Definition ex_src := [x01; x02; x03; x00; x00; x04].
Definition ex_exts := [Extent 3 0; Extent 2 3; Extent 1 0].
Definition ex_config := Config ex_src (map Some ex_exts) (buf_size 2 32 64) 1.
Definition ex_dst := [x09; x09; x09; x09; x09; x09].
Lemma ex_truthful : truthful ex_src ex_exts.
Proof.
  split; [repeat constructor; discriminate|]. split; [reflexivity|].
  intros i f A B. unfold ex_exts in A.
  repeat match goal with
  | H : at_byte (_ :: _) _ _ |- _ => inversion H; clear H; subst
  | H : at_byte [] _ _ |- _ => inversion H
  end; cbn in *; try discriminate.
  assert (K : i0 = 0 \/ i0 = 1) by lia. destruct K as [-> | ->]; reflexivity.
Qed.
Lemma ex_given : given ex_config ex_dst.
Proof. split; [exists ex_exts; split; [reflexivity|exact ex_truthful]|]. cbn. repeat split; lia. Qed.
Definition R := LReader true.
Definition W := LWriter true 0.
Definition ex_run := repeat R 5 ++ repeat W 3 ++ repeat R 10 ++ repeat W 3 ++ repeat R 6 ++ [W; R; W; W; R]
  ++ repeat W 5 ++ [R].

(* For every interleaving, and whatever fails: when copy() returns without an
   error the destination has the content of the source, everything was flushed,
   and the progress reported is the size. *)
Theorem nbd_copy_identical :
  forall c d0 tr s, given c d0 -> exec c tr (init c d0) = Some s -> s_r s = RDone true ->
  s_dst s = f_src c /\ s_clean s = true /\ s_progress s = zlen (f_src c).
Proof.
  intros c d0 tr s G X RS. destruct (given_inv _ _ _ _ G X) as [I _].
  destruct G as (_ & _ & HD & _). destruct (success c d0 HD s I RS) as (A & B & C). auto.
Qed.
Print Assumptions nbd_copy_identical.

Example nbd_copy_identical_case :
  exists s, exec ex_config ex_run (init ex_config ex_dst) = Some s /\ s_r s = RDone true
    /\ s_dst s = ex_src /\ s_progress s = 6.
Proof. eexists. split; [vm_compute; reflexivity|]. split; [reflexivity|]. split; reflexivity. Qed.

(* At any moment, also after failures: the size of the destination does not
   change, and every byte has its old value or that of the source; the bytes
   reported to progress are copied. *)
Theorem nbd_copy_never_wrong :
  forall c d0 tr s, given c d0 -> exec c tr (init c d0) = Some s ->
  zlen (s_dst s) = zlen d0 /\
  (forall i, 0 <= i < zlen d0 -> getb (s_dst s) i = getb d0 i \/ getb (s_dst s) i = getb (f_src c) i) /\
  (forall i, 0 <= i < s_progress s -> getb (s_dst s) i = getb (f_src c) i).
Proof.
  intros c d0 tr s G X. destruct (given_inv _ _ _ _ G X) as [(IA & _ & (C1 & C2 & C3 & C4)) _].
  destruct G as (_ & _ & HD & HS). rewrite HS. split; [assumption|]. split; [assumption|].
  intros i P. apply C3. unfold written. destruct (s_w s) as [|r|r| | |] eqn:WS; try assumption.
  destruct C4 as (l & GT & PR). destruct (put_prefix c HD s l r IA GT) as [((L & _) & _)|(-> & _)].
  - lia.
  - cbn. lia.
Qed.
Print Assumptions nbd_copy_never_wrong.

(* a write that fails in the middle *)
Example nbd_copy_never_wrong_case :
  exists s, exec ex_config (repeat R 5 ++ [W; LWriter false 1; W; W]) (init ex_config ex_dst) = Some s
    /\ s_w s = WDone /\ s_dst s = [x01; x09; x09; x09; x09; x09].
Proof. eexists. split; [vm_compute; reflexivity|]. split; reflexivity. Qed.

(* A call of a NBD client that raises is never lost: copy() does not return
   normally. *)
Theorem nbd_copy_failure_reported :
  forall c d0 tr1 l tr2 s1 s, given c d0 -> exec c tr1 (init c d0) = Some s1 -> raises l s1 ->
  exec c (l :: tr2) s1 = Some s -> s_r s <> RDone true.
Proof.
  intros c d0 tr1 l tr2 s1 s G X1 RA X. destruct (given_inv _ _ _ _ G X1) as [I _]. cbn [exec] in X.
  destruct (step c l s1) as [s2|] eqn:S2; [|discriminate].
  destruct G as (_ & HB & HD & _).
  assert (I2 : inv c d0 s2) by (eapply step_inv; eauto).
  apply (bad_not_success c d0).
  - eapply exec_inv; eauto.
  - eapply bad_exec; [|exact X]. eapply raises_bad; eauto.
Qed.
Print Assumptions nbd_copy_failure_reported.

(* the reader sees the error when it waits for a buffer *)
Example nbd_copy_failure_reported_case :
  exists s1 s, exec ex_config (repeat R 5 ++ [W]) (init ex_config ex_dst) = Some s1
    /\ raises (LWriter false 1) s1
    /\ exec ex_config ([LWriter false 1; W; W] ++ [R; R; R]) s1 = Some s /\ s_r s = RDone false.
Proof.
  do 2 eexists. split; [vm_compute; reflexivity|]. split; [split; [reflexivity|exact I]|].
  split; [vm_compute; reflexivity|]. reflexivity.
Qed.

Lemma nofail_exec c d0 tr s s' : 0 < f_buf c -> (0 < f_depth c)%nat -> inv c d0 s -> nofail s ->
  Forall fine tr -> exec c tr s = Some s' -> nofail s'.
Proof.
  intros HB HD. revert s. induction tr as [|l tr IH]; intros s I N F X; cbn [exec] in X.
  - injection X as <-. assumption.
  - destruct (step c l s) as [s1|] eqn:S1; [|discriminate]. inversion F as [|? ? F1 F2]; subst.
    apply (IH s1); auto.
    + eapply step_inv; eauto.
    + eapply nofail_step; eauto. intro RA. destruct l; cbn in F1, RA; destruct RA; congruence.
Qed.

(* If no call raises, copy() does not raise. *)
Theorem nbd_copy_no_false_failure :
  forall c d0 tr s, given c d0 -> Forall fine tr -> exec c tr (init c d0) = Some s -> s_r s <> RDone false.
Proof.
  intros c d0 tr s G F X. destruct (given_inv c d0 [] _ G eq_refl) as [I _]. destruct G as (_ & HB & HD & _).
  assert (N : nofail (init c d0)) by (repeat split; discriminate).
  apply (nofail_exec c d0 tr _ s HB HD I N F X).
Qed.
Print Assumptions nbd_copy_no_false_failure.

Example nbd_copy_no_false_failure_case : Forall fine ex_run.
Proof. repeat constructor. Qed.

(* Every run is finite: the number of steps is bounded, whatever fails. *)
Theorem nbd_copy_steps_bounded :
  forall c d0 tr s, given c d0 -> exec c tr (init c d0) = Some s ->
  zlen tr <= 10 * zlen (f_src c) + 2 * zlen (f_exts c) + 18.
Proof.
  intros c d0 tr s G X. destruct (given_inv c d0 [] _ G eq_refl) as [I _].
  destruct (given_inv _ _ _ _ G X) as [I' _]. destruct G as ((E & HE & TR) & HB & HD & HS).
  pose proof (exec_weight c d0 HB HD tr _ _ I X) as L. rewrite (weight_init c E d0 HE TR HD) in L.
  pose proof (weight_nonneg c d0 HD s I'). rewrite HE.
  assert (Q : zlen (map Some E) = zlen E) by (unfold zlen; rewrite map_length; reflexivity). rewrite Q. lia.
Qed.
Print Assumptions nbd_copy_steps_bounded.

Example nbd_copy_steps_bounded_case : zlen ex_run = 38 /\ 10 * zlen ex_src + 2 * zlen ex_exts + 18 = 84.
Proof. split; reflexivity. Qed.

(* While no call raises, some thread can run until copy() returned. *)
Theorem nbd_copy_no_deadlock_partial :
  forall c d0 tr s, given c d0 -> Forall fine tr -> exec c tr (init c d0) = Some s ->
  (forall l, fine l -> step c l s = None) -> s_r s = RDone true.
Proof.
  intros c d0 tr s G F X B. destruct (given_inv _ _ _ _ G X) as [I D].
  pose proof (nbd_copy_no_false_failure _ _ _ _ G F X) as NF.
  destruct (given_inv c d0 [] _ G eq_refl) as [I0 _]. destruct G as (_ & HB & HD & _).
  assert (N : nofail (init c d0)) by (repeat split; discriminate).
  pose proof (nofail_exec c d0 tr _ s HB HD I0 N F X) as (N1 & _).
  destruct (stuck c d0 HD s I D B) as [[[|] Q]|(Q & _)]; [assumption|contradiction|congruence].
Qed.
Print Assumptions nbd_copy_no_deadlock_partial.

(* both threads wait for each other during the copy: the reader for a buffer,
   the writer for a request *)
Example nbd_copy_no_deadlock_case :
  (exists s, exec ex_config (repeat R 5) (init ex_config ex_dst) = Some s
     /\ step ex_config R s = None /\ step ex_config W s <> None)
  /\ step ex_config W (init ex_config ex_dst) = None /\ step ex_config R (init ex_config ex_dst) <> None.
Proof.
  split.
  - eexists. split; [vm_compute; reflexivity|]. split; [vm_compute; reflexivity|]. vm_compute. discriminate.
  - split; [vm_compute; reflexivity|]. vm_compute. discriminate.
Qed.

Lemma completes_from c d0 n : given c d0 -> forall s tr, Forall fine tr -> exec c tr (init c d0) = Some s ->
  weight s <= Z.of_nat n -> exists tr' s', Forall fine tr' /\ exec c tr' s = Some s' /\ s_r s' = RDone true.
Proof.
  intro G. pose proof G as (_ & HB & HD & _).
  assert (EX : forall tr1 tr2 s0, exec c (tr1 ++ tr2) s0 = match exec c tr1 s0 with Some s1 => exec c tr2 s1 | None => None end).
  { induction tr1; intros; cbn [app exec]; [reflexivity|]. destruct (step c a s0); auto. }
  induction n as [|n IH]; intros s tr F X L.
  all: assert (CASE : (forall l, fine l -> step c l s = None) \/ exists l s1, fine l /\ step c l s = Some s1).
  1, 3: destruct (step c R s) eqn:SR; [right; exists R; eexists; split; [reflexivity|eassumption]|];
    destruct (step c W s) eqn:SW; [right; exists W; eexists; split; [reflexivity|eassumption]|];
    left; intros [ok|ok k] K; cbn in K; subst ok; [exact SR|];
    cbn in SW |- *; unfold writer_step in *; destruct (s_w s); auto; destruct (r_op r); discriminate.
  - destruct CASE as [B|(l & s1 & FL & S1)].
    + exists [], s. split; [constructor|]. split; [reflexivity|]. apply (nbd_copy_no_deadlock_partial c d0 tr); auto.
    + exfalso. destruct (given_inv _ _ _ _ G X) as [I _]. pose proof (weight_step c d0 HB HD l s s1 I S1).
      pose proof (weight_nonneg c d0 HD s1 (step_inv c d0 HB HD l s s1 I S1)). lia.
  - destruct CASE as [B|(l & s1 & FL & S1)].
    + exists [], s. split; [constructor|]. split; [reflexivity|]. apply (nbd_copy_no_deadlock_partial c d0 tr); auto.
    + destruct (given_inv _ _ _ _ G X) as [I _]. pose proof (weight_step c d0 HB HD l s s1 I S1).
      destruct (IH s1 (tr ++ [l])) as (tr' & s' & F' & X' & R').
      * apply Forall_app. split; [assumption|]. constructor; [assumption|constructor].
      * rewrite EX, X. cbn [exec]. rewrite S1. reflexivity.
      * lia.
      * exists (l :: tr'), s'. split; [constructor; assumption|]. split; [|assumption]. cbn [exec]. rewrite S1. assumption.
Qed.

(* ... and then it returns without an error. *)
Theorem nbd_copy_completes :
  forall c d0 tr s, given c d0 -> Forall fine tr -> exec c tr (init c d0) = Some s ->
  exists tr' s', Forall fine tr' /\ exec c tr' s = Some s' /\ s_r s' = RDone true /\ s_dst s' = f_src c.
Proof.
  intros c d0 tr s G F X. destruct (completes_from c d0 (Z.to_nat (weight s)) G s tr F X) as (tr' & s' & A & B & C); [lia|].
  exists tr', s'. repeat split; auto.
  assert (EX : forall tr1 tr2 s0, exec c (tr1 ++ tr2) s0 = match exec c tr1 s0 with Some s1 => exec c tr2 s1 | None => None end).
  { induction tr1; intros; cbn [app exec]; [reflexivity|]. destruct (step c a s0); auto. }
  apply (nbd_copy_identical c d0 (tr ++ tr') s'); auto. rewrite EX, X. assumption.
Qed.
Print Assumptions nbd_copy_completes.

(* The only way not to terminate: the writer failed while the reader waits for
   room in the full queue of requests. *)
Theorem nbd_copy_stuck :
  forall c d0 tr s, given c d0 -> exec c tr (init c d0) = Some s -> stuck_state c s ->
  finished s \/ (s_err s = true /\ s_w s = WDone /\ (f_depth c * 2 <= length (s_reqs s))%nat).
Proof.
  intros c d0 tr s G X B. destruct (given_inv _ _ _ _ G X) as [I D]. destruct G as (_ & HB & HD & _).
  destruct (stuck c d0 HD s I D (fun l _ => B l)) as [Q|(Q1 & Q2 & _ & Q3)]; auto.
Qed.
Print Assumptions nbd_copy_stuck.

(* What the servers are asked to do: all requests are inside of the export, in
   order and without gaps; writes are not larger than both servers accept. *)
Theorem nbd_copy_request_limits :
  forall c d0 tr s r block_size m1 m2, given c d0 -> f_buf c = buf_size block_size m1 m2 ->
  exec c tr (init c d0) = Some s -> In (Some r) (s_put s) ->
  0 <= r_offset r /\ r_offset r + r_length r <= zlen (f_src c) /\
  match r_op r with
  | WRITE => 0 < r_length r <= block_size /\ r_length r <= m1 /\ r_length r <= m2
  | ZERO => 0 < r_length r <= 2 ^ 30 /\ forall i, r_offset r <= i < r_offset r + r_length r -> getb (f_src c) i = x00
  | FLUSH => True
  end.
Proof.
  intros c d0 tr s r bs m1 m2 G HF X In. destruct (given_inv _ _ _ _ G X) as [(IA & _) _].
  assert (SH : exists p k, shape c (s_put s) p k).
  { destruct IA as (P & RO & _). unfold reader_ok in RO.
    destruct (s_r s) as [| | | | | | | | | |[|]]; try (do 2 eexists; apply RO).
    - destruct RO as [Q|[_ Q]]; eauto.
    - assumption. }
  destruct SH as (p & k & SH). apply in_split in In. destruct In as (l1 & l2 & EP). rewrite EP in SH.
  destruct G as (_ & HB & HD & _).
  apply shape_next in SH; auto. destruct SH as (q & j & SH & _). apply shape_snoc in SH; auto.
  destruct SH as [(r' & q' & E & O & (G1 & G2 & G3 & G4) & _)|[(E & _)|(E & _)]]; try discriminate.
  - injection E as <-. split; [assumption|]. split; [assumption|]. unfold buf_size in HF.
    destruct (r_op r); [repeat split; lia| |exact I]. destruct G4 as [G4 G5].
    split; [|assumption]. change (2 ^ 30) with MAX_ZERO. lia.
  - injection E as ->. cbn. pose proof (zlen_nonneg (f_src c)). repeat split; lia.
Qed.
Print Assumptions nbd_copy_request_limits.

Example nbd_copy_request_limits_case :
  exists s, exec ex_config ex_run (init ex_config ex_dst) = Some s
  /\ s_put s = [Some (Request WRITE 0 2 0); Some (Request WRITE 2 1 0); Some (Request ZERO 3 2 0);
                Some (Request WRITE 5 1 0); Some (Request FLUSH 0 0 0); None].
Proof. eexists. split; [vm_compute; reflexivity|]. reflexivity. Qed.

(* ---- what does not hold ---- *)

(* C37 says that copy() always terminates.  It does not: if the writer fails
   while the reader waits for room in the queue of requests, nobody takes a
   request any more, and the reader waits forever.  Four zero extents, depth 1. *)
Theorem nbd_copy_deadlock_refuted :
  exists c d0 tr s, given c d0 /\ exec c tr (init c d0) = Some s /\ stuck_state c s /\ ~ finished s.
Proof.
  exists (Config [x00; x00; x00; x00] (map Some [Extent 1 2; Extent 1 3; Extent 1 2; Extent 1 3]) 2 1).
  exists [x09; x09; x09; x09]. exists (repeat R 3 ++ [W] ++ repeat R 11 ++ [LWriter false 0; W; W]).
  eexists. split; [|split; [vm_compute; reflexivity|]].
  - split; [|cbn; repeat split; lia]. exists [Extent 1 2; Extent 1 3; Extent 1 2; Extent 1 3]. split; [reflexivity|].
    split; [repeat constructor; discriminate|]. split; [reflexivity|].
    intros i f A _. assert (K : forall j, getb [x00; x00; x00; x00] j = x00); [|apply K].
    intro j. change [x00; x00; x00; x00] with (zeros 4). apply getb_zeros.
  - split.
    + intros [[|]|[|] n]; vm_compute; reflexivity.
    + intros [b Q]. discriminate Q.
Qed.
Print Assumptions nbd_copy_deadlock_refuted.

(* If reading fails, copy() raises at once and leaves the writer thread waiting
   for a request that never comes. *)
Theorem nbd_copy_thread_leak_refuted :
  exists c d0 tr s, given c d0 /\ exec c tr (init c d0) = Some s /\ s_r s = RDone false
  /\ stuck_state c s /\ s_w s = WGet.
Proof.
  exists ex_config, ex_dst, (repeat R 3 ++ [LReader false]).
  eexists. split; [exact ex_given|]. split; [vm_compute; reflexivity|]. split; [reflexivity|]. split; [|reflexivity].
  intros [[|]|[|] n]; vm_compute; reflexivity.
Qed.
Print Assumptions nbd_copy_thread_leak_refuted.

(* Copying an empty export fails: extents() yields None. *)
Theorem nbd_copy_empty_refuted :
  exists tr s, Forall fine tr /\ exec (Config [] [None] 2 1) tr (init (Config [] [None] 2 1) []) = Some s
  /\ s_r s = RDone false.
Proof.
  exists [R]. eexists. split; [repeat constructor|]. split; [vm_compute; reflexivity|]. reflexivity.
Qed.
Print Assumptions nbd_copy_empty_refuted.
